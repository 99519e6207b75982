(** What the options of the command line mean. *)
From Verif Require Export Cli SpecAdd.

(** The value of a string of decimal digits. *)
Definition is_digit (c : N) : Prop := 48 <= c <= 57.
Definition value (ds : bytes) : Z := fold_left (fun v c => 10 * v + (Z.of_N c - 48))%Z ds 0%Z.

(** [s] is a decimal numeral for [z]: digits, possibly after a "+", or a "-" when allowed. *)
Definition numeral (signed : bool) (s : bytes) (z : Z) : Prop :=
  exists ds, ds <> [] /\ Forall is_digit ds /\
    ((s = ds /\ z = value ds) \/ (s = b "+" ++ ds /\ z = value ds) \/ (signed = true /\ s = b "-" ++ ds /\ z = (- value ds)%Z)).

(** [s] is [name] up to the case of the ASCII letters. *)
Definition same_letter (c d : N) : Prop := c = d \/ (97 <= d <= 122 /\ c + 32 = d).
Definition spells (s name : bytes) : Prop := Forall2 same_letter s name.

(** What follows the name: nothing, or "=" and a level in the range. *)
Definition level (dflt : Z) (signed : bool) (lo hi : Z) (rest : bytes) (z : Z) : Prop :=
  (rest = [] /\ z = dflt) \/ (exists n, rest = b "=" ++ n /\ numeral signed n z /\ (lo <= z <= hi)%Z).

(** The compression asked by [s].  After "none=" anything is accepted. *)
Inductive asks : bytes -> compression -> Prop :=
| asks_none s : spells s (b "none") -> asks s CNone
| asks_none_level s n : spells s (b "none") -> asks (s ++ b "=" ++ n) CNone
| asks_lz4 s rest z : spells s (b "lz4") -> level 3 false 0 15 rest z -> asks (s ++ rest) (CLz4 z)
| asks_lzma s rest z : spells s (b "lzma") -> level 9 false 0 9 rest z -> asks (s ++ rest) (CLzma z)
| asks_zstd s rest z : spells s (b "zstd") -> level 5 true (-22) 22 rest z -> asks (s ++ rest) (CZstd z).

(** A path given on the command line, from "/" ("." removed; ".." kept). *)
Definition from_root (w : world) (s : bytes) : path := (if is_abs s then [] else w_cwd w) ++ filter not_dot (pieces s).

(** The directory seen from a path, links followed. *)
Definition is_directory (w : world) (p : path) : Prop := exists q, look (w_fs w) true ([], p) = At q HDir.
(** The path leads to something, links followed. *)
Definition leads_to_something (w : world) (s : bytes) : Prop := exists q n, look_str w true s = At q n.

(** The archive at the output path after some events, [old] being there before. *)
Fixpoint at_output (old : option archive) (evs : list out_event) : option archive :=
  match evs with
  | [] => old
  | Opened _ :: r => at_output old r
  | Written a :: r => at_output (Some a) r
  end.
