(** What sorting the entries by (parent, name) means when the parent is given by its position. *)
From Verif Require Export Layout SpecStore.
From Coq Require Export Permutation.

Definition is_perm (store : list sentry) (ord : list slot) : Prop := Permutation (seq 0 (length store)) ord.

(** (position of the parent plus one or 0, name) of a slot when the entries are in order [ord]. *)
Definition own_key (store : list sentry) (ord : list slot) (s : slot) : N * bytes :=
  match nth_error store s with
  | Some e => (match se_parent e with None => 0 | Some d => index_of ord d + 1 end, se_name e)
  | None => (0, [])
  end.
Definition lt_key (x y : N * bytes) : Prop :=
  fst x < fst y \/ (fst x = fst y /\ bytes_cmp (snd x) (snd y) = Lt).

(** [ord'] is [ord] sorted, by whatever algorithm, under the positions of [ord]. *)
Definition one_round (store : list sentry) (ord ord' : list slot) : Prop :=
  Permutation ord ord' /\
  forall i j s t, (i < j)%nat -> nth_error ord' i = Some s -> nth_error ord' j = Some t ->
    ~ lt_key (own_key store ord t) (own_key store ord s).

(** [k] successive rounds. *)
Inductive many_rounds (store : list sentry) : nat -> list slot -> list slot -> Prop :=
| mr_0 ord : many_rounds store 0 ord ord
| mr_S k x y z : many_rounds store k x y -> one_round store y z -> many_rounds store (S k) x z.

(** Strictly sorted under its own positions. *)
Definition stable (store : list sentry) (ord : list slot) : Prop :=
  forall i j s t, (i < j)%nat -> nth_error ord i = Some s -> nth_error ord j = Some t ->
    lt_key (own_key store ord s) (own_key store ord t).

(** No path is longer than [D]. *)
Definition deep (store : list sentry) (D : nat) : Prop := forall s p, spath store s p -> (length p <= D)%nat.
