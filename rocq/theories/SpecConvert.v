(** What converting a tar or a zip must do. *)
From Verif Require Export Converters SpecCli.

(** ** tar *)
(** An extension header describes other members, it is not one. *)
Definition tar_extension (m : tar_member) : Prop :=
  tm_type m = TGnuLongName \/ tm_type m = TGnuLongLink \/ tm_type m = TXHeader \/ tm_type m = TXGlobalHeader.
(** A directory: by its type, or, before POSIX, by a final "/" in the name. *)
Definition tar_directory (m : tar_member) : Prop :=
  tm_type m = TDirectory \/
  (~ tar_extension m /\ tm_type m <> TSymlink /\ tm_ustar m = false /\ exists x, tm_header_path m = x ++ b "/").
Definition tar_link (m : tar_member) : Prop := tm_type m = TSymlink.
Definition tar_file (m : tar_member) : Prop := ~ tar_extension m /\ ~ tar_directory m /\ ~ tar_link m.

(** The path of a member. *)
Definition tar_path (m : tar_member) (p : path) : Prop :=
  exists s, tm_path m = Ok s /\ stands_for s p /\ Forall (fun n => utf8 n = true) p.
Definition tar_meta (m : tar_member) (mt : meta) : Prop :=
  tm_uid m = Ok (m_uid mt) /\ tm_gid m = Ok (m_gid mt) /\ tm_mode m = Ok (m_mode mt) /\ tm_mtime m = Ok (m_mtime mt).

(** What a member becomes in an archive with contents [fetch]. *)
Definition tar_becomes (m : tar_member) (fetch : caddr -> fetched) (nd : node) : Prop :=
  tar_meta m (snd nd) /\
  ((tar_directory m /\ fst nd = KDir) \/
   (tar_link m /\ exists t, tm_link m = Ok (Some t) /\ fst nd = KLink t) \/
   (tar_file m /\ exists data addr, tm_data m = Ok data /\ fst nd = KFile (N.of_nat (length data)) addr /\ fetch addr = Found data)).

(** ** zip *)
(** The name ends with a separator. *)
Definition zip_directory (m : zip_member) : Prop := exists x, zm_name m = x ++ b "/" \/ zm_name m = x ++ b "\".
(** The bytes of a member: stored as they are in the zip file, or decompressed. *)
Definition zip_bytes (file : bytes) (m : zip_member) (data : bytes) : Prop :=
  if zm_stored m then exists before after, file = before ++ data ++ after /\ N.of_nat (length before) = zm_start m /\ N.of_nat (length data) = zm_size m
  else zm_data m = Ok data.
(** The time of last modification: the extended timestamp when the last such field has one, otherwise
    the DOS time, otherwise 0. *)
Definition zip_time (m : zip_member) (t : N) : Prop :=
  (exists l, zm_ext_times m = l ++ [Some t]) \/
  ((zm_ext_times m = [] \/ exists l, zm_ext_times m = l ++ [None]) /\
   ((zm_dos_time m = None /\ t = 0) \/ (exists z, zm_dos_time m = Some (Some z) /\ t = as_u64 z))).
Definition zip_becomes (file : bytes) (m : zip_member) (fetch : caddr -> fetched) (nd : node) : Prop :=
  m_uid (snd nd) = 0 /\ m_gid (snd nd) = 0 /\
  (zm_mode m = Some (m_mode (snd nd)) \/ (zm_mode m = None /\ m_mode (snd nd) = 420)) /\
  zip_time m (m_mtime (snd nd)) /\
  ((zip_directory m /\ fst nd = KDir) \/
   (~ zip_directory m /\ exists data addr, zip_bytes file m data /\ fst nd = KFile (zm_size m) addr /\ fetch addr = Found data)).

(** A path that goes, at some point, above where it starts. *)
Fixpoint ups (l : path) : Z :=
  match l with [] => 0 | n :: r => if list_eq_dec N.eq_dec n (b "..") then (ups r - 1)%Z else if list_eq_dec N.eq_dec n (b ".") then ups r else (ups r + 1)%Z end.
Definition escapes (s : bytes) : Prop := exists l1 l2, pieces s = l1 ++ l2 /\ (ups l1 < 0)%Z.
(** A safe name: relative, without NUL, never above where it starts. *)
Definition safe_name (s : bytes) : Prop := is_abs s = false /\ ~ In 0 s /\ ~ escapes s.

(** ** Clashes *)
(** [isdir]: the member is a directory.  A list of members given by path and kind can be archived: no
    path twice unless for two directories, nothing below what is not a directory; every path has a last
    name. *)
Definition proper_prefix (p q : path) : Prop := exists x t, q = p ++ x :: t.
Definition has_last_name (p : path) : Prop := exists d n, p = d ++ [n] /\ n <> b "..".
Inductive no_clash : list (path * bool) -> Prop :=
| nc_nil : no_clash []
| nc_snoc l p d : no_clash l -> has_last_name p ->
    (forall q d', In (q, d') l -> (q = p -> d = true /\ d' = true) /\ (proper_prefix q p -> d' = true) /\ (proper_prefix p q -> d = true)) ->
    no_clash (l ++ [(p, d)]).

(** ** The inferred name *)
(** Trailing "/" and "/." do not count. *)
Inductive trailing : bytes -> Prop :=
| tr_nil : trailing []
| tr_sep t : trailing t -> trailing (t ++ b "/")
| tr_dot t : trailing t -> trailing (t ++ b "/.").
(** [s] is a file called [n] in the directory [d] (as written; [d] is empty or ends with "/"). *)
Definition file_in (s d n : bytes) : Prop :=
  exists tail, s = d ++ n ++ tail /\ trailing tail /\ (d = [] \/ exists x, d = x ++ b "/") /\
    ~ In 47 n /\ n <> [] /\ n <> b "." /\ n <> b "..".
(** [n] without its last extension is [m]. *)
Definition without_ext (n m : bytes) : Prop :=
  (m <> [] /\ exists e, n = m ++ b "." ++ e /\ ~ In 46 e) \/
  (m = n /\ forall x e, x <> [] -> n <> x ++ b "." ++ e).
(** An URL, or a path whose first component looks like one. *)
Definition like_url (s : bytes) : Prop := is_abs s = false /\ exists r, pieces s = b "https:" :: r \/ pieces s = b "http:" :: r.

(** A tar whose members can all be read; [t] lists the paths and kinds (directory or not) of those that
    are not extension headers. *)
Definition tar_readable (m : tar_member) : Prop :=
  (exists p, tar_path m p) /\ (exists mt, tar_meta m mt) /\
  (tar_link m -> exists t, tm_link m = Ok (Some t)) /\ (tar_file m -> exists data, tm_data m = Ok data).
Inductive tar_lists : list (res tar_member) -> list (path * bool) -> Prop :=
| tl_nil : tar_lists [] []
| tl_ext l t m : tar_lists l t -> tar_readable m -> tar_extension m -> tar_lists (l ++ [Ok m]) t
| tl_one l t m p d : tar_lists l t -> tar_readable m -> ~ tar_extension m -> tar_path m p -> (d = true <-> tar_directory m) ->
    tar_lists (l ++ [Ok m]) (t ++ [(p, d)]).

(** The same for a zip. *)
Definition zip_fitting (file : bytes) (m : zip_member) : Prop := zm_stored m = true -> zm_start m + zm_size m <= N.of_nat (length file).
Definition zip_readable (m : zip_member) : Prop :=
  utf8 (zm_name m) = true /\ safe_name (zm_name m) /\ (exists t, zip_time m t) /\ (zm_stored m = false -> exists data, zm_data m = Ok data).
Inductive zip_lists : list (option zip_member) -> list (path * bool) -> Prop :=
| zl_nil : zip_lists [] []
| zl_one l t m p d : zip_lists l t -> zip_readable m -> stands_for (zm_name m) p -> (d = true <-> zip_directory m) ->
    zip_lists (l ++ [Some m]) (t ++ [(p, d)]).
