(** What the mounting programs promise. *)
From Verif Require Export MountCmd SpecCli SpecExtract SpecMount.

(** [a] is the archive in the file that [s] leads to. *)
Definition archive_at (parse : bytes -> res archive) (w : world) (s : bytes) (a : archive) : Prop :=
  exists q i, look_str w true s = At q (HFile i) /\ parse (h_data (w_fs w) i) = Ok a.

(** [s], given on the command line, names the directory [d] of the archive: nothing is the top. *)
Definition asked_dir (l : list entry) (root_dir : option bytes) (d : path) : Prop :=
  match root_dir with
  | None => d = []
  | Some s => pieces s = d /\ is_abs s = false /\ utf8 s = true /\ ~ In (b ".") d /\ d <> [] /\ exists mt, has l d (KDir, mt)
  end.

(** [g] is [f] with the empty directory [q] added. *)
Definition plus_dir (f g : hostfs) (q : path) : Prop :=
  h_names f q = None /\ h_names g q = Some HDir /\ (forall p, p <> q -> h_names g p = h_names f p) /\
  (forall i, h_data g i = h_data f i) /\ (forall i, h_mtime g i = h_mtime f i).

(** Between [g] and [h], nothing happened but strictly below [q]. *)
Definition only_inside (g h : hostfs) (q : path) : Prop :=
  (forall p, ~ below q p -> h_names h p = h_names g p) /\
  (forall i, h_data h i = h_data g i) /\ (forall i, h_mtime h i = h_mtime g i).

(** The requests of each kind in a history. *)
Inductive what := WLookup | WGetattr | WReadlink | WOpen | WRead | WRelease | WOpendir | WReaddir | WReleasedir.
Definition what_of (q : request) : what :=
  match q with
  | Lookup _ _ => WLookup | Getattr _ => WGetattr | Readlink _ => WReadlink | Open _ => WOpen | Read _ _ _ => WRead
  | Release _ => WRelease | Opendir _ => WOpendir | Readdir _ _ _ => WReaddir | Releasedir _ => WReleasedir
  end.
Definition what_eq_dec (x y : what) : {x = y} + {x <> y}.
Proof. decide equality. Defined.
Definition times (x : what) (l : list request) : N := N.of_nat (count_occ what_eq_dec (map what_of l) x).

(** The number a counter record shows for each kind. *)
Definition shown (c : counters) (x : what) : N :=
  match x with
  | WLookup => nb_lookup c | WGetattr => nb_getattr c | WReadlink => nb_readlink c | WOpen => nb_open c | WRead => nb_read c
  | WRelease => nb_release c | WOpendir => nb_opendir c | WReaddir => nb_readdir c | WReleasedir => nb_releasedir c
  end.

(** A mount with statistics: requests served one after the other. *)
Inductive served_counted (a : archive) (root : range) : list (request * res reply) -> fs -> counters -> Prop :=
| sc_new : served_counted a root [] fs_new counters_new
| sc_step h s c q s' c' r : served_counted a root h s c -> step_counted a root (s, c) q = ((s', c'), Ok r) ->
    served_counted a root (h ++ [(q, Ok r)]) s' c'.
