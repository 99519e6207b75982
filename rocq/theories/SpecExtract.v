(** What extraction must do, stated on paths and on the host file system. *)
From Coq Require Export Sorting.Sorted.
From Verif Require Export Extract SpecSession RelPathFacts.

(** [p] is strictly below [d]. *)
Definition below (d p : path) : Prop := exists x t, p = d ++ x :: t.

(** The selection of C29: no list given, or listed, or (recursive) below a listed path, or a
    directory above a listed path. *)
Definition selected (files : list bytes) (recurse : bool) (p : path) (dir : bool) : Prop :=
  files = [] \/
  exists f, In f files /\
    (pieces f = p \/ (recurse = true /\ below (pieces f) p) \/ (dir = true /\ below p (pieces f))).

(** The range [rg] lists the directory [d] of the archive ([] for the whole archive). *)
Definition dir_range (a : archive) (rg : range) (d : path) : Prop :=
  (d = [] /\ rg = a_root a) \/
  (exists i r f nb, apath a i d /\ at_ (a_recs a) i = Some r /\ r_payload r = RDir f nb /\ rg = (f, nb)).

(** Two file systems with the same names, contents and times. *)
Definition same_fs (f g : hostfs) : Prop :=
  (forall p, h_names f p = h_names g p) /\ (forall i, h_data f i = h_data g i) /\
  (forall i, h_mtime f i = h_mtime g i).

(** A schedule in which no write fails. *)
Definition no_failure (l : turns) : Prop := forall k o, In (k, o) l -> o <> None.

(** Every name has a directory above it; files have inodes below [h_next]; no hard links. *)
Record tidy (f : hostfs) : Prop := {
  td_parent : forall p x n, h_names f (p ++ [x]) = Some n -> p = [] \/ h_names f p = Some HDir;
  td_root : h_names f [] = None;       (* "/" has no name *)
  td_next : forall p i, h_names f p = Some (HFile i) -> i < h_next f;
  td_links : forall p q i, h_names f p = Some (HFile i) -> h_names f q = Some (HFile i) -> p = q }.

(** The output directory: [out] is the physical path of [base]; it is given by ordinary components
    ("." allowed) and what exists of it consists of directories. *)
Definition outdir (f : hostfs) (base : opath) (out : path) : Prop :=
  Forall (fun c => c = b "." \/ ordinary c) (snd base) /\
  out = fst base ++ filter not_dot (snd base) /\
  (forall q x t, fst base = q ++ x :: t -> h_names f (q ++ [x]) = Some HDir) /\
  (forall q t, out = q ++ t -> q <> [] -> h_names f q = None \/ h_names f q = Some HDir).

(** No symbolic link stands in the way: below [out], none is found where the directory [d] of the
    archive stores a directory or a file. *)
Definition no_links (a : archive) (d : path) (f : hostfs) (out : path) : Prop :=
  forall i p nd t m, p <> [] -> astored a i (d ++ p) nd -> h_names f (out ++ p) = Some (HLink t m) ->
    exists t', fst nd = KLink t'.

(** The names stored below [d] are ordinary UTF-8 names. *)
Definition plain_names (a : archive) (d : path) : Prop :=
  forall i p, apath a i (d ++ p) -> p <> [] -> Forall (fun n => ordinary n /\ utf8 n = true) p.

(** Is the archived time not older than [t] (nanoseconds)? *)
Definition not_older (mtime : N) (t : Z) : Prop := (t <= 1000000000 * Z.of_N mtime)%Z.

(** The state of the name [q] in [g], coming from [f], once the node [nd] was extracted there. *)
Definition unchanged (f g : hostfs) (q : path) : Prop :=
  h_names g q = h_names f q /\
  forall i, h_names f q = Some (HFile i) -> h_data g i = h_data f i /\ h_mtime g i = h_mtime f i.
Definition has_file (g : hostfs) (q : path) (data : bytes) : Prop :=
  exists i, h_names g q = Some (HFile i) /\ h_data g i = data.
Definition has_link (g : hostfs) (q : path) (target : bytes) : Prop :=
  exists m, h_names g q = Some (HLink target m).
(** The time of what [q] names, itself (links are not followed). *)
Definition time_of (f : hostfs) (q : path) : option Z :=
  match h_names f q with
  | None => None
  | Some HDir => Some (h_dirtime f q)
  | Some (HFile i) => Some (h_mtime f i)
  | Some (HLink _ m) => Some m
  end.

(** [by_policy pol f q mtime done kept failed]: what the policy prescribes for an existing name. *)
Definition by_policy (pol : overwrite) (f g : hostfs) (q : path) (mtime : N) (replaced : Prop) : Prop :=
  match time_of f q with
  | None => replaced
  | Some t =>
      match pol with
      | Skip | Warn => unchanged f g q
      | Error => False
      | Newer => (not_older mtime t -> replaced) /\ (~ not_older mtime t -> unchanged f g q)
      | Overwrite => replaced
      end
  end.
Definition placed (a : archive) (pol : overwrite) (f g : hostfs) (q : path) (nd : node) : Prop :=
  match fst nd with
  | KDir => h_names g q = Some HDir
  | KFile _ addr =>
      match a_fetch a addr with
      | Found data => by_policy pol f g q (m_mtime (snd nd)) (has_file g q data)
      | MissingPack => unchanged f g q
      | _ => False       (* the extraction cannot have succeeded *)
      end
  | KLink t => by_policy pol f g q (m_mtime (snd nd)) (has_link g q t)
  end.

(** The conditions under which the entry [nd] can be extracted at [q]: a directory needs a free name
    or a directory; a file or a link needs a free name, or one that the policy keeps, or one that can
    be replaced (a file by a file; a file or a link by a link). *)
Definition replaceable (pol : overwrite) (f : hostfs) (q : path) (mtime : N) (fine : hnode -> Prop) : Prop :=
  match h_names f q with
  | None => True
  | Some n =>
      match pol with
      | Skip | Warn => True
      | Error => False
      | Overwrite => fine n
      | Newer => mtime < 2^63 /\ (forall t, time_of f q = Some t -> not_older mtime t -> fine n)
      end
  end.
Definition fits (a : archive) (pol : overwrite) (f : hostfs) (q : path) (nd : node) : Prop :=
  match fst nd with
  | KDir => h_names f q = None \/ h_names f q = Some HDir
  | KFile _ addr =>
      match a_fetch a addr with
      | Found _ => replaceable pol f q (m_mtime (snd nd)) (fun n => exists i, n = HFile i)
      | MissingPack => True
      | _ => False
      end
  | KLink t => t <> [] /\ replaceable pol f q (m_mtime (snd nd)) (fun n => n <> HDir)
  end.


(** The circumstances of an extraction: [a] was written after the history [l]; the range [rg] lists
    its directory [d]; the names stored there are ordinary; [out] is the output directory, on a file
    system [f] without hard links, and no symbolic link stands in the way. *)
Record setting (l : list entry) (fetch : caddr -> fetched) (a : archive) (rg : range) (d : path)
  (f : hostfs) (base : opath) (out : path) : Prop := {
  se_small : small l;
  se_built : archive_of l fetch a;
  se_range : dir_range a rg d;
  se_names : plain_names a d;
  se_out : outdir f base out;
  se_tidy : tidy f;
  se_links : no_links a d f out }.

(** A run whose writes never fail and that waits for all writers. *)
Definition quiet (sched : nat -> turns) (last : turns) : Prop := (forall k, no_failure (sched k)) /\ no_failure last.

(** The paths listed by the user have no "." component. *)
Definition plain_list (files : list bytes) : Prop := forall s, In s files -> ~ In (b ".") (pieces s).

(** The same kind of node with the same content or target. *)
Definition same_node (f g : hostfs) (q : path) : Prop :=
  match h_names f q, h_names g q with
  | None, None => True
  | Some HDir, Some HDir => True
  | Some (HFile i), Some (HFile j) => h_data f i = h_data g j
  | Some (HLink t _), Some (HLink u _) => t = u
  | _, _ => False
  end.
