(** What adding a directory tree of the host must do. *)
From Verif Require Export FsAdder SpecExtract.

(** The tree below the directory [root] of the host can be archived: the OS lists exactly the names
    of each directory, in any order; the names are UTF-8; the tree has a finite depth; it consists of
    directories, readable files and links with a UTF-8 target. *)
Record source_tree (w : world) (root : path) (depth : nat) : Prop := {
  sr_parent : forall p x, h_names (w_fs w) (root ++ p ++ [x]) <> None -> p = [] \/ h_names (w_fs w) (root ++ p) = Some HDir;
  sr_list : forall p, p = [] \/ h_names (w_fs w) (root ++ p) = Some HDir ->
    exists names, w_list w (root ++ p) = Some names /\ NoDup names /\
      forall n, In n names <-> h_names (w_fs w) (root ++ p ++ [n]) <> None;
  sr_names : forall p n, h_names (w_fs w) (root ++ p) <> None -> In n p -> ordinary n /\ utf8 n = true;
  sr_depth : forall p, h_names (w_fs w) (root ++ p) <> None -> (length p <= depth)%nat;
  sr_files : forall p i, p <> [] -> h_names (w_fs w) (root ++ p) = Some (HFile i) ->
    at_special (w_attr w (root ++ p)) = false /\ at_readable (w_attr w (root ++ p)) = true;
  sr_targets : forall p t m, p <> [] -> h_names (w_fs w) (root ++ p) = Some (HLink t m) -> t <> [] /\ utf8 t = true }.

(** [nd] describes the node [n] found at the physical path [q]: same kind, content, target, owner,
    group, mode and time. *)
Definition mirrors_as (w : world) (q : path) (n : hnode) (contents : list bytes) (nd : node) : Prop :=
  let a := w_attr w q in
  m_uid (snd nd) = at_uid a /\ m_gid (snd nd) = at_gid a /\ m_mode (snd nd) = at_mode a /\
  m_mtime (snd nd) = as_u64 (at_mtime a) /\
  match n with
  | HFile i => exists addr, fst nd = KFile (N.of_nat (length (h_data (w_fs w) i))) addr /\
                            fetch_of contents addr = Found (h_data (w_fs w) i)
  | HLink t _ => fst nd = KLink t
  | HDir => fst nd = KDir
  end.
(** [nd] describes what is at [q] ("/" has no name: see [mirrors_as] with [HDir]). *)
Definition mirrors (w : world) (q : path) (contents : list bytes) (nd : node) : Prop :=
  exists n, h_names (w_fs w) q = Some n /\ mirrors_as w q n contents nd.

(** A path string stands for the path [p], up to "." components. *)
Definition stands_for (s : bytes) (p : path) : Prop := is_abs s = false /\ filter not_dot (pieces s) = p.

(** All calls of a history succeeded. *)
Definition all_ok (l : list entry) : Prop := forall r, In r (answers l) -> r = Ok tt.

(** Names [p] of [f] and [q] of [g] hold the same kind of node with the same content or target. *)
Definition same_at (f : hostfs) (p : path) (g : hostfs) (q : path) : Prop :=
  match h_names f p with
  | None => h_names g q = None
  | Some HDir => h_names g q = Some HDir
  | Some (HFile i) => has_file g q (h_data f i)
  | Some (HLink t _) => has_link g q t
  end.
