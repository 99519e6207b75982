(** What C55 and C74 say about the host. *)
From Verif Require Export CreateHost SpecCli SpecExtract SpecTree.

(** [d] is the whole of the file [k] of the archive [a] of a session whose additions all succeeded; the
    output is named [n]. *)
Definition complete (J : jbk) (m : concat_mode) (n k : bytes) (a : archive) (d : bytes) : Prop :=
  exists l contents, all_ok l /\ archive_of l (fetch_of contents) a /\ d = jb_bytes J m n (mkCreator (after l) contents) k.

(** No file has an inode that is still to be given. *)
Definition inodes_given (f : hostfs) : Prop := forall q i, h_names f q = Some (HFile i) -> i < h_next f.

(** The output is one of the files; with one file it is the only one. *)
Definition names_output (J : jbk) : Prop := (forall m n, In n (jb_names J m n)) /\ (forall n, jb_names J OneFile n = [n]).

(** The path [s] ends with the name [n], after a path to the directory [dir]. *)
Definition leads_into (w : world) (s : bytes) (dir : path) (n : bytes) : Prop :=
  s <> [] /\ ends_with_sep s = false /\
  exists c, pieces s = c ++ [n] /\ look (w_fs w) true (if is_abs s then [] else w_cwd w, c) = At dir HDir.
