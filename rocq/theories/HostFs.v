(** A model of the file system calls of [std::fs] (unix) that arx makes, on a POSIX file system.
    This is the environment of the program, not part of /repo: it belongs to the trusted base.
    Simplifications: permissions, quotas, NUL bytes, name length limits and directory times that
    evolve are not modelled; the clock is constant during a run. *)
From Verif Require Export Api RelPath.

(** What a name leads to. *)
Inductive hnode :=
| HDir
| HFile (ino : N)
| HLink (target : bytes) (mtime : Z).

(** The namespace maps physical paths (lists of names from "/") to nodes; the contents are kept by
    inode, so that hard links and open handles are represented.  Times are in nanoseconds. *)
Record hostfs := mkHost {
  h_names : path -> option hnode;
  h_data : N -> bytes;
  h_mtime : N -> Z;
  h_next : N;               (* no file has this inode or a larger one *)
  h_dirtime : path -> Z;
  h_now : Z }.

Fixpoint path_eqb' (p q : path) : bool :=
  match p, q with
  | [], [] => true
  | x :: p', y :: q' => bytes_eqb x y && path_eqb' p' q'
  | _, _ => false
  end.

Definition set_name (f : hostfs) (p : path) (v : option hnode) : hostfs :=
  mkHost (fun q => if path_eqb' q p then v else h_names f q) (h_data f) (h_mtime f) (h_next f) (h_dirtime f) (h_now f).
Definition set_data (f : hostfs) (i : N) (d : bytes) : hostfs :=
  mkHost (h_names f) (fun k => if k =? i then d else h_data f k) (h_mtime f) (h_next f) (h_dirtime f) (h_now f).
Definition touch (f : hostfs) (i : N) : hostfs :=
  mkHost (h_names f) (h_data f) (fun k => if k =? i then h_now f else h_mtime f k) (h_next f) (h_dirtime f) (h_now f).
Definition bump (f : hostfs) : hostfs :=
  mkHost (h_names f) (h_data f) (h_mtime f) (h_next f + 1) (h_dirtime f) (h_now f).

(** Path resolution.  [At p n]: the path leads to the physical path [p] holding [n]; [Missing p]:
    everything but the last component exists; otherwise an error. *)
Inductive looked := At (p : path) (n : hnode) | Missing (p : path) | Bad (e : ioerr).

(** [links] bounds the number of symbolic links followed (ELOOP); [follow]: is a final symbolic link
    followed?  [cur] is the physical path of an existing directory. *)
Fixpoint namei (links : nat) (f : hostfs) (follow : bool) : path -> list bytes -> looked :=
  fix go (cur : path) (comps : list bytes) {struct comps} : looked :=
    match comps with
    | [] => At cur HDir
    | c :: rest =>
        if bytes_eqb c (b ".") then go cur rest
        else if bytes_eqb c (b "..") then go (removelast cur) rest
        else
          let p := cur ++ [c] in
          match h_names f p with
          | None => match rest with [] => Missing p | _ => Bad IoNotFound end
          | Some HDir => go p rest
          | Some (HFile i) => match rest with [] => At p (HFile i) | _ => Bad IoNotDir end
          | Some (HLink t m) =>
              if match rest with [] => negb follow | _ => false end then At p (HLink t m)
              else match links with
                   | O => Bad IoLoop
                   | S k => namei k f follow (if is_abs t then [] else cur) (pieces t ++ rest)
                   end
          end
    end.

(** A path given to a system call: the directory it starts from ("/" or the current directory) and
    its components. *)
Notation opath := (path * list bytes)%type (only parsing).
Definition max_links : nat := 40.
Definition look (f : hostfs) (follow : bool) (p : opath) : looked := namei max_links f follow (fst p) (snd p).

(** mkdir *)
Definition mkdir (f : hostfs) (p : opath) : hostfs * option ioerr :=
  match look f false p with
  | At _ _ => (f, Some IoExists)
  | Missing q => (set_name f q (Some HDir), None)
  | Bad e => (f, Some e)
  end.

(** [Path::is_dir] *)
Definition is_dir_path (f : hostfs) (p : opath) : bool :=
  match look f true p with At _ HDir => true | _ => false end.

(** [std::fs::create_dir_all] (DirBuilder::create_dir_all): structural on the components. *)
Fixpoint create_dir_all_rev (f : hostfs) (start : path) (rev_comps : list bytes) : hostfs * option ioerr :=
  match rev_comps with
  | [] => (f, None)                      (* path == "" *)
  | _ :: parent =>
      match mkdir f (start, rev rev_comps) with
      | (f1, None) => (f1, None)
      | (f1, Some IoNotFound) =>
          match create_dir_all_rev f1 start parent with
          | (f2, None) =>
              match mkdir f2 (start, rev rev_comps) with
              | (f3, None) => (f3, None)
              | (f3, Some e) => if is_dir_path f3 (start, rev rev_comps) then (f3, None) else (f3, Some e)
              end
          | (f2, Some e) => (f2, Some e)
          end
      | (f1, Some e) => if is_dir_path f1 (start, rev rev_comps) then (f1, None) else (f1, Some e)
      end
  end.
Definition create_dir_all (f : hostfs) (p : opath) : hostfs * option ioerr :=
  create_dir_all_rev f (fst p) (rev (snd p)).

(** [OpenOptions::new().write(true).create_new(true).open] : O_CREAT|O_EXCL, the last component is
    never followed. *)
Definition open_new (f : hostfs) (p : opath) : hostfs * (N + ioerr) :=
  match look f false p with
  | At _ _ => (f, Datatypes.inr IoExists)
  | Missing q =>
      let i := h_next f in
      (touch (set_data (bump (set_name f q (Some (HFile i)))) i []) i, inl i)
  | Bad e => (f, Datatypes.inr e)
  end.

(** [OpenOptions::new().write(true).truncate(true).open] *)
Definition open_trunc (f : hostfs) (p : opath) : hostfs * (N + ioerr) :=
  match look f true p with
  | At _ (HFile i) => (touch (set_data f i []) i, inl i)
  | At _ HDir => (f, Datatypes.inr IoIsDir)
  | At _ (HLink _ _) => (f, Datatypes.inr IoLoop)
  | Missing _ => (f, Datatypes.inr IoNotFound)
  | Bad e => (f, Datatypes.inr e)
  end.

(** [std::os::unix::fs::symlink] *)
Definition symlink (f : hostfs) (target : bytes) (p : opath) : hostfs * option ioerr :=
  match target with
  | [] => (f, Some IoNotFound)
  | _ =>
      match look f false p with
      | At _ _ => (f, Some IoExists)
      | Missing q => (set_name f q (Some (HLink target (h_now f))), None)
      | Bad e => (f, Some e)
      end
  end.

(** [std::fs::remove_file] *)
Definition remove_file (f : hostfs) (p : opath) : hostfs * option ioerr :=
  match look f false p with
  | At _ HDir => (f, Some IoIsDir)
  | At q _ => (set_name f q None, None)
  | Missing _ => (f, Some IoNotFound)
  | Bad e => (f, Some e)
  end.

(** [metadata(p)?.modified()?] ([follow]) and [symlink_metadata] (not). *)
Definition modified (f : hostfs) (follow : bool) (p : opath) : res Z :=
  match look f follow p with
  | At q HDir => Ok (h_dirtime f q)
  | At _ (HFile i) => Ok (h_mtime f i)
  | At _ (HLink _ m) => Ok m
  | Missing _ => Err (EIo IoNotFound)
  | Bad e => Err (EIo e)
  end.

(** [write] on a handle at its own position: the bytes land at [off]; a gap is filled with zeros. *)
Definition pwrite (d : bytes) (off : nat) (chunk : bytes) : bytes :=
  firstn off (d ++ repeat 0 (off - length d)) ++ chunk ++ skipn (off + length chunk) d.
