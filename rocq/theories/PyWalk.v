(** Model of the programs of /repo/python/README.md, lines 50-85, that read an archive. *)
From Verif Require Export Python.

(** What [iterate] prints for an entry. *)
Inductive py_line :=
| LFile (path : bytes) (size : N) (head : bytes)
| LDir (path : bytes) (children : N)
| LLink (path target : bytes).

(** [iterate], lines 56-70, by recursion on [fuel], an upper bound of the nesting and of the lengths of the loops.
    The program as printed there does not run: [entry.nb_childen()] is read as [entry.nb_children()] and
    [loop_on_entry_generator(entry)] as [iterate(entry, path)]. *)
Fixpoint py_walk (fuel : nat) (a : archive) (root : bytes) (it : entry_iter) : res (list py_line) :=
  match fuel with
  | O => Diverge
  | S f =>
      match py_next a it with
      | (_, Ok None) => Ok []
      | (it', Ok (Some e)) =>
          let? n := py_path e in
          let path := root ++ 47 :: n in
          let? x :=
            (if py_is_file e then
               let? s := py_get_content a e in
               Ok [LFile path (stream_size s) (snd (stream_read s (N.min 100 (stream_size s))))]
             else if py_is_dir e then
               let? k := py_nb_children e in
               let? it2 := py_iter_entry e in
               let? inside := py_walk f a path it2 in
               Ok (LDir path k :: inside)
             else
               let? t := py_get_target e in
               Ok [LLink path t]) in
          let? rest := py_walk f a root it' in
          Ok (x ++ rest)
      | (_, Err e) => Err e
      | (_, Panic) => Panic
      | (_, Diverge) => Diverge
      end
  end.

(** [entry.parent.parent. ...], lines 75-78: [k] times; [None] has no [parent]. *)
Fixpoint py_parents (a : archive) (k : nat) (e : full_entry) : res (option full_entry) :=
  match k with
  | O => Ok (Some e)
  | S k =>
      let? o := py_parent a e in
      match o with
      | Some e' => py_parents a k e'
      | None => match k with O => Ok None | S _ => Err (EOther (b "AttributeError")) end
      end
  end.
