(** When [arx create] succeeds (C100). *)
From Verif Require Export SpecClash.

(** [s] can be archived (a link there being followed or not): it is relative, inside the prefix, in
    UTF-8, and, unless it is the prefix itself, something is there: a socket, pipe or device (left
    out), or a thing with a name (a path that does not end with "..") which can be read if it is a
    regular file. *)
Definition fit (w : world) (pre : bytes) (s : bytes) (follow : bool) : Prop :=
  exists p, stands_for s (pieces pre ++ p) /\ Forall (fun n => utf8 n = true) (pieces pre ++ p) /\
    (p <> [] -> exists q n, look_str w follow s = At q n /\
       ((exists i, n = HFile i /\ at_special (w_attr w q) = true) \/
        ((forall i, n = HFile i -> at_special (w_attr w q) = false /\ at_readable (w_attr w q) = true) /\ forall d, p <> d ++ [b ".."]))).

(** [s] is a regular file or a link, and [t] would be archived at the same place or below it. *)
Definition blocks (w : world) (pre : bytes) (s : bytes) (fs : bool) (t : bytes) (ft : bool) : Prop :=
  plain w fs s /\ exists p r, p <> [] /\ stands_for s (pieces pre ++ p) /\ stands_for t (pieces pre ++ p ++ r) /\
    (r = [] -> archivable w ft t).

(** The output path is in an existing directory, and free or to be overwritten. *)
Definition output_free (w : world) (o : create_opts) : Prop :=
  exists d x, from_root w (o_out o) = d ++ [x] /\ is_directory w d /\ (leads_to_something w (o_out o) -> o_force o = true).

(** The list of files can be read ([w]: the host before the change of directory); or, without a list,
    every input is relative and leads to something ([w']: the host after it). *)
Definition inputs_there (w w' : world) (o : create_opts) : Prop :=
  match o_file_list o with
  | Some fl => exists q n, look_str w true fl = At q n /\ at_readable (w_attr w q) = true
  | None => forall x, In x (o_infiles o) -> is_abs x = false /\ leads_to_something w' x
  end.

(** No directory is met more than [depth] levels below [x]. *)
Definition shallow (w : world) (recurse : bool) (x : bytes) (depth : nat) : Prop :=
  recurse = true -> forall s q, walked w recurse x s -> enters w x s q -> (length (pieces s) < length (pieces x) + depth)%nat.
