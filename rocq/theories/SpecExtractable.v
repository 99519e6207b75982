(** When an extraction succeeds (C102). *)
From Verif Require Export SpecExtract.

(** The directories above [p] are selected: the walk comes across [p], selected or not. *)
Definition comes_across (files : list bytes) (recurse : bool) (p : path) : Prop :=
  forall q, q <> [] -> below q p -> selected files recurse q true.

(** What is stored below the directory [d] after the history [l] can be extracted in [out]: every
    selected entry can be placed where it belongs on the file system [f] as it was before, and the
    targets of the links the walk comes across are in UTF-8. *)
Definition can_extract (a : archive) (l : list entry) (d : path) (files : list bytes) (recurse : bool) (pol : overwrite)
    (f : hostfs) (out : path) : Prop :=
  (forall p nd, p <> [] -> has l (d ++ p) nd -> selected files recurse p (is_dir_node nd) -> fits a pol f (out ++ p) nd) /\
  (forall p t mt, p <> [] -> has l (d ++ p) (KLink t, mt) -> comes_across files recurse p -> utf8 t = true).

(** A value for --root-dir that is understood, and the path it stands for. *)
Definition root_given (root : option bytes) (d : path) : Prop :=
  match root with
  | None => d = []
  | Some s => pieces s = d /\ is_abs s = false /\ utf8 s = true /\ ~ In (b ".") d /\ d <> []
  end.
