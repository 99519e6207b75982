(** What the reading programs of the Python README must print. *)
From Verif Require Export PyWalk SpecSession SpecOrder.

(** "/a/b/c" *)
Definition slashed (p : path) : bytes := concat (map (cons 47) p).

(** The line for the entry of the session [l] at the path [p]. *)
Definition line_for (l : list entry) (fetch : caddr -> fetched) (x : path * node) (y : py_line) : Prop :=
  match fst (snd x), y with
  | KFile _ addr, LFile s size head =>
      s = slashed (fst x) /\ exists data, fetch addr = Found data /\ size = N.of_nat (length data) /\ head = firstn 100 data
  | KDir, LDir s k =>
      s = slashed (fst x) /\ exists names, NoDup names /\ k = N.of_nat (length names) /\
        forall n, In n names <-> exists nd, has l (fst x ++ [n]) nd
  | KLink t, LLink s t' => s = slashed (fst x) /\ t' = t
  | _, _ => False
  end.

(** The names are text and the contents are there. *)
Definition readable (l : list entry) (fetch : caddr -> fetched) : Prop :=
  forall p nd, has l p nd -> (forall n, In n p -> utf8 n = true) /\
    match fst nd with KFile _ addr => exists data, fetch addr = Found data | _ => True end.
