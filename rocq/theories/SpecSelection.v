(** Which arguments of an extraction matter (C105). *)
From Verif Require Export SpecExtract SpecList.

(** Two selections agree on what is stored below the directory [d] after the history [l]. *)
Definition same_choice (l : list entry) (d : path) (files : list bytes) (rc : bool) (files2 : list bytes) (rc2 : bool) : Prop :=
  forall p nd, p <> [] -> has l (d ++ p) nd ->
    (selected files rc p (is_dir_node nd) <-> selected files2 rc2 p (is_dir_node nd)).

(** A name that can be in a line of a file list as it is: no newline in it, no carriage return at its end. *)
Definition one_line (n : bytes) : Prop := ~ In 10 n /\ forall y, n <> y ++ [13].
