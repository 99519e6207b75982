(** What C93 says of the host. *)
From Verif Require Export PyHost SpecPython SpecCreateHost.

(** The calls [h] left the [with] block, in which [l] was added, and [d] is the whole archive file of it. *)
Definition py_whole (J : jbk) (fuel : nat) (n : bytes) (h : list pycall) (d : bytes) : Prop :=
  exists l a, block_left h l /\ finalize (filled fuel l) = Some a /\ d = jb_bytes J OneFile n (filled fuel l) n.
