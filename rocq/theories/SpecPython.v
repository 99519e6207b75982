(** What the Python bindings must do. *)
From Verif Require Export Python SpecSession SpecCli.

(** The calls of [add] of a program, in order. *)
Fixpoint added (h : list pycall) : list (world * bytes * bool) :=
  match h with
  | [] => []
  | PyAdd w p rc :: r => (w, p, rc) :: added r
  | _ :: r => added r
  end.
(** A creator to which these are added, whatever each answers. *)
Definition filled (fuel : nat) (l : list (world * bytes * bool)) : creator :=
  fold_left (fun c x => fst (add_from_path fuel (fst (fst x)) [] (snd (fst x)) (snd x) c)) l creator_empty.

Definition never_entered (h : list pycall) : Prop := ~ In PyEnter h.
Definition not_left (h : list pycall) : Prop := forall exc, ~ In (PyExit exc) h.
(** Inside the block: entered, not left; [l] was added inside. *)
Definition in_block (h : list pycall) (l : list (world * bytes * bool)) : Prop :=
  exists h1 h2, h = h1 ++ PyEnter :: h2 /\ never_entered h1 /\ not_left h2 /\ l = added h2.
(** The block was left; [l] was added inside. *)
Definition block_left (h : list pycall) (l : list (world * bytes * bool)) : Prop :=
  exists h0 exc h3, h = h0 ++ PyExit exc :: h3 /\ in_block h0 l.

(** Successive reads. *)
Fixpoint reads (s : stream) (ns : list N) : stream * list bytes :=
  match ns with
  | [] => (s, [])
  | n :: r => let (s1, x) := stream_read s n in let (s2, l) := reads s1 r in (s2, x :: l)
  end.
