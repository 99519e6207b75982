(** When adding from Python raises (C103). *)
From Verif Require Export SpecSucceeds SpecPython.

(** The [with] block of a program that adds these paths (each with [recursive]) on the host [w]. *)
Definition block_of (w : world) (l : list (bytes * bool)) : list pycall := PyEnter :: map (fun x => PyAdd w (fst x) (snd x)) l.

(** [t] is gone through because of the path [x]: it is that path, which leads to something, or, with
    [recursive], a name below it. *)
Definition came_by (w : world) (x : bytes * bool) (t : bytes) (follow : bool) : Prop :=
  leads_to_something w (fst x) /\ walked w (snd x) (fst x) t /\ (follow = true <-> t = fst x).

(** The host lists ordinary names, none twice, and every directory below the paths, which are not too
    deep. *)
Record walkable (fuel : nat) (w : world) (l : list (bytes * bool)) : Prop := {
  wk_names : forall q names n, w_list w q = Some names -> In n names -> ordinary n;
  wk_once : forall q names, w_list w q = Some names -> NoDup names;
  wk_listed : forall s, In (s, true) l -> forall d q, walked w true s d -> enters w s d q -> w_list w q <> None;
  wk_depth : forall s rc, In (s, rc) l -> shallow w rc s fuel }.
