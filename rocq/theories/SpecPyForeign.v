(** What C98 says about Python programs that read an archive no creator wrote. *)
From Verif Require Export SpecHostile PyWalk.

(** An exception ([Panic]: a PanicException). *)
Definition raised {A} (r : res A) : Prop := r = Panic \/ exists e, r = Err e.

(** The parent of a record comes before it in the table. *)
Definition upward (a : archive) : Prop :=
  forall i r, at_ (a_recs a) i = Some r -> r_parent r <> 0 -> as_u32 (r_parent r) - 1 < i.
