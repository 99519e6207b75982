(** When two paths given to [arx create] cannot both be archived (C99). *)
From Verif Require Export SpecFaithful.

(** [s] is gone through because of the input (or line of the list) number [k]. *)
Definition taken_at (w : world) (o : create_opts) (files : option (list bytes)) (k : nat) (s : bytes) (follow : bool) : Prop :=
  match files with
  | Some l => nth_error l k = Some s /\ follow = o_follow o
  | None => exists x, nth_error (o_infiles o) k = Some x /\ walked w (o_recurse o) x s /\ (follow = true <-> s = x)
  end.

(** At [s] there is a directory, a regular file or a link: something that is archived. *)
Definition archivable (w : world) (follow : bool) (s : bytes) : Prop :=
  exists q n, look_str w follow s = At q n /\ forall i, n = HFile i -> at_special (w_attr w q) = false.
(** At [s] there is a regular file or a link. *)
Definition plain (w : world) (follow : bool) (s : bytes) : Prop :=
  exists q n, look_str w follow s = At q n /\ n <> HDir /\ forall i, n = HFile i -> at_special (w_attr w q) = false.

(** [s] is a regular file or a link, and would be archived where [t] would, or above it. *)
Definition in_the_way (w : world) (pre : bytes) (s : bytes) (fs : bool) (t : bytes) (ft : bool) : Prop :=
  plain w fs s /\ archivable w ft t /\ exists p r, p <> [] /\ stands_for s (pieces pre ++ p) /\ stands_for t (pieces pre ++ p ++ r).
