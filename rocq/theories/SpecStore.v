(** What a list of stored entries means: each entry has the path obtained by following parents. *)
From Verif Require Export Creator SpecTree.

(** The entry of slot [s] has path [p]. *)
Inductive spath (store : list sentry) : slot -> path -> Prop :=
| spath_top s e : nth_error store s = Some e -> se_parent e = None -> spath store s [se_name e]
| spath_sub s e d p : nth_error store s = Some e -> se_parent e = Some d -> spath store d p ->
    spath store s (p ++ [se_name e]).

(** [nd] is stored under path [p]. *)
Definition stored (store : list sentry) (p : path) (nd : node) : Prop :=
  exists s e, nth_error store s = Some e /\ spath store s p /\ nd = (se_kind e, se_meta e).

(** The entry store holds exactly the map [m]: same contents, and no path is stored twice. *)
Definition holds (store : list sentry) (m : pmap) : Prop :=
  (forall p nd, stored store p nd <-> m p = Some nd) /\
  (forall s, s < length store -> exists p, spath store s p)%nat /\
  (forall s p q, spath store s p -> spath store s q -> p = q) /\
  (forall s t p, spath store s p -> spath store t p -> s = t).
