(** What [arx list] must print. *)
From Coq Require Export Sorting.Sorted.
From Verif Require Export ListCmd SpecSession.

(** Every line ends with a newline. *)
Definition text (lines : list bytes) : bytes := concat (map (fun l => l ++ [10]) lines).

(** The line of an entry in the stable format. *)
Definition stable_line (p : path) (nd : node) : bytes :=
  match fst nd with
  | KDir => b "d " ++ dec (m_mtime (snd nd)) ++ b " " ++ join p
  | KFile size _ => b "f " ++ dec (m_mtime (snd nd)) ++ b " " ++ dec size ++ b " " ++ join p
  | KLink t => b "l " ++ dec (m_mtime (snd nd)) ++ b " " ++ join p ++ b "->" ++ t
  end.

(** [ps] lists what the session stored, each path once, in path order. *)
Definition lists (l : list entry) (ps : list (path * node)) : Prop :=
  StronglySorted path_lt (map fst ps) /\ forall p nd, In (p, nd) ps <-> has l p nd.

(** No newline in the names stored. *)
Definition no_newline (l : list entry) : Prop := forall p nd n, has l p nd -> In n p -> ~ In 10 n.
