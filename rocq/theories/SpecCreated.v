(** What [arx create] is asked to archive, and what the archive must then hold. *)
From Verif Require Export SpecAdd SpecSession SpecCli.

(** An input given on the command line: the argument, the physical path it leads to (links
    followed), what is there, and the path it gets in the archive. *)
Record input := mkInput { in_arg : bytes; in_root : path; in_node : hnode; in_path : path; in_depth : nat }.

(** The argument stands for the prefix to strip followed by the archive path; it leads to a readable
    regular file, or to a tree that can be archived. *)
Definition good_input (w : world) (pre : bytes) (x : input) : Prop :=
  stands_for (in_arg x) (pieces pre ++ in_path x) /\ forallb utf8 (pieces (in_arg x)) = true /\ Forall ordinary (in_path x) /\
  look_str w true (in_arg x) = At (in_root x) (in_node x) /\
  match in_node x with
  | HDir => source_tree w (in_root x) (in_depth x)
  | HFile _ => in_path x <> [] /\ at_special (w_attr w (in_root x)) = false /\ at_readable (w_attr w (in_root x)) = true
  | HLink _ _ => False
  end.

(** No input is archived at, above or below another one. *)
Definition apart (l : list input) : Prop :=
  ForallOrdPairs (fun x y => (forall t, in_path y <> in_path x ++ t) /\ (forall t, in_path x <> in_path y ++ t)) l.

(** What the input [x] has at [q] below its root. *)
Definition at_input (w : world) (x : input) (q : path) (n : hnode) : Prop :=
  match q with
  | [] => n = in_node x
  | _ => in_node x = HDir /\ h_names (w_fs w) (in_root x ++ q) = Some n
  end.

(** The session [l] holds exactly the inputs: each node under its path, with its metadata and its
    content, and the missing directories above them. *)
Definition archives (w : world) (inputs : list input) (l : list entry) (contents : list bytes) : Prop :=
  (forall x q n, In x inputs -> at_input w x q n -> in_path x ++ q <> [] ->
     exists nd, has l (in_path x ++ q) nd /\ mirrors_as w (in_root x ++ q) n contents nd) /\
  (forall p nd, has l p nd ->
     (exists x q n, In x inputs /\ p = in_path x ++ q /\ at_input w x q n /\ mirrors_as w (in_root x ++ q) n contents nd) \/
     (nd = (KDir, mkMeta 1000 1000 493 0) /\ p <> [] /\ exists x y t, In x inputs /\ in_path x = p ++ y :: t)).

(** [-C dir]: the host seen from the directory of [dir]. *)
Definition entered (w : world) (base : option bytes) (w' : world) : Prop :=
  match base with
  | None => w' = w
  | Some d => look_str w true d = At (w_cwd w') HDir /\ w' = mkWorld (w_fs w) (w_attr w) (w_list w) (w_cwd w')
  end.
