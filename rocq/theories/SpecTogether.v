(** What C95 says of creations that run at the same time. *)
From Verif Require Export Together SpecCreateHost SpecLive SpecFaithful.

(** The attributes of a path, and its listing if it is a directory, depend on what is there: the same
    node, with the same bytes and time, or with the same names in it. *)
Definition local (T : told) : Prop := forall f g q,
  h_names f q = h_names g q -> (forall k, h_names f (q ++ [k]) = h_names g (q ++ [k])) -> h_dirtime f q = h_dirtime g q ->
  (forall i, h_names f q = Some (HFile i) -> h_data f i = h_data g i /\ h_mtime f i = h_mtime g i) ->
  tl_attr T f q = tl_attr T g q /\ tl_list T f q = tl_list T g q.

(** [q] is not an output, nor a directory with an output in it. *)
Definition aside (asked : path -> Prop) (q : path) : Prop := ~ asked q /\ forall k, ~ asked (q ++ [k]).

(** What [arx create] with the options [o] goes through in the world [w] is aside of the outputs. *)
Definition reads_aside (asked : path -> Prop) (w : world) (o : create_opts) (w' : world) (files : option (list bytes)) : Prop :=
  (forall s follow q n, taken w' o files s follow -> look_str w' follow s = At q n -> aside asked q) /\
  (forall fl q n, o_file_list o = Some fl -> look_str w true fl = At q n -> aside asked q).

(** The creation [c], with [d] for its file [k]. *)
Definition yields (J : jbk) (x : creation) (k d : bytes) : Prop :=
  In k (jb_names J (ct_mode x) (ct_name x)) /\ exists c a, ct_sealed x = Some c /\ finalize c = Some a /\ d = jb_bytes J (ct_mode x) (ct_name x) c k.

(** [s]: a moment of several creations on the host that was [f0]; no output is a link there. *)
Definition in_progress (J : jbk) (T : told) (asked : path -> Prop) (f0 : hostfs) (s : together) : Prop :=
  inodes_given f0 /\ names_output J /\ (forall q t m, asked q -> h_names f0 q <> Some (HLink t m)) /\
  together_steps J T asked (mkTogether f0 [f0] []) s.

(** The run that [arx create] with the options [o], started in [cwd], has alone on [f0]: it succeeds and
    reads aside of the outputs. *)
Definition separate (T : told) (asked : path -> Prop) (f0 : hostfs) (fuel : nat) (cwd : path) (o : create_opts) (w' : world) (files : option (list bytes)) : Prop :=
  let w := world_of T cwd f0 in
  possible w /\ entered w (o_base o) w' /\ lines_of w o files /\ (forall q names n, w_list w' q = Some names -> In n names -> ordinary n) /\ reads_aside asked w o w' files /\
  snd (create fuel w true o) = Ok tt.

(** ** What a creation archives of a host that changes meanwhile; [W]: the hosts of the past *)

(** [nd] was seen at [s] (see SpecLive.v), at moments of the past. *)
Definition seen_then (W : world -> Prop) (follow : bool) (s : bytes) (contents : list bytes) (nd : node) : Prop :=
  exists H, (forall t, W (hs_at H t)) /\ seen H follow s contents nd.
Definition seen_other_then (W : world -> Prop) (follow : bool) (s : bytes) : Prop :=
  exists H, (forall t, W (hs_at H t)) /\ seen_other H follow s.
(** The paths below the input [x]: names that a directory had in the past. *)
Inductive went (W : world -> Prop) (recurse : bool) (x : bytes) : bytes -> Prop :=
| went_self : went W recurse x x
| went_below d w q names n : recurse = true -> went W recurse x d -> W w -> w_list w q = Some names -> In n names ->
    went W recurse x (path_join d n).
(** The lines of the file list, opened at one moment and read at another one. *)
Definition lines_then (W : world -> Prop) (o : create_opts) (files : option (list bytes)) : Prop :=
  match o_file_list o with
  | None => files = None
  | Some fl => exists w w' q i l, W w /\ W w' /\ look_str w true fl = At q (HFile i) /\
      text_lines (h_data (w_fs w') i) l /\ Forall (fun x => utf8 x = true) l /\ files = Some l
  end.
Definition gone_by (W : world -> Prop) (o : create_opts) (files : option (list bytes)) (s : bytes) : Prop :=
  match files with Some l => In s l | None => exists x, In x (o_infiles o) /\ went W (o_recurse o) x s end.
(** The path [s] is inside the prefix and, unless it is the prefix itself or a special file, what was seen
    there is stored. *)
Definition arrived (W : world -> Prop) (pre s : bytes) (l : list entry) (contents : list bytes) : Prop :=
  exists p, stands_for s (pieces pre ++ p) /\ (p <> [] -> exists follow, seen_other_then W follow s \/
    exists nd, seen_then W follow s contents nd /\ (has l p nd \/ (fst nd = KDir /\ exists m, has l p (KDir, m)))).
