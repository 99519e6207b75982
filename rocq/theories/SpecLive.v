(** What C78 says about archiving a host that changes. *)
From Verif Require Export Live SpecFaithful.

(** The stored [nd] was seen at the path [s]: owner, group, mode, time and kind are those of one moment
    [t1]; a file has the size of that moment and the bytes of one later moment, a link the target of one
    later moment.  A link that is to be followed was resolved before, to [s']. *)
Definition seen (H : history) (follow : bool) (s : bytes) (contents : list bytes) (nd : node) : Prop :=
  exists s' t1 t2 q n, (t1 <= t2)%nat /\
    (s' = s \/ (follow = true /\ exists t0 q0 n0, (t0 < t1)%nat /\ look_str (hs_at H t0) true s = At q0 n0 /\ s' = path_string q0)) /\
    look_str (hs_at H t1) false s' = At q n /\
    (let a := w_attr (hs_at H t1) q in
     m_uid (snd nd) = at_uid a /\ m_gid (snd nd) = at_gid a /\ m_mode (snd nd) = at_mode a /\ m_mtime (snd nd) = as_u64 (at_mtime a)) /\
    match n with
    | HDir => fst nd = KDir
    | HFile i => at_special (w_attr (hs_at H t1) q) = false /\
        exists addr q' j, fst nd = KFile (N.of_nat (length (h_data (w_fs (hs_at H t1)) i))) addr /\
          look_str (hs_at H t2) true s' = At q' (HFile j) /\ at_readable (w_attr (hs_at H t2) q') = true /\
          fetch_of contents addr = Found (h_data (w_fs (hs_at H (hs_read H t2))) j)
    | HLink _ _ => exists target q' m, fst nd = KLink target /\ look_str (hs_at H t2) false s' = At q' (HLink target m)
    end.

(** Everything stored was seen at one of the paths, without the prefix, or is a directory above one. *)
Definition seen_from (H : history) (pre : bytes) (paths : list (bytes * bool)) (l : list entry) (contents : list bytes) : Prop :=
  forall p nd, has l p nd ->
    (exists s follow, In (s, follow) paths /\ stands_for s (pieces pre ++ p) /\ seen H follow s contents nd) \/
    (nd = (KDir, mkMeta 1000 1000 493 0) /\ p <> [] /\
     exists s follow t, In (s, follow) paths /\ t <> [] /\ stands_for s (pieces pre ++ p ++ t)).

(** A socket, a device or a pipe was seen there. *)
Definition seen_other (H : history) (follow : bool) (s : bytes) : Prop :=
  exists s' t1 q i,
    (s' = s \/ (follow = true /\ exists t0 q0 n0, (t0 < t1)%nat /\ look_str (hs_at H t0) true s = At q0 n0 /\ s' = path_string q0)) /\
    look_str (hs_at H t1) false s' = At q (HFile i) /\ at_special (w_attr (hs_at H t1) q) = true.

(** Each of the paths is inside the prefix and, unless it is the prefix itself or such a special file,
    what was seen there is stored (of a directory met twice, the first one). *)
Definition all_seen (H : history) (pre : bytes) (paths : list (bytes * bool)) (l : list entry) (contents : list bytes) : Prop :=
  forall s follow, In (s, follow) paths -> exists p, stands_for s (pieces pre ++ p) /\ (p <> [] ->
    seen_other H follow s \/
    exists nd, seen H follow s contents nd /\ (has l p nd \/ (fst nd = KDir /\ exists m, has l p (KDir, m)))).

(** Files are only appended to: what a path opens has at least the bytes that any path to it had before. *)
Definition appended (H : history) : Prop := forall s t1 t2 q i q' j, (t1 <= t2)%nat ->
  look_str (hs_at H t1) false s = At q (HFile i) -> look_str (hs_at H t2) true s = At q' (HFile j) ->
  exists more, h_data (w_fs (hs_at H (hs_read H t2))) j = h_data (w_fs (hs_at H t1)) i ++ more.

(** A host as it can be: the names are names, and the current directory is a directory. *)
Definition possible (w : world) : Prop :=
  (forall q n, h_names (w_fs w) q = Some n -> Forall ordinary q) /\
  (forall p r, w_cwd w = p ++ r -> p <> [] -> h_names (w_fs w) p = Some HDir).

(** No stored file claims more bytes than its content has. *)
Definition whole_sizes (l : list entry) (fetch : caddr -> fetched) : Prop :=
  forall p size addr mt data, has l p (KFile size addr, mt) -> fetch addr = Found data -> size <= N.of_nat (length data).
