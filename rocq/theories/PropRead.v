(** C11-C18: reading an archive. *)
From Verif Require Export Demo ReadFacts.

(** C11: a path that is stored is found, with what was stored; a path that is not stored is not. *)
Theorem C11_get_entry : forall l fetch a s, small l -> archive_of l fetch a -> pieces s <> [] ->
  (forall nd, has l (pieces s) nd -> exists i e, get_entry full_builder a s = Ok e /\ shows a e i (pieces s) nd) /\
  ((forall nd, ~ has l (pieces s) nd) -> get_entry full_builder a s = Err ENotFound).
Proof. exact lookup_spec. Qed.
Print Assumptions C11_get_entry.

(** For paths written as names joined by "/". *)
Theorem C11_get_entry_joined : forall l fetch a p, small l -> archive_of l fetch a -> p <> [] ->
  (forall n, In n p -> n <> [] /\ ~ In 47 n) ->
  (forall nd, has l p nd -> exists i e, get_entry full_builder a (join p) = Ok e /\ shows a e i p nd) /\
  ((forall nd, ~ has l p nd) -> get_entry full_builder a (join p) = Err ENotFound).
Proof.
  intros l fetch a p Hs Ha Hne Hp.
  assert (E : pieces (join p) = p).
  { apply pieces_join. apply Forall_forall. intros n Hn. exact (Hp n Hn). }
  pose proof (lookup_spec l fetch a (join p) Hs Ha) as H. rewrite E in H. now apply H.
Qed.
Print Assumptions C11_get_entry_joined.

Example C11_meets_hypotheses : has demo (pieces (b "a//b/f.txt/")) (KFile 5 (mkAddr 1 0), d_meta).
Proof. exact demo_has. Qed.

(** C12: nothing is found below a file or a link. *)
Theorem C12_no_lookup_through_leaf : forall l fetch a s p nd x t, small l -> archive_of l fetch a ->
  pieces s = p ++ x :: t -> has l p nd -> fst nd <> KDir -> get_entry full_builder a s = Err ENotFound.
Proof. exact lookup_through_leaf. Qed.
Print Assumptions C12_no_lookup_through_leaf.

Example C12_meets_hypotheses : pieces (b "l/f.txt") = [b "l"] ++ b "f.txt" :: [] /\ has demo [b "l"] (KLink (b "a/b"), d_meta).
Proof.
  split; [reflexivity|]. exists 3%nat, (mkSentry (b "l") None (KLink (b "a/b")) d_meta).
  split; [reflexivity|]. split; [|reflexivity]. eapply (spath_top _ _ (mkSentry (b "l") None (KLink (b "a/b")) d_meta)); reflexivity.
Qed.

(** C13: get_entry aborts exactly on a path without components. *)
Theorem C13_panic_iff : forall l fetch a s, small l -> archive_of l fetch a ->
  (get_entry full_builder a s = Panic <-> pieces s = []).
Proof.
  intros l fetch a s Hs Ha. split; [|apply get_entry_empty]. intros H.
  destruct (pieces s) as [|x p] eqn:E; auto. exfalso.
  destruct (archive_ok l fetch a Hs Ha) as (m & _ & _ & _ & Hw & _).
  pose proof (get_entry_spec a Hw full_builder s (full_total a Hw)) as H'. rewrite H, E in H'. now apply H'.
Qed.
Print Assumptions C13_panic_iff.

Theorem C13_never_panics_refuted :
  get_entry full_builder demo_arx [] = Panic /\ get_entry full_builder demo_arx (b "/") = Panic.
Proof. split; reflexivity. Qed.
Print Assumptions C13_never_panics_refuted.

(** C14: the binary search of a name in a range of strictly increasing names. *)
Theorem C14_name_search : forall a lo n x,
  (forall k, lo <= k < lo + n -> exists r, at_ (a_recs a) k = Some r) ->
  (forall j k rj rk, lo <= j -> j < k -> k < lo + n ->
     at_ (a_recs a) j = Some rj -> at_ (a_recs a) k = Some rk -> bytes_cmp (r_name rj) (r_name rk) = Lt) ->
  (exists k r, k < n /\ range_find a (lo, n) x = Ok (Some k) /\ at_ (a_recs a) (lo + k) = Some r /\ r_name r = x) \/
  (range_find a (lo, n) x = Ok None /\
   forall k r, k < n -> at_ (a_recs a) (lo + k) = Some r -> r_name r <> x).
Proof.
  intros a lo n x H1 H2. pose proof (range_find_spec a lo n x (conj H1 H2)) as H.
  destruct (range_find a (lo, n) x) as [[k|]| | |]; try easy.
  - destruct H as (H3 & r & H4 & H5). left. exists k, r. auto.
  - right. auto.
Qed.
Print Assumptions C14_name_search.

Example C14_meets_hypotheses : range_find demo_arx (0, 2) (b "l") = Ok (Some 1) /\ range_find demo_arx (0, 2) (b "b") = Ok None.
Proof. split; reflexivity. Qed.

(** C15: the walk reports a well-bracketed listing of all the entries, each once, in path order;
    directories that the operator declines to enter are reported but not their contents. *)
Theorem C15_walk : forall l fetch a keep, small l -> archive_of l fetch a -> exists evs ips,
  run full_builder a (recorder keep) [] = (evs, Ok tt) /\
  listing a keep [] evs /\
  Forall2 (fun e ip => exists nd, has l (snd ip) nd /\ shows a e (fst ip) (snd ip) nd) (visits evs) ips /\
  StronglySorted path_lt (map snd ips) /\
  (forall i p, In (i, p) ips <-> apath a i p /\ reached a keep [] p).
Proof.
  intros l fetch a keep Hs Ha. destruct (archive_ok l fetch a Hs Ha) as (m & _ & _ & _ & Hw & _).
  destruct (walk_reports keep a Hw) as (evs & ips & H1 & H2 & H3 & H4 & H5). exists evs, ips.
  split; auto. split; auto. split; [|split; auto].
  clear - H3 Hs Ha. induction H3 as [|e ip es ips (nd & Hn & Hsh) _ IH]; constructor; auto.
  exists nd. split; auto. eapply archive_has; eauto.
Qed.
Print Assumptions C15_walk.

(** Entering everything, everything is visited. *)
Theorem C15_walk_all : forall l fetch a, small l -> archive_of l fetch a -> exists evs ips,
  run full_builder a (recorder (fun _ => true)) [] = (evs, Ok tt) /\
  listing a (fun _ => true) [] evs /\
  Forall2 (fun e ip => exists nd, has l (snd ip) nd /\ shows a e (fst ip) (snd ip) nd) (visits evs) ips /\
  StronglySorted path_lt (map snd ips) /\
  (forall i p, In (i, p) ips <-> apath a i p).
Proof.
  intros l fetch a Hs Ha. destruct (C15_walk l fetch a (fun _ => true) Hs Ha) as (evs & ips & H1 & H2 & H3 & H4 & H5).
  exists evs, ips. repeat (split; [assumption|]). intros i p. rewrite H5. split; [tauto|].
  intros H. split; auto. intros q x t j _ _ _. reflexivity.
Qed.
Print Assumptions C15_walk_all.

(** From the range of a directory: exactly what is below it. *)
Theorem C15_walk_below : forall l fetch a keep i d nd e, small l -> archive_of l fetch a ->
  astored a i d nd -> get_entry_at_idx full_builder a i = Ok e ->
  match e with
  | GDir rg _ => exists evs ips,
      run_from_range full_builder a (recorder keep) (walk_fuel a) rg [] = (evs, Ok tt) /\
      listing a keep d evs /\
      Forall2 (fun e ip => exists nd, astored a (fst ip) (snd ip) nd /\ shows a e (fst ip) (snd ip) nd) (visits evs) ips /\
      StronglySorted path_lt (map snd ips) /\
      (forall k p, In (k, p) ips <-> apath a k p /\ (exists x t, p = d ++ x :: t) /\ reached a keep d p)
  | _ => fst nd <> KDir
  end.
Proof.
  intros l fetch a keep i d nd e Hs Ha. destruct (archive_ok l fetch a Hs Ha) as (m & _ & _ & _ & Hw & _).
  exact (walk_dir_reports keep a Hw i d nd e).
Qed.
Print Assumptions C15_walk_below.

Example C15_meets_hypotheses : exists evs, run full_builder demo_arx (recorder (fun _ => true)) [] = (evs, Ok tt) /\ length evs = 7%nat.
Proof. eexists. split; vm_compute; reflexivity. Qed.

(** C16: whatever the operator does, the walk of a written archive needs no more recursion steps
    than there are entries: more fuel gives the same result, so it terminates. *)
Theorem C16_walk_terminates : forall l fetch a, small l -> archive_of l fetch a ->
  exists f, forall C F L D (B : builder F L D) (op : operator C F L D) c k, (length (a_recs a) < k)%nat ->
    run_from_range B a op k (a_root a) c =
    andthen (on_start op c) (fun c _ => andthen (walk_forest B a op f c) (fun c _ => on_stop op c)).
Proof.
  intros l fetch a Hs Ha. destruct (archive_ok l fetch a Hs Ha) as (m & _ & _ & _ & Hw & _).
  destruct (run_forest a Hw) as (f & Hf & E). exists f. intros C F L D B op c k Hk.
  destruct (wf_root _ Hw) as [Hb _].
  destruct (run_from_range_forest a Hw k (fst (a_root a)) (snd (a_root a)) Hb Hk) as (f' & Hf' & E').
  rewrite (surjective_pairing (a_root a)), E'.
  assert (f' = f) as ->; [|reflexivity].
  clear - Hf Hf'. revert f' Hf'. induction Hf as [lo|lo hi r rest Hlt Hr Hnd Hrest IH|lo hi r first nb kids rest Hlt Hr Hp Hkids IHk Hrest IHr];
    intros f' Hf'; inversion Hf' as [|? ? r' rest' ? Hr' Hnd' Hrest'|? ? r' first' nb' kids' rest' ? Hr' Hp' Hkids' Hrest']; subst; auto; try lia.
  - rewrite Hr in Hr'. injection Hr' as <-. f_equal. auto.
  - rewrite Hr in Hr'. injection Hr' as <-. now apply Hnd in Hp'.
  - rewrite Hr in Hr'. injection Hr' as <-. now apply Hnd' in Hp.
  - rewrite Hr in Hr'. injection Hr' as <-. rewrite Hp in Hp'. injection Hp' as <- <-. f_equal; auto.
Qed.
Print Assumptions C16_walk_terminates.

(** A crafted index whose directory contains itself makes the walk run forever: no fuel is enough. *)
Definition loop_arx : archive := mkArchive [mkRec (b "d") 0 0 0 0 0 (RDir 0 1)] (0, 1) (0, 1) (fun _ => NoContent).
Theorem C16_crafted_refuted : forall fuel c,
  snd (run_from_range full_builder loop_arx (recorder (fun _ => true)) fuel (a_root loop_arx) c) = Diverge.
Proof.
  intros fuel c. unfold run_from_range. cbn [recorder on_start andthen fst snd a_root loop_arx].
  assert (H : forall k c', snd (run_range full_builder loop_arx (recorder (fun _ => true)) k 0 (0 + 1) c') = Diverge).
  { induction k as [|k IH]; intros c'; [reflexivity|]. cbn [run_range].
    change (0 =? 0 + 1) with false. cbv iota.
    change (create_entry full_builder loop_arx 0) with
      (Ok (GDir (0, 1) (mkCommon 0 (b "d") None 0 0 0 0, (0, 1)) : full_entry)).
    cbn [andthen recorder on_enter fst snd].
    specialize (IH (c' ++ [Enter (mkCommon 0 (b "d") None 0 0 0 0, (0, 1))])).
    destruct (run_range full_builder loop_arx (recorder (fun _ => true)) k 0 (0 + 1) _) as [c1 o].
    cbn in IH. subst o. reflexivity. }
  specialize (H fuel c). destruct (run_range _ _ _ fuel 0 (0 + 1) c) as [c1 o]. cbn in H. subst o. reflexivity.
Qed.
Print Assumptions C16_crafted_refuted.

(** C17: what was given is what is read. *)
Theorem C17_round_trip : forall l fetch a p k mt, small l -> archive_of l fetch a ->
  (forall n, In n p -> n <> [] /\ ~ In 47 n) -> has l p (k, mt) ->
  m_uid mt < 2^32 -> m_gid mt < 2^32 ->
  exists e, get_entry full_builder a (join p) = Ok e /\
    c_path (common_of e) = last p [] /\
    c_owner (common_of e) = m_uid mt /\ c_group (common_of e) = m_gid mt /\ c_mtime (common_of e) = m_mtime mt /\
    c_rights (common_of e) = m_mode mt mod 2^8 /\
    match k with
    | KFile size addr => exists c, e = GFile (c, addr, size)
    | KLink t => exists c, e = GLink (c, t)
    | KDir => exists rg c, e = GDir rg (c, rg)
    end.
Proof.
  intros l fetch a p k mt Hs Ha Hp Hn Hu Hg.
  assert (Hne : p <> []).
  { destruct Hn as (s & e & _ & Hsp & _). now apply spath_nonempty in Hsp. }
  destruct (C11_get_entry_joined l fetch a p Hs Ha Hne Hp) as [H _].
  destruct (H _ Hn) as (i & e & He & Hsh). exists e. split; auto.
  assert (Hc : shows_common a (common_of e) i p mt).
  { destruct e as [[[c ad] sz]|[c t]|rg [c rg']]; cbn in Hsh |- *; destruct k; tauto. }
  destruct Hc as (_ & (d & n & Ep & Ec & _) & E1 & E2 & E3 & E4).
  rewrite N.mod_small in E1, E2 by assumption. repeat split; auto.
  - rewrite Ec, Ep. now rewrite last_last.
  - destruct e as [[[c ad] sz]|[c t]|rg [c rg']]; cbn in Hsh; destruct k; try tauto.
    + destruct Hsh as (_ & -> & ->). eauto.
    + destruct Hsh as (_ & ->). eauto.
    + destruct Hsh as (_ & -> & _). eauto.
Qed.
Print Assumptions C17_round_trip.

(** Rights are not preserved: 0o755 is stored and 0o355 is read. *)
Theorem C17_rights_refuted : exists l fetch a p mt e, archive_of l fetch a /\ has l p (KDir, mt) /\
  get_entry full_builder a (join p) = Ok e /\ m_mode mt = 493 /\ c_rights (common_of e) = 237.
Proof.
  exists demo, demo_fetch, demo_arx, [b "a"], (mkMeta 1000 1000 493 0). eexists.
  split; [exact demo_built|]. split.
  { exists 0%nat, (mkSentry (b "a") None KDir default_dir_meta). split; [reflexivity|]. split; [|reflexivity].
    eapply (spath_top _ _ (mkSentry (b "a") None KDir default_dir_meta)); reflexivity. }
  split; [vm_compute; reflexivity|]. split; reflexivity.
Qed.
Print Assumptions C17_rights_refuted.

Example C17_meets_hypotheses : has demo [b "a"; b "b"; b "f.txt"] (KFile 5 (mkAddr 1 0), d_meta) /\ m_uid d_meta < 2^32 /\ m_gid d_meta < 2^32.
Proof. split; [exact demo_has|]. split; reflexivity. Qed.

(** C18: parent() is the containing directory; climbing reaches the root in exactly depth steps. *)
Theorem C18_parent_links : forall l fetch a i p k, small l -> archive_of l fetch a -> apath a i p ->
  (k <= length p)%nat ->
  match firstn (length p - k) p with
  | [] => climb a k (Some i) = Some None
  | q => exists j, climb a k (Some i) = Some (Some j) /\ apath a j q
  end.
Proof.
  intros l fetch a i p k Hs Ha. destruct (archive_ok l fetch a Hs Ha) as (m & _ & _ & _ & Hw & _).
  apply (climb_spec a Hw k i p).
Qed.
Print Assumptions C18_parent_links.

Example C18_meets_hypotheses : climb demo_arx 3 (Some 4) = Some None /\ climb demo_arx 2 (Some 4) = Some (Some 0).
Proof. split; reflexivity. Qed.
