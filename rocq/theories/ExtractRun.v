(** A whole extraction in terms of the sequential one. *)
From Verif Require Export ExtractSeq TraceProofs.

Section Inv.
  Context {C F L D : Type}.
  Variables (B : builder F L D) (a : archive) (op : operator C F L D) (P : C -> Prop).
  Hypothesis He : forall c d, P c -> P (fst (on_enter op c d)).
  Hypothesis Hx : forall c d, P c -> P (fst (on_exit op c d)).
  Hypothesis Hf : forall c d, P c -> P (fst (on_file op c d)).
  Hypothesis Hl : forall c d, P c -> P (fst (on_link op c d)).

  Lemma walk_inv fo : forall c, P c -> P (fst (walk_forest B a op fo c)).
  Proof.
    induction fo as [|i r kids IHk rest IHr]; intros c Hc; cbn [walk_forest]; auto.
    destruct (create_entry B a i) as [[f|l|rg d]|e| |]; cbn [andthen fst]; auto.
    - specialize (Hf c f Hc). destruct (on_file op c f) as [c1 [u|e| |]]; cbn [andthen fst] in *; auto.
    - specialize (Hl c l Hc). destruct (on_link op c l) as [c1 [u|e| |]]; cbn [andthen fst] in *; auto.
    - specialize (He c d Hc). destruct (on_enter op c d) as [c1 [u|e| |]]; cbn [andthen fst] in *; auto.
      assert (H2 : P (fst (if u then walk_forest B a op kids c1 else (c1, Ok tt)))) by (destruct u; auto).
      destruct (if u then walk_forest B a op kids c1 else (c1, Ok tt)) as [c2 [v|e| |]]; cbn [andthen fst] in *; auto.
      specialize (Hx c2 d H2). destruct (on_exit op c2 d) as [c3 [w|e| |]]; cbn [andthen fst] in *; auto.
  Qed.
End Inv.

Lemma tick_failed sched c : (forall k, no_failure (sched k)) -> x_failed (tick sched c) = x_failed c.
Proof. intros H. unfold tick. cbn. now apply run_turns_failed. Qed.

Section Run.
  Variables (a : archive) (cfg : config).
  Hypothesis Hwf : wf a.

  Lemma walk_not_failed sched fo c : (forall k, no_failure (sched k)) -> x_failed c = false ->
    x_failed (fst (walk_forest x_builder a (extractor a cfg sched) fo c)) = false.
  Proof.
    intros Hs. apply (walk_inv x_builder a (extractor a cfg sched) (fun c => x_failed c = false)); clear c; intros c d Hc; cbn [extractor on_enter on_exit on_file on_link].
    - rewrite <- (tick_failed sched c Hs) in Hc. destruct (should_extract _ _ _); auto.
      unfold io. destruct (create_dir_all _ _) as [f' [e|]]; auto.
    - cbn. auto.
    - rewrite <- (tick_failed sched c Hs) in Hc. unfold x_on_file. destruct d as [[nm addr] mt].
      destruct (should_extract _ _ _); auto. destruct (a_fetch a addr); auto. destruct (open_target _ _ _ _) as [f [[i|]|e| |]]; auto.
    - rewrite <- (tick_failed sched c Hs) in Hc. unfold x_on_link. destruct d as [[nm t] mt].
      destruct (should_extract _ _ _); auto. destruct (make_link _ _ _ _ _); auto.
  Qed.

  Lemma fnames_flat fo : forall d, (forall i p, In (i, p) (flat d fo) -> handled [last p []]) -> fnames fo.
  Proof.
    induction fo as [|i r kids IHk rest IHr]; intros d H; cbn [fnames]; auto. cbn [flat] in H. split; [|split].
    - specialize (H i (d ++ [r_name r]) (or_introl eq_refl)). now rewrite last_last in H.
    - apply (IHk (d ++ [r_name r])). intros k p Hp. apply (H k). right. apply in_app_iff. auto.
    - apply (IHr d). intros k p Hp. apply (H k). right. apply in_app_iff. auto.
  Qed.

  Definition node_at (i : N) : node := match at_ (a_recs a) i with Some r => node_of r | None => (KDir, mkMeta 0 0 0 0) end.

  Lemma vis_flatk keep d0 lo hi fo : forest_of a lo hi fo -> forall d,
    (forall i p, In (i, p) (flat (d0 ++ d) fo) -> keep i = should_extract cfg (join (skipn (length d0) p)) true) ->
    vis cfg d fo = map (fun x => (skipn (length d0) (snd x), node_at (fst x))) (flatk keep (d0 ++ d) fo).
  Proof.
    assert (Hsk : forall (q r : path), skipn (length q) (q ++ r) = r).
    { intros q r. rewrite skipn_app, skipn_all2, Nat.sub_diag by lia. reflexivity. }
    induction 1 as [lo|lo hi r rest Hlt Hr Hnd Hrest IH|lo hi r first nb kids rest Hlt Hr Hp Hkids IHk Hrest IHr];
      intros d H; cbn [vis flatk flat map fst snd] in *; auto.
    - assert (En : node_at lo = node_of r) by (unfold node_at; now rewrite Hr). rewrite En.
      rewrite <- app_assoc, Hsk. f_equal. rewrite map_app. f_equal.
      + destruct (keep lo); destruct (is_dir_node _ && _); reflexivity.
      + apply IH. intros i p Hi. apply H. right. now apply in_app_iff; right.
    - assert (En : node_at lo = node_of r) by (unfold node_at; now rewrite Hr). rewrite En.
      rewrite <- app_assoc, Hsk. f_equal. rewrite map_app. f_equal.
      + assert (Ed : is_dir_node (node_of r) = true) by (unfold node_of, node_of_rec; now rewrite Hp). rewrite Ed. cbn [andb].
        rewrite (H lo ((d0 ++ d) ++ [r_name r])) by now left. rewrite <- app_assoc, Hsk.
        destruct (should_extract cfg (join (d ++ [r_name r])) true); [|reflexivity].
        apply IHk. intros i p Hi. apply H. right. apply in_app_iff. left. now rewrite <- app_assoc.
      + apply IHr. intros i p Hi. apply H. right. now apply in_app_iff; right.
  Qed.

  Lemma apath_prefix p x t : forall i, apath a i (p ++ x :: t) -> p <> [] -> exists k, apath a k p.
  Proof.
    revert x. induction t as [|y t IH] using rev_ind; intros x i H Hp; apply apath_inv in H as (r & d & _ & Hd & E).
    - apply app_inj_tail in E as [-> _]. destruct Hd as [[_ ->]|(k & _ & Hk)]; [easy|eauto].
    - replace (p ++ x :: t ++ [y]) with ((p ++ x :: t) ++ [y]) in E by now rewrite <- app_assoc.
      apply app_inj_tail in E as [<- _]. destruct Hd as [[_ E]|(k & _ & Hk)]; [now destruct p|eauto].
  Qed.

  (** The names below [d0] are handled. *)
  Definition handled_below (d0 : path) : Prop := forall i p, apath a i (d0 ++ p) -> handled p.

  Lemma range_forest rg d0 : dir_range a rg d0 -> exists fo j,
    forest_of a (fst rg) (fst rg + snd rg) fo /\ brothers a j (fst rg) (fst rg + snd rg) /\ apdir a j d0 /\
    (forall i p, In (i, p) (flat d0 fo) <-> apath a i p /\ exists x t, p = d0 ++ x :: t) /\
    StronglySorted path_lt (map snd (flat d0 fo)) /\
    (forall C F L D (B : builder F L D) (op : operator C F L D) c,
      run_from_range B a op (walk_fuel a) rg c = andthen (on_start op c) (fun c _ => andthen (walk_forest B a op fo c) (fun c _ => on_stop op c))).
  Proof.
    intros [[-> ->]|(i & r & f & nb & Hp & Hr & Hpay & ->)]; cbn [fst snd].
    - destruct (run_forest a Hwf) as (fo & Hf & E). exists fo, 0. split; auto.
      split; [now apply root_brothers|]. split; [now left|]. destruct (root_flat a Hwf _ Hf) as [H1 H2].
      split; [|split; auto]. intros k p. rewrite H1. split; [|tauto]. intros H. split; auto.
      pose proof (apath_nonempty _ _ _ H). destruct p as [|x t]; [easy|]. exists x, t. reflexivity.
    - destruct (wf_dir a Hwf _ _ _ _ Hr Hpay) as [Hb _].
      destruct (run_from_range_forest a Hwf (walk_fuel a) f nb Hb) as (fo & Hf & E); [unfold walk_fuel; lia|].
      exists fo, (i + 1). split; auto. split; [eapply brothers_dir; eauto|]. split; [right; eauto|].
      destruct (dir_flat a Hwf _ _ _ _ _ _ Hr Hpay Hp Hf) as [H1 H2]. auto.
  Qed.

  Definition visited (d0 p : path) (nd : node) : Prop :=
    p <> [] /\ (exists i, astored a i (d0 ++ p) nd) /\
    forall q, q <> [] -> below q p -> should_extract cfg (join q) true = true.

  Lemma vis_spec rg d0 fo j :
    forest_of a (fst rg) (fst rg + snd rg) fo -> brothers a j (fst rg) (fst rg + snd rg) -> apdir a j d0 ->
    (forall i p, In (i, p) (flat d0 fo) <-> apath a i p /\ exists x t, p = d0 ++ x :: t) ->
    StronglySorted path_lt (map snd (flat d0 fo)) ->
    (forall p nd, In (p, nd) (vis cfg [] fo) <-> visited d0 p nd) /\
    StronglySorted path_lt (map fst (vis cfg [] fo)).
  Proof.
    intros Hf Hb Hd Hin Hsort.
    assert (Hsk : forall (q r : path), skipn (length q) (q ++ r) = r).
    { intros q r. rewrite skipn_app, skipn_all2, Nat.sub_diag by lia. reflexivity. }
    pose (keep := fun i => match find (fun x => fst x =? i) (flat d0 fo) with
                           | Some x => should_extract cfg (join (skipn (length d0) (snd x))) true | None => false end).
    assert (Hk : forall i p, In (i, p) (flat d0 fo) -> keep i = should_extract cfg (join (skipn (length d0) p)) true).
    { intros i p Hi. unfold keep. destruct (find (fun x => fst x =? i) (flat d0 fo)) as [[i' p']|] eqn:E.
      - apply find_some in E as [E1 E2]. cbn in E2. apply N.eqb_eq in E2. subst i'. cbn [snd].
        apply Hin in Hi as [Hi _]. apply Hin in E1 as [E1 _]. now rewrite (apath_det _ _ _ _ E1 Hi).
      - eapply find_none in E; [|exact Hi]. cbn in E. now rewrite N.eqb_refl in E. }
    assert (E : vis cfg [] fo = map (fun x => (skipn (length d0) (snd x), node_at (fst x))) (flatk keep d0 fo)).
    { pose proof (vis_flatk keep d0 _ _ _ Hf []) as E. rewrite app_nil_r in E. exact (E Hk). }
    assert (Hfk := fun i p => flatk_in keep a Hwf _ _ _ Hf j d0 Hb Hd i p).
    assert (Hnode : forall i p nd, apath a i p -> (astored a i p nd <-> node_at i = nd)).
    { intros i p nd Hp. destruct (apath_at _ _ _ Hp) as [r Hr]. unfold node_at, node_of. rewrite Hr.
      assert (Hex : exists m, node_of_rec r = Some m).
      { unfold node_of_rec. pose proof (wf_variant _ Hwf _ _ 0 Hr). destruct (r_payload r) as [| | |v] eqn:Ev; eauto. now apply (wf_variant _ Hwf _ _ v) in Hr. }
      destruct Hex as [m Em]. rewrite Em. split.
      - intros (r' & Hr' & _ & En). congruence.
      - intros <-. exists r. auto. }
    split.
    - intros p nd. rewrite E, in_map_iff. split.
      + intros ([i q] & Ex & Hi). cbn [fst snd] in Ex. injection Ex as Ep En. apply Hfk in Hi as [Hi Hr].
        pose proof Hi as Hi0. apply Hin in Hi as [Hi (x & t & Eq)]. subst q. rewrite Hsk in Ep. subst p.
        split; [easy|]. split; [exists i; now apply Hnode|].
        intros q Hq (y & u & Ep).
        assert (Hj : exists k, apath a k (d0 ++ q)).
        { apply (apath_prefix (d0 ++ q) y u i); [|now destruct d0; destruct q]. rewrite <- app_assoc, <- Ep. exact Hi. }
        destruct Hj as [k Hkp]. rewrite <- (Hsk d0 q). rewrite <- (Hk k (d0 ++ q)).
        * apply (Hr q y u k); auto. rewrite <- app_assoc, <- Ep. reflexivity.
        * apply Hin. split; auto. destruct q as [|z q]; [easy|]. exists z, q. reflexivity.
      + intros (Hp & (i & Hst) & Hs).
        assert (Hap : apath a i (d0 ++ p)) by (destruct Hst as (r & _ & H & _); exact H).
        exists (i, d0 ++ p). cbn [fst snd]. rewrite Hsk. split; [f_equal; now apply (Hnode i (d0 ++ p))|].
        apply Hfk. split.
        { apply Hin. split; auto. destruct p as [|x t]; [easy|]. exists x, t. reflexivity. }
        intros q x t k Hq Ep Hkp. rewrite (Hk k (d0 ++ q)).
        * rewrite Hsk. apply Hs; auto. exists x, t. rewrite <- app_assoc in Ep. now apply app_inv_head in Ep.
        * apply Hin. split; auto. destruct q as [|z q]; [easy|]. exists z, q. reflexivity.
    - rewrite E, map_map. cbn [fst snd].
      assert (Hs2 : StronglySorted path_lt (map snd (flatk keep d0 fo))) by (eapply sub_sorted; [apply sub_map, flatk_sub|exact Hsort]).
      assert (Hall : Forall (fun q => exists t, q = d0 ++ t) (map snd (flatk keep d0 fo))).
      { apply Forall_forall. intros q Hq. apply in_map_iff in Hq as ([i p] & <- & Hi). apply Hfk in Hi as [Hi _].
        apply Hin in Hi as [_ (x & t & ->)]. now exists (x :: t). }
      rewrite <- (map_map snd (skipn (length d0))). revert Hs2 Hall. generalize (map snd (flatk keep d0 fo)). clear - Hsk.
      intros l. induction l as [|q l IH]; intros Hs Ha; cbn [map]; constructor.
      + apply IH; [now apply StronglySorted_inv in Hs|now apply Forall_inv_tail in Ha].
      + apply StronglySorted_inv in Hs as [_ Hs]. apply Forall_forall. intros z Hz. apply in_map_iff in Hz as (y & <- & Hy).
        rewrite Forall_forall in Hs, Ha. specialize (Hs y Hy). destruct (Ha q (or_introl eq_refl)) as [t ->].
        destruct (Ha y (or_intror Hy)) as [u ->]. rewrite !Hsk. clear - Hs.
        induction d0 as [|n d0 IH]; auto. apply IH. unfold path_lt in *. cbn in Hs. 
        now rewrite bytes_cmp_refl in Hs.
  Qed.

  (** The whole extraction. *)
  Theorem extract_runs rg d0 f : dir_range a rg d0 -> handled_below d0 ->
    exists items,
      (forall p nd, In (p, nd) items <-> visited d0 p nd) /\
      StronglySorted path_lt (map fst items) /\
      match create_dir_all f (x_base cfg) with
      | (f0, Some e) => forall sched last, extract_range a rg cfg sched last f = (f0, Err (EIo e))
      | (f0, None) =>
          match xseq a cfg items f0 [] with
          | (f1, log, r) =>
              NoDup (map fst log) -> forall sched last g res,
              extract_range a rg cfg sched last f = (g, res) ->
              (forall p, h_names g p = h_names f1 p) /\
              (forall i, h_mtime g i = h_mtime f1 i) /\
              (h_next g = h_next f1 /\ h_dirtime g = h_dirtime f1 /\ h_now g = h_now f1) /\
              (forall i, ~ In i (map fst log) -> h_data g i = h_data f1 i) /\
              (res = Ok tt -> r = Ok tt /\ forall i, h_data g i = h_data f1 i) /\
              (res <> Diverge -> r <> Ok tt -> res = r) /\
              ((forall k, no_failure (sched k)) -> no_failure last -> res <> Diverge ->
                 res = r /\ forall i, h_data g i = h_data f1 i)
          end
      end.
  Proof.
    intros Hrg Hn. destruct (range_forest rg d0 Hrg) as (fo & j & Hf & Hb & Hd & Hin & Hsort & E).
    destruct (vis_spec rg d0 fo j Hf Hb Hd Hin Hsort) as [HV HS].
    assert (Hfn : fnames fo).
    { apply (fnames_flat fo d0). intros i p Hi. apply Hin in Hi as [Hi (x & t & ->)]. apply Hn in Hi.
      unfold handled in *. rewrite Forall_forall in Hi. constructor; [|constructor]. apply Hi.
      rewrite (app_removelast_last [] (l := d0 ++ x :: t)) by now destruct d0.
      rewrite last_last. replace (last (d0 ++ x :: t) []) with (last (x :: t) []).
      - rewrite (app_removelast_last [] (l := x :: t)) at 2 by easy. apply in_app_iff. right. now left.
      - clear. induction d0 as [|y d0 IH]; auto. cbn [app]. rewrite IH. destruct (d0 ++ x :: t) eqn:E; [now destruct d0|reflexivity]. }
    exists (vis cfg [] fo). split; auto. split; auto.
    assert (Etick : forall sched, tick sched (mkCtx [] f [] false 0) = mkCtx [] f [] false 1).
    { intros sched. unfold tick. assert (Er : forall l, run_turns l (mkCtx [] f [] false 0) = mkCtx [] f [] false 0).
      { induction l as [|[k o] l IH]; auto. cbn. unfold run_turns in IH. unfold one_turn at 2. cbn. destruct k; apply IH. }
      now rewrite Er. }
    assert (Eone : forall l g, run_turns l (mkCtx [] g [] false 1) = mkCtx [] g [] false 1).
    { induction l as [|[k o] l IH]; intros g; auto. cbn. unfold run_turns in IH. unfold one_turn at 2. cbn. destruct k; apply IH. }
    destruct (create_dir_all f (x_base cfg)) as [f0 [e|]] eqn:Ec.
    - intros sched last. unfold extract_range. rewrite E. cbn [extractor on_start]. rewrite Etick. cbn [x_fs].
      rewrite Ec. unfold io. cbn [fst snd andthen with_fs x_cur x_tasks x_failed x_tick]. unfold with_fs. cbn [fst snd x_cur x_tasks x_failed x_tick]. rewrite Eone. reflexivity.
    - destruct (xseq a cfg (vis cfg [] fo) f0 []) as [[f1 log] r] eqn:Es. intros Hlog sched last g res Hrun.
      unfold extract_range in Hrun. rewrite E in Hrun. cbn [extractor on_start] in Hrun. rewrite Etick in Hrun. cbn [x_fs] in Hrun.
      rewrite Ec in Hrun. unfold io, with_fs in Hrun. cbn [fst snd andthen with_fs x_cur x_tasks x_failed x_tick] in Hrun.
      set (c0 := mkCtx [] f0 [] false 1) in *.
      assert (Hrel : rel f0 [] c0) by (constructor; cbn; auto; try easy; now destruct f0).
      pose proof (walk_sim a cfg sched Hwf _ _ _ Hf [] f0 [] c0 (Forall_nil _) Hfn Hrel eq_refl) as Hsim.
      rewrite Es in Hsim. cbn [fst snd] in Hsim. specialize (Hsim Hlog). destruct Hsim as (R1 & R2 & _). cbn [fst snd] in R1, R2.
      assert (Hnf : (forall k, no_failure (sched k)) -> x_failed (fst (walk_forest x_builder a (extractor a cfg sched) fo c0)) = false).
      { intros Hs. now apply walk_not_failed. }
      cbn [extractor on_stop] in Hrun. fold (extractor a cfg sched) in Hrun.
      destruct (walk_forest x_builder a (extractor a cfg sched) fo c0) as [c1 r1]. cbn [fst snd] in R1, R2, Hnf. subst r1.
      assert (Hrun' : (let c2 := run_turns last c1 in
        (x_fs c2, if forallb t_done (x_tasks c2) then match r with Ok _ => if x_failed c2 then Err ESomeErrors else Ok tt | _ => r end else Diverge)) = (g, res)).
      { rewrite <- Hrun. destruct r; reflexivity. }
      clear Hrun. cbn zeta in Hrun'.
      pose proof (run_turns_rel f1 log last c1 Hlog R1) as R3.
      assert (Hfl : no_failure last -> x_failed (run_turns last c1) = x_failed c1) by apply run_turns_failed.
      set (c2 := run_turns last c1) in *. clearbody c2. injection Hrun' as <- Hres.
      destruct R3 as [H1 H2 H3 H4 H5].
      assert (Hdata : forallb t_done (x_tasks c2) = true -> x_failed c2 = false -> forall i, h_data (x_fs c2) i = h_data f1 i).
      { intros Hdone Hff i. destruct (in_dec N.eq_dec i (map fst log)) as [Hi|Hi]; [|auto].
        apply in_map_iff in Hi as ([i' dt] & E' & Hi). cbn in E'. subst i'. rewrite (H5 _ _ Hi).
        rewrite <- H2 in Hi. apply in_map_iff in Hi as (t & Et & Ht). injection Et as <- <-.
        destruct (H4 t Ht) as (K1 & K2 & K3). rewrite K1. rewrite forallb_forall in Hdone.
        destruct (K3 (Hdone t Ht)) as [K|K]; [|congruence]. rewrite K. apply firstn_all. }
      split; [intros p; rewrite H1; reflexivity|]. split; [intros i; rewrite H1; reflexivity|]. split; [rewrite H1; auto|]. split; [exact H3|].
      destruct (forallb t_done (x_tasks c2)); [|subst res; split; [easy|split; easy]].
      split; [|split].
      + intros ->. destruct r as [[]|e| |]; try discriminate Hres. destruct (x_failed c2); [discriminate Hres|auto].
      + intros _ Hr. destruct r as [[]|e| |]; auto. easy.
      + intros Hs Hl _. rewrite (Hfl Hl) in *. rewrite (Hnf Hs) in *. split; auto. destruct r as [[]|e| |]; auto.
  Qed.
End Run.
