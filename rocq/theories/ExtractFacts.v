(** Whole extractions: what they leave on the host file system. *)
From Verif Require Export HostFold.

Lemma plain_handled a d0 : plain_names a d0 -> handled_below a d0.
Proof.
  intros H i p Hp. destruct p as [|x t]; [constructor|]. specialize (H i (x :: t) Hp ltac:(easy)).
  eapply Forall_impl; [|exact H]. intros n [(H1 & H2 & H3 & H4) Hu]. repeat split; auto.
Qed.

Lemma made_tidy f g o : made f g o -> tidy f -> tidy g.
Proof.
  intros M T.
  assert (Hfile : forall p i, h_names g p = Some (HFile i) -> h_names f p = Some (HFile i)).
  { intros p i Hp. destruct (prefix_dec o p) as [[t Et]|Hn]; [|now rewrite <- (md_other _ _ _ M p) by auto].
    destruct p as [|x p]; [now rewrite (md_other _ _ _ M) in Hp by auto|]. rewrite (md_up _ _ _ M _ t Et) in Hp by easy. easy. }
  constructor.
  - intros p x n Hp. destruct (prefix_dec o (p ++ [x])) as [[t Et]|Hn].
    + destruct p as [|y p]; [now left|]. right. apply (md_up _ _ _ M _ ([x] ++ t)); [|easy]. now rewrite app_assoc.
    + rewrite (md_other _ _ _ M) in Hp by auto. apply (td_parent _ T) in Hp as [Hp|Hp]; auto. right. now apply (md_kept _ _ _ M).
  - rewrite (md_other _ _ _ M) by auto. apply (td_root _ T).
  - intros p i Hp. rewrite (md_next _ _ _ M). eapply (td_next _ T); eauto.
  - intros p q i Hp Hq. eapply (td_links _ T); eauto.
Qed.

Lemma tidy_names f g : (forall p, h_names g p = h_names f p) -> h_next g = h_next f -> tidy f -> tidy g.
Proof.
  intros E En T. constructor.
  - intros p x n. rewrite !E. apply (td_parent _ T).
  - rewrite E. apply (td_root _ T).
  - intros p i. rewrite E, En. apply (td_next _ T).
  - intros p q i. rewrite !E. apply (td_links _ T).
Qed.

Lemma below_app (q p : path) : below q p -> forall d, below (d ++ q) (d ++ p).
Proof. intros (x & t & ->) d. exists x, t. now rewrite app_assoc. Qed.

(** The selection, on paths. *)
Lemma chosen_sel cfg p dir : p <> [] -> handled p -> (should_extract cfg (join p) dir = true <-> sel cfg p dir).
Proof.
  intros Hp Hh. pose proof (pieces_join p (handled_good p Hh)) as E.
  rewrite should_extract_sel; rewrite E; tauto.
Qed.
Lemma handled_dotless p : handled p -> dotless p.
Proof. intros H Hin. unfold handled in H. rewrite Forall_forall in H. now destruct (H _ Hin) as (_ & Hn & _). Qed.

Section Visit.
  Variables (a : archive) (cfg : config) (d0 : path).
  Hypothesis Hwf : wf a.
  Hypothesis Hh : handled_below a d0.

  Lemma stored_apath i p nd : astored a i p nd -> apath a i p.
  Proof. now intros (r & _ & H & _). Qed.

  Lemma chosen_visited i p nd : p <> [] -> astored a i (d0 ++ p) nd -> chosen cfg p nd = true -> visited a cfg d0 p nd.
  Proof.
    intros Hp Hs Hc. split; auto. split; [eauto|]. intros q Hq Hb.
    pose proof (Hh i p (stored_apath _ _ _ Hs)) as Hhp. unfold chosen in Hc. apply chosen_sel in Hc; auto.
    apply chosen_sel; auto.
    - destruct Hb as (x & t & ->). now apply handled_app in Hhp.
    - eapply sel_up; eauto. now apply handled_dotless.
  Qed.

  Lemma visited_dir p nd q : visited a cfg d0 p nd -> q <> [] -> below q p -> exists mt, visited a cfg d0 q (KDir, mt).
  Proof.
    intros (Hp & (i & Hs) & Hv) Hq Hb. pose proof (stored_apath _ _ _ Hs) as Hap. pose proof Hb as (x & t & ->).
    assert (Hd : d0 ++ q <> []) by now destruct d0; destruct q.
    rewrite app_assoc in Hap. destruct (apath_prefix a (d0 ++ q) x t i Hap Hd) as [k Hk].
    destruct (apath_prefix_dir a Hwf _ _ _ _ _ Hk Hap) as (r & ff & nb & Hr & Hpay).
    exists (meta_of_rec r). split; auto. split.
    - exists k, r. split; auto. split; auto. unfold node_of_rec. now rewrite Hpay.
    - intros q' Hq' Hb'. apply Hv; auto. destruct Hb' as (y & u & ->). exists y, (u ++ x :: t). now rewrite <- app_assoc.
  Qed.

  Lemma visited_handled p nd : visited a cfg d0 p nd -> handled p.
  Proof. intros (_ & (i & Hs) & _). eapply Hh, stored_apath, Hs. Qed.
End Visit.

Section Tidy.
  Variables (a : archive) (cfg : config) (rg : range) (d0 out : path) (f : hostfs).
  Hypothesis Hwf : wf a.
  Hypothesis Hrg : dir_range a rg d0.
  Hypothesis Hnames : plain_names a d0.
  Hypothesis Hout : outdir f (x_base cfg) out.
  Hypothesis Htidy : tidy f.
  Hypothesis Hnl : no_links a d0 f out.

  Theorem extract_tidy sched last g res : extract_range a rg cfg sched last f = (g, res) ->
    (* the output directory exists *)
    dirs_up g out /\
    (* everything else than the selected entries is as before *)
    (forall q, (forall i p nd, p <> [] -> astored a i (d0 ++ p) nd -> chosen cfg p nd = true -> q <> out ++ p) ->
       unchanged f g q \/ (q <> [] /\ (exists t, out = q ++ t) /\ h_names f q = None /\ h_names g q = Some HDir)) /\
    (* success: the selected entries are in place *)
    (res = Ok tt -> forall i p nd, p <> [] -> astored a i (d0 ++ p) nd -> chosen cfg p nd = true ->
       placed a (x_policy cfg) f g (out ++ p) nd) /\
    (* no failing write: each of them is as before or in place *)
    ((forall k, no_failure (sched k)) -> no_failure last -> res <> Diverge ->
       forall i p nd, p <> [] -> astored a i (d0 ++ p) nd -> chosen cfg p nd = true ->
       unchanged f g (out ++ p) \/ placed a (x_policy cfg) f g (out ++ p) nd) /\
    (* when it succeeds *)
    ((forall k, no_failure (sched k)) -> no_failure last -> res <> Diverge ->
       (forall i p t mt, p <> [] -> astored a i (d0 ++ p) (KLink t, mt) -> utf8 t = true) ->
       (forall i p nd, p <> [] -> astored a i (d0 ++ p) nd -> chosen cfg p nd = true -> fits a (x_policy cfg) f (out ++ p) nd) ->
       res = Ok tt) /\
    tidy g /\ h_dirtime g = h_dirtime f.
  Proof.
    intros Hrun. pose proof (plain_handled a d0 Hnames) as Hh.
    destruct (extract_runs a cfg Hwf rg d0 f Hrg Hh) as (items & Hitems & Hsorted & Hex).
    destruct (base_made f (x_base cfg) out Hout) as (f0 & Ec & M & Hshape). rewrite Ec in Hex.
    pose proof (made_tidy _ _ _ M Htidy) as T0.
    assert (Hoff : forall p, p <> [] -> unchanged f f0 (out ++ p)).
    { intros p Hp. split; [apply (md_other _ _ _ M); right|rewrite (md_data _ _ _ M), (md_mtime _ _ _ M); auto].
      intros [t E]. apply (f_equal (@length _)) in E. rewrite !app_length in E. destruct p; [easy|]. cbn in E. lia. }
    destruct (fold_run a cfg out Hshape f0 items Hsorted) with (todo := items) (done := @nil (path * node)) (f := f0) (log := @nil (N * bytes))
      as (done & rest & f1 & log & r & E1 & E2 & HS & Hr & Hsucc).
    - intros p nd Hin. apply Hitems in Hin as (Hp & (i & Hs) & _). split; auto.
      specialize (Hnames i p (stored_apath _ _ _ _ Hs) Hp). eapply Forall_impl; [|exact Hnames]. now intros n [Ho _].
    - intros p nd q Hin Hq Hb. apply Hitems in Hin. pose proof Hin as (_ & _ & Hv).
      destruct (visited_dir a cfg d0 Hwf Hh p nd q Hin Hq Hb) as [mt Hm]. exists mt. split; [now apply Hitems|auto].
    - intros p nd t m Hin Hn. apply Hitems in Hin as (Hp & (i & Hs) & _). rewrite (proj1 (Hoff p Hp)) in Hn. eapply Hnl; eauto.
    - reflexivity.
    - apply state_start; auto. apply (md_up _ _ _ M).
    - rewrite E1 in Hex. destruct (s_log _ _ _ _ _ _ _ HS) as [Hnd Hlog].
      specialize (Hex Hnd sched last g res Hrun). destruct Hex as (Hn & Hm & (Hnext & Hdt & _) & Hdat & Hok & _ & Hnof).
      assert (Hdt' : h_dirtime f0 = h_dirtime f) by apply (md_dirtime _ _ _ M).
      assert (Tg : tidy g) by (eapply tidy_names; eauto; apply (s_tidy _ _ _ _ _ _ _ HS)).
      assert (Hlift : forall q, (forall i, h_data g i = h_data f1 i) -> unchanged f1 g q).
      { intros q Hd. split; auto. }
      assert (Hchosen : forall p nd, In (p, nd) done -> chosen cfg p nd = true -> placed a (x_policy cfg) f f1 (out ++ p) nd).
      { intros p nd Hin Hc. pose proof (s_done _ _ _ _ _ _ _ HS p nd Hin) as Hp. rewrite Hc in Hp.
        assert (Hin' : In (p, nd) items) by (rewrite E2; apply in_app_iff; auto). apply Hitems in Hin' as (Hpn & _).
        eapply placed_from; [apply Hoff| |exact Hp]; auto. }
      split; [|split; [|split; [|split; [|split; [|split]]]]]; auto.
      + intros q t E Hq. rewrite Hn. now apply (s_up _ _ _ _ _ _ _ HS q t).
      + intros q Hq.
        assert (Hdone : unchanged f0 f1 q).
        { destruct (in_dec (list_eq_dec (list_eq_dec N.eq_dec)) q (map (fun x => out ++ fst x) done)) as [Hi|Hi].
          - apply in_map_iff in Hi as ([p nd] & <- & Hi). cbn [fst] in *. pose proof (s_done _ _ _ _ _ _ _ HS p nd Hi) as Hp.
            destruct (chosen cfg p nd) eqn:Ech; auto. exfalso.
            assert (Hin' : In (p, nd) items) by (rewrite E2; apply in_app_iff; auto). apply Hitems in Hin' as (Hpn & (i & Hs) & _).
            now apply (Hq i p nd).
          - apply (s_rest _ _ _ _ _ _ _ HS). intros p nd Hin ->. apply Hi. apply in_map_iff. exists (p, nd). auto. }
        assert (Hg : unchanged f1 g q).
        { split; auto. intros i Hi. split; auto. apply Hdat. intros Hil. destruct (Hlog i Hil) as (p & nd & Hin & Hc & Hf).
          pose proof (td_links _ (s_tidy _ _ _ _ _ _ _ HS) _ _ _ Hi Hf) as ->.
          assert (Hin' : In (p, nd) items) by (rewrite E2; apply in_app_iff; auto). apply Hitems in Hin' as (Hpn & (j & Hs) & _).
          now apply (Hq j p nd). }
        pose proof (unchanged_trans _ _ _ _ Hdone Hg) as Hu.
        destruct (h_names f q) as [n|] eqn:Efq.
        { left. eapply unchanged_trans; [|exact Hu]. split.
          - now rewrite (md_kept _ _ _ M q n Efq).
          - rewrite (md_data _ _ _ M), (md_mtime _ _ _ M). auto. }
        destruct (prefix_dec out q) as [[t Et]|Hnp].
        { destruct q as [|x q].
          - left. eapply unchanged_trans; [|exact Hu]. split; [apply (md_other _ _ _ M); auto|]. rewrite Efq. easy.
          - right. split; [easy|]. split; [eauto|]. split; auto. rewrite (proj1 Hu). apply (md_up _ _ _ M _ t); auto. easy. }
        left. eapply unchanged_trans; [|exact Hu]. split; [apply (md_other _ _ _ M); auto|]. rewrite Efq. easy.
      + intros Er i p nd Hp Hs Hc. destruct (Hok Er) as [-> Hd]. assert (rest = []) as -> by now apply Hr.
        rewrite app_nil_r in E2. subst done. eapply placed_kept; [|apply (Hlift _ Hd)].
        apply Hchosen; auto. apply Hitems. eapply chosen_visited; eauto.
      + intros Hf1 Hf2 Hnd' i p nd Hp Hs Hc. destruct (Hnof Hf1 Hf2 Hnd') as [-> Hd].
        assert (Hin : In (p, nd) items) by (apply Hitems; eapply chosen_visited; eauto).
        rewrite E2 in Hin. apply in_app_iff in Hin as [Hin|Hin].
        * right. eapply placed_kept; [|apply (Hlift _ Hd)]. auto.
        * left. eapply unchanged_trans; [apply Hoff; auto|]. eapply unchanged_trans; [|apply (Hlift _ Hd)].
          apply (s_rest _ _ _ _ _ _ _ HS). intros p' nd' Hin' E. apply app_inv_head in E. subst p'.
          assert (Hs2 : StronglySorted path_lt (map fst (done ++ rest))) by now rewrite <- E2. rewrite map_app in Hs2.
          apply (in_map fst) in Hin, Hin'. cbn [fst] in *. clear - Hs2 Hin Hin'.
          induction (map fst done) as [|y l IH]; [easy|]. cbn [app] in Hs2. apply StronglySorted_inv in Hs2 as [H1 H2].
          destruct Hin' as [->|Hin']; auto. rewrite Forall_forall in H2. apply (path_lt_irrefl p). apply H2. apply in_app_iff. auto.
      + intros Hf1 Hf2 Hnd' Hu Hfit. destruct (Hnof Hf1 Hf2 Hnd') as [-> Hd]. apply Hsucc.
        * intros p nd Hin. apply Hitems in Hin as (Hp & (i & Hs) & _). destruct nd as [[| |t] mt]; cbn; auto. now apply (Hu i p t mt).
        * intros p nd Hin Hc. apply Hitems in Hin as (Hp & (i & Hs) & _). eapply fits_from; [apply Hoff; auto|auto|eauto].
      + rewrite Hdt. rewrite (s_dirtime _ _ _ _ _ _ _ HS). exact Hdt'.
  Qed.
End Tidy.
