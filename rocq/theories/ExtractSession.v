(** Extractions of archives written by a session. *)
From Verif Require Export ExtractKeep ReadFacts.

Lemma has_unique l fetch a p nd nd' : small l -> archive_of l fetch a -> has l p nd -> has l p nd' -> nd = nd'.
Proof.
  intros Hs Ha H H'. destruct (archive_ok l fetch a Hs Ha) as (m & Hr & _). unfold has in *.
  apply (Hr p nd) in H. apply (Hr p nd') in H'. congruence.
Qed.

Lemma is_selected cfg p dir : plain_list (x_files cfg) -> p <> [] -> handled p ->
  (should_extract cfg (join p) dir = true <-> selected (x_files cfg) (x_recurse cfg) p dir).
Proof.
  intros Hl Hp Hh. rewrite chosen_sel; auto. apply sel_selected; auto. now apply handled_dotless.
Qed.

Section Session.
  Variables (l : list entry) (fetch : caddr -> fetched) (a : archive) (rg : range) (d out : path) (f : hostfs) (cfg : config).
  Hypothesis HS : setting l fetch a rg d f (x_base cfg) out.

  Lemma session_wf : wf a.
  Proof. now destruct (archive_ok l fetch a (se_small _ _ _ _ _ _ _ _ HS) (se_built _ _ _ _ _ _ _ _ HS)) as (m & _ & _ & _ & Hw & _). Qed.
  Lemma session_fetch : a_fetch a = fetch.
  Proof. now destruct (archive_ok l fetch a (se_small _ _ _ _ _ _ _ _ HS) (se_built _ _ _ _ _ _ _ _ HS)) as (m & _ & _ & Hf & _). Qed.
  Lemma session_has p nd : has l p nd <-> exists i, astored a i p nd.
  Proof. eapply archive_has; [apply (se_small _ _ _ _ _ _ _ _ HS)|apply (se_built _ _ _ _ _ _ _ _ HS)]. Qed.
  Lemma session_handled p nd : has l (d ++ p) nd -> handled p.
  Proof.
    intros H. apply session_has in H as [i H]. apply (plain_handled a d (se_names _ _ _ _ _ _ _ _ HS) i p).
    eapply stored_apath, H.
  Qed.

  Lemma session_run sched last g res : extract_range a rg cfg sched last f = (g, res) ->
    dirs_up g out /\
    (forall q, (forall p nd, p <> [] -> has l (d ++ p) nd -> should_extract cfg (join p) (is_dir_node nd) = true -> q <> out ++ p) ->
       unchanged f g q \/ (q <> [] /\ (exists t, out = q ++ t) /\ h_names f q = None /\ h_names g q = Some HDir)) /\
    (res = Ok tt -> forall p nd, p <> [] -> has l (d ++ p) nd -> should_extract cfg (join p) (is_dir_node nd) = true ->
       placed a (x_policy cfg) f g (out ++ p) nd) /\
    (quiet sched last -> res <> Diverge ->
       forall p nd, p <> [] -> has l (d ++ p) nd -> should_extract cfg (join p) (is_dir_node nd) = true ->
       unchanged f g (out ++ p) \/ placed a (x_policy cfg) f g (out ++ p) nd) /\
    (quiet sched last -> res <> Diverge ->
       (forall p t mt, p <> [] -> has l (d ++ p) (KLink t, mt) -> utf8 t = true) ->
       (forall p nd, p <> [] -> has l (d ++ p) nd -> should_extract cfg (join p) (is_dir_node nd) = true -> fits a (x_policy cfg) f (out ++ p) nd) ->
       res = Ok tt) /\
    tidy g /\ h_dirtime g = h_dirtime f.
  Proof.
    intros Hrun. destruct HS as [H1 H2 H3 H4 H5 H6 H7].
    destruct (extract_tidy a cfg rg d out f session_wf H3 H4 H5 H6 H7 sched last g res Hrun) as (A1 & A2 & A3 & A4 & A5 & A6 & A7).
    unfold chosen in *. split; [|split; [|split; [|split; [|split; [|split]]]]]; auto.
    - intros q Hq. apply A2. intros i p nd Hp Hs Hc. apply (Hq p nd); auto. apply session_has; eauto.
    - intros Er p nd Hp Hh Hc. apply session_has in Hh as [i Hi]. eauto.
    - intros [Hq1 Hq2] Er p nd Hp Hh Hc. apply session_has in Hh as [i Hi]. eauto.
    - intros [Hq1 Hq2] Er Hu Hfit. apply A5; auto.
      + intros i p t mt Hp Hs. apply (Hu p t mt); auto. apply session_has; eauto.
      + intros i p nd Hp Hs Hc. apply Hfit; auto. apply session_has; eauto.
  Qed.

  (** Into an empty directory. *)
  Hypothesis Hempty : forall p, p <> [] -> h_names f (out ++ p) = None.

  Lemma empty_fits : 
    (forall p t mt, p <> [] -> has l (d ++ p) (KLink t, mt) -> t <> []) ->
    (forall p size addr mt, p <> [] -> has l (d ++ p) (KFile size addr, mt) -> exists data, fetch addr = Found data) ->
    forall p nd, p <> [] -> has l (d ++ p) nd -> fits a (x_policy cfg) f (out ++ p) nd.
  Proof.
    intros Ht Hd p nd Hp Hh. unfold fits, replaceable. rewrite (Hempty p Hp). destruct nd as [[|size addr|t] mt]; cbn [fst]; auto.
    - rewrite session_fetch. now destruct (Hd p size addr mt Hp Hh) as [data ->].
    - split; auto. eauto.
  Qed.

  Lemma empty_placed g p nd : p <> [] -> placed a (x_policy cfg) f g (out ++ p) nd ->
    match fst nd with
    | KDir => h_names g (out ++ p) = Some HDir
    | KFile _ addr => match fetch addr with Found data => has_file g (out ++ p) data | _ => h_names g (out ++ p) = None end
    | KLink t => has_link g (out ++ p) t
    end.
  Proof.
    intros Hp H. unfold placed, by_policy, time_of, unchanged in H. rewrite session_fetch, (Hempty p Hp) in H.
    destruct (fst nd); auto. destruct (fetch addr); try tauto; easy.
  Qed.
End Session.

Section Empty.
  Variables (l : list entry) (fetch : caddr -> fetched) (a : archive) (rg : range) (d out : path) (f : hostfs) (cfg : config).
  Hypothesis HS : setting l fetch a rg d f (x_base cfg) out.
  Hypothesis Hempty : forall p, p <> [] -> h_names f (out ++ p) = None.

  Lemma no_prefix p : p <> [] -> ~ exists t : path, out = (out ++ p) ++ t.
  Proof. intros Hp [t E]. apply (f_equal (@length _)) in E. rewrite !app_length in E. destruct p; [easy|]. cbn in E. lia. Qed.

  (** What is found below the output directory was selected. *)
  Lemma empty_only sched last g res p : extract_range a rg cfg sched last f = (g, res) -> p <> [] -> h_names g (out ++ p) <> None ->
    exists nd, has l (d ++ p) nd /\ should_extract cfg (join p) (is_dir_node nd) = true.
  Proof.
    intros Hrun Hp Hn. destruct (session_run l fetch a rg d out f cfg HS sched last g res Hrun) as (_ & A2 & _).
    assert (Hdec : (exists nd, has l (d ++ p) nd /\ should_extract cfg (join p) (is_dir_node nd) = true) \/
                   (~ exists nd, has l (d ++ p) nd /\ should_extract cfg (join p) (is_dir_node nd) = true)).
    { destruct (archive_ok l fetch a (se_small _ _ _ _ _ _ _ _ HS) (se_built _ _ _ _ _ _ _ _ HS)) as (m & Hr & _). unfold has.
      destruct (m (d ++ p)) as [nd|] eqn:E.
      - destruct (should_extract cfg (join p) (is_dir_node nd)) eqn:Es.
        + left. exists nd. split; auto. now apply Hr.
        + right. intros (nd' & H1 & H2). apply (Hr (d ++ p) nd') in H1. congruence.
      - right. intros (nd' & H1 & H2). apply (Hr (d ++ p) nd') in H1. congruence. }
    destruct Hdec as [H|H]; auto. exfalso. destruct (A2 (out ++ p)) as [Hu|(_ & Ht & _)].
    - intros p' nd' Hp' Hh Hs E. apply app_inv_head in E. subst p'. apply H. eauto.
    - apply Hn. rewrite (proj1 Hu). auto.
    - now apply (no_prefix p).
  Qed.

  Lemma empty_exact sched last g : extract_range a rg cfg sched last f = (g, Ok tt) ->
    (forall p size addr mt, p <> [] -> has l (d ++ p) (KFile size addr, mt) -> exists data, fetch addr = Found data) ->
    forall p, p <> [] ->
    (h_names g (out ++ p) = Some HDir <-> exists mt, has l (d ++ p) (KDir, mt) /\ should_extract cfg (join p) true = true) /\
    (forall data, has_file g (out ++ p) data <->
       exists size addr mt, has l (d ++ p) (KFile size addr, mt) /\ fetch addr = Found data /\ should_extract cfg (join p) false = true) /\
    (forall t, has_link g (out ++ p) t <-> exists mt, has l (d ++ p) (KLink t, mt) /\ should_extract cfg (join p) false = true).
  Proof.
    intros Hrun Hpk p Hp.
    destruct (session_run l fetch a rg d out f cfg HS sched last g (Ok tt) Hrun) as (_ & _ & A3 & _).
    assert (Hpl : forall nd, has l (d ++ p) nd -> should_extract cfg (join p) (is_dir_node nd) = true -> _)
      by (intros nd Hh Hc; exact (empty_placed l fetch a rg d out f cfg HS Hempty g p nd Hp (A3 eq_refl p nd Hp Hh Hc))).
    assert (Hon : forall n, h_names g (out ++ p) = Some n -> exists nd, has l (d ++ p) nd /\ should_extract cfg (join p) (is_dir_node nd) = true).
    { intros n Hn. eapply empty_only; eauto. congruence. }
    split; [|split].
    - split.
      + intros Hn. destruct (Hon _ Hn) as (nd & Hh & Hc). specialize (Hpl nd Hh Hc). destruct nd as [[|size addr|t] mt]; cbn in Hpl, Hc.
        * eauto.
        * destruct (Hpk p size addr mt Hp Hh) as [dt E]. rewrite E in Hpl. destruct Hpl as (i & Hi & _). congruence.
        * destruct Hpl as (m & Hm). congruence.
      + intros (mt & Hh & Hc). exact (Hpl (KDir, mt) Hh Hc).
    - intros data. split.
      + intros (i & Hi & Hdt). destruct (Hon _ Hi) as (nd & Hh & Hc). specialize (Hpl nd Hh Hc). destruct nd as [[|size addr|t] mt]; cbn in Hpl, Hc.
        * congruence.
        * destruct (Hpk p size addr mt Hp Hh) as [dt E]. rewrite E in Hpl. destruct Hpl as (i' & Hi' & Hdt'). rewrite Hi in Hi'. injection Hi' as <-.
          exists size, addr, mt. split; auto. split; auto. rewrite E. f_equal. congruence.
        * destruct Hpl as (m & Hm). congruence.
      + intros (size & addr & mt & Hh & Hf & Hc). specialize (Hpl (KFile size addr, mt) Hh Hc). cbn in Hpl. now rewrite Hf in Hpl.
    - intros t. split.
      + intros (m & Hm). destruct (Hon _ Hm) as (nd & Hh & Hc). specialize (Hpl nd Hh Hc). destruct nd as [[|size addr|t'] mt]; cbn in Hpl, Hc.
        * congruence.
        * destruct (Hpk p size addr mt Hp Hh) as [dt E]. rewrite E in Hpl. destruct Hpl as (i & Hi & _). congruence.
        * destruct Hpl as (m' & Hm'). exists mt. rewrite Hm in Hm'. injection Hm' as <- _. auto.
      + intros (mt & Hh & Hc). exact (Hpl (KLink t, mt) Hh Hc).
  Qed.

  (** Once extracted, it can be extracted again. *)
  Lemma again_setting sched last g : extract_range a rg cfg sched last f = (g, Ok tt) ->
    (forall p size addr mt, p <> [] -> has l (d ++ p) (KFile size addr, mt) -> exists data, fetch addr = Found data) ->
    setting l fetch a rg d g (x_base cfg) out.
  Proof.
    intros Hrun Hpk. pose proof (session_run l fetch a rg d out f cfg HS sched last g (Ok tt) Hrun) as (A1 & A2 & A3 & _ & _ & A6 & A7).
    pose proof (empty_exact sched last g Hrun Hpk) as X.
    destruct HS as [H1 H2 H3 H4 H5 H6 H7]. constructor; auto.
    - destruct H5 as (B1 & B2 & B3 & B4). split; auto. split; auto. split.
      + intros q x t E. apply (A1 (q ++ [x]) (t ++ filter not_dot (snd (x_base cfg)))); [|now destruct q].
        rewrite B2, E, <- !app_assoc. reflexivity.
      + intros q t E Hq. right. eapply A1; eauto.
    - intros i p nd t m Hp Hs Hl. destruct (X p Hp) as (_ & _ & X3). destruct (proj1 (X3 t)) as (mt & Hh & _); [now exists m|].
      exists t. assert (nd = (KLink t, mt)) as ->; auto. eapply has_unique; [exact H1|exact H2| |exact Hh].
      apply (archive_has l fetch a); eauto.
  Qed.
End Empty.

Section Again.
  Variables (l : list entry) (fetch : caddr -> fetched) (a : archive) (rg : range) (d out : path) (f : hostfs) (cfg cfg2 : config).
  Hypothesis HS : setting l fetch a rg d f (x_base cfg) out.
  Hypothesis Hempty : forall p, p <> [] -> h_names f (out ++ p) = None.
  Hypothesis Hsame : x_files cfg2 = x_files cfg /\ x_recurse cfg2 = x_recurse cfg /\ x_base cfg2 = x_base cfg.

  Lemma same_should p dir : should_extract cfg2 p dir = should_extract cfg p dir.
  Proof. destruct Hsame as (E1 & E2 & _). unfold should_extract. now rewrite E1, E2. Qed.

  Lemma extract_again sched last g sched2 last2 g2 res2 :
    (forall p size addr mt, p <> [] -> has l (d ++ p) (KFile size addr, mt) -> exists data, fetch addr = Found data) ->
    (forall p t mt, p <> [] -> has l (d ++ p) (KLink t, mt) -> utf8 t = true /\ t <> []) ->
    (x_policy cfg2 <> Error) ->
    (x_policy cfg2 = Newer -> forall p nd, p <> [] -> has l (d ++ p) nd -> m_mtime (snd nd) < 2^63) ->
    extract_range a rg cfg sched last f = (g, Ok tt) ->
    extract_range a rg cfg2 sched2 last2 g = (g2, res2) -> quiet sched2 last2 -> res2 <> Diverge ->
    res2 = Ok tt /\ forall q, same_node g g2 q.
  Proof.
    intros Hpk Htg Hpol Hnew Hrun Hrun2 Hq Hd.
    pose proof (again_setting l fetch a rg d out f cfg HS Hempty sched last g Hrun Hpk) as HS2.
    pose proof (empty_exact l fetch a rg d out f cfg HS Hempty sched last g Hrun Hpk) as X.
    pose proof (session_run l fetch a rg d out f cfg HS sched last g (Ok tt) Hrun) as (U1 & _).
    destruct Hsame as (_ & _ & Eb). rewrite <- Eb in HS2.
    pose proof (session_run l fetch a rg d out g cfg2 HS2 sched2 last2 g2 res2 Hrun2) as (A1 & A2 & A3 & A4 & A5 & _).
    assert (Hres : res2 = Ok tt).
    { apply A5; auto.
      - intros p t mt Hp Hh. now destruct (Htg p t mt Hp Hh).
      - intros p nd Hp Hh Hc. rewrite same_should in Hc. unfold fits, replaceable. rewrite (session_fetch l fetch a rg d out f cfg HS).
        destruct (X p Hp) as (X1 & X2 & X3). destruct nd as [[|size addr|t] mt]; cbn [fst snd is_dir_node is_dir_kind] in *.
        + right. apply X1. eauto.
        + destruct (Hpk p size addr mt Hp Hh) as [dt E]. rewrite E. assert (Hf : has_file g (out ++ p) dt) by (apply X2; eauto 6).
          destruct Hf as (i & Hi & _). rewrite Hi. destruct (x_policy cfg2) eqn:Ep; auto; [|eauto].
          split; [apply (Hnew eq_refl p _ Hp Hh)|eauto].
        + split; [now destruct (Htg p t mt Hp Hh)|]. assert (Hf : has_link g (out ++ p) t) by (apply X3; eauto).
          destruct Hf as (m & Hm). rewrite Hm. destruct (x_policy cfg2) eqn:Ep; auto; try easy.
          split; [apply (Hnew eq_refl p _ Hp Hh)|easy]. }
    split; auto. intros q.
    assert (Hun : unchanged g g2 q -> same_node g g2 q).
    { intros [E1 E2]. unfold same_node. rewrite E1. destruct (h_names g q) as [[|i|t m]|]; auto. now destruct (E2 i eq_refl). }
    destruct (archive_ok l fetch a (se_small _ _ _ _ _ _ _ _ HS) (se_built _ _ _ _ _ _ _ _ HS)) as (m & Hr & _).
    assert (Hcase : (exists p nd, p <> [] /\ has l (d ++ p) nd /\ should_extract cfg2 (join p) (is_dir_node nd) = true /\ q = out ++ p) \/
      (forall p nd, p <> [] -> has l (d ++ p) nd -> should_extract cfg2 (join p) (is_dir_node nd) = true -> q <> out ++ p)).
    { destruct (prefix_dec q out) as [[p ->]|Hn].
      2:{ right. intros p nd _ _ _ ->. apply Hn. eauto. }
      destruct p as [|x p]; [right; intros p nd Hp _ _ E; rewrite app_nil_r in E; rewrite <- (app_nil_r out) in E at 1; apply app_inv_head in E; congruence|].
      destruct (m (d ++ x :: p)) as [nd|] eqn:E.
      - destruct (should_extract cfg2 (join (x :: p)) (is_dir_node nd)) eqn:Es.
        + left. exists (x :: p), nd. split; [easy|]. split; auto. now apply Hr.
        + right. intros p' nd' Hp Hh Hc E'. apply app_inv_head in E'. subst p'. apply (Hr _ nd') in Hh. congruence.
      - right. intros p' nd' Hp Hh Hc E'. apply app_inv_head in E'. subst p'. apply (Hr _ nd') in Hh. congruence. }
    destruct Hcase as [(p & nd & Hp & Hh & Hc & ->)|Hno].
    - specialize (A3 Hres p nd Hp Hh Hc). rewrite same_should in Hc. unfold placed in A3.
      rewrite (session_fetch l fetch a rg d out f cfg HS) in A3.
      destruct (X p Hp) as (X1 & X2 & X3). destruct nd as [[|size addr|t] mt]; cbn [fst snd is_dir_node is_dir_kind] in *.
      + unfold same_node. assert (E : h_names g (out ++ p) = Some HDir) by (apply X1; eauto). now rewrite E, A3.
      + destruct (Hpk p size addr mt Hp Hh) as [dt E]. rewrite E in A3. assert (Hf : has_file g (out ++ p) dt) by (apply X2; eauto 6).
        assert (Hfile : has_file g2 (out ++ p) dt -> same_node g g2 (out ++ p)).
        { intros (j & Hj & Ej). destruct Hf as (i & Hi & Ei). unfold same_node. rewrite Hi, Hj. congruence. }
        unfold by_policy in A3. destruct (time_of g (out ++ p)) as [tm|]; auto. destruct (x_policy cfg2); auto; [|easy].
        destruct A3 as [B1 B2]. destruct (Z_le_gt_dec tm (1000000000 * Z.of_N (m_mtime mt))) as [H|H]; [auto|].
        apply Hun, B2. unfold not_older. lia.
      + assert (Hf : has_link g (out ++ p) t) by (apply X3; eauto).
        assert (Hlink : has_link g2 (out ++ p) t -> same_node g g2 (out ++ p)).
        { intros (m2 & Hm2). destruct Hf as (m1 & Hm1). unfold same_node. now rewrite Hm1, Hm2. }
        unfold by_policy in A3. destruct (time_of g (out ++ p)) as [tm|]; auto. destruct (x_policy cfg2); auto; [|easy].
        destruct A3 as [B1 B2]. destruct (Z_le_gt_dec tm (1000000000 * Z.of_N (m_mtime mt))) as [H|H]; [auto|].
        apply Hun, B2. unfold not_older. lia.
    - destruct (A2 q Hno) as [H|(Hq0 & (t & Et) & Hn & _)]; auto. rewrite (U1 q t Et Hq0) in Hn. discriminate Hn.
  Qed.
End Again.
