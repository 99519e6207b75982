(** What killed extractions leave behind, and that extraction can be resumed. *)
From Verif Require Export KilledSim.

Lemma unchanged_at_time t f q : unchanged f (at_time t f) q.
Proof. split; auto. Qed.

Section Good.
  Variables (l : list entry) (fetch : caddr -> fetched) (a : archive) (rg : range) (d out : path) (base : opath).
  Hypothesis Hsmall : small l.
  Hypothesis Hbuilt : archive_of l fetch a.
  Hypothesis Hrange : dir_range a rg d.
  Hypothesis Hnames : plain_names a d.

  Lemma stored_has p nd : (exists i, astored a i p nd) <-> has l p nd.
  Proof. symmetry. now apply (archive_has l fetch a). Qed.
  Lemma has_one p nd nd' : has l p nd -> has l p nd' -> nd = nd'.
  Proof. now apply (has_unique l fetch a). Qed.
  Lemma has_plain p nd : p <> [] -> has l (d ++ p) nd -> Forall ordinary p.
  Proof.
    intros Hp H. apply stored_has in H as [i H]. apply stored_apath in H. specialize (Hnames i p H Hp).
    eapply Forall_impl; [|exact Hnames]. now intros x [Hx _].
  Qed.
  Lemma has_above p nd q x t : p = q ++ x :: t -> q <> [] -> has l (d ++ p) nd -> exists mt, has l (d ++ q) (KDir, mt).
  Proof.
    intros -> Hq H. apply stored_has in H as [i H]. apply stored_apath in H.
    destruct (archive_ok l fetch a Hsmall Hbuilt) as (m & _ & _ & _ & Hw & _).
    assert (Hd : d ++ q <> []) by now destruct d; destruct q.
    rewrite app_assoc in H. destruct (apath_prefix a (d ++ q) x t i H Hd) as [k Hk].
    destruct (apath_prefix_dir a Hw _ _ _ _ _ Hk H) as (r & ff & nb & Hr & Hpay).
    exists (meta_of_rec r). apply stored_has. exists k, r. split; auto. split; auto. unfold node_of_rec. now rewrite Hpay.
  Qed.
  Lemma mine_dec q : (exists p nd, p <> [] /\ has l (d ++ p) nd /\ q = out ++ p) \/
    (forall p nd, p <> [] -> has l (d ++ p) nd -> q <> out ++ p).
  Proof.
    destruct (archive_ok l fetch a Hsmall Hbuilt) as (m & Hr & _).
    destruct (prefix_dec q out) as [[p ->]|Hn].
    2: { right. intros p nd _ _ ->. apply Hn. eauto. }
    destruct p as [|x p]; [right; intros p nd Hp _ E; apply app_inv_head in E; congruence|].
    destruct (m (d ++ x :: p)) as [nd|] eqn:E.
    - left. exists (x :: p), nd. split; [easy|]. split; auto. now apply Hr.
    - right. intros p' nd' Hp Hh E'. apply app_inv_head in E'. subst p'. apply (Hr _ nd') in Hh. congruence.
  Qed.

  (** The invariant. *)
  Record good_host (f : hostfs) : Prop := {
    gh_out : outdir f base out;
    gh_tidy : tidy f;
    gh_partly : partly l fetch d f out }.

  Lemma good_links f : good_host f -> no_links a d f out.
  Proof.
    intros [_ _ H] i p nd t m Hp Hs Hn. specialize (H p nd Hp (proj1 (stored_has _ _) (ex_intro _ i Hs))).
    unfold begun in H. rewrite Hn in H. destruct (fst nd) as [| |u]; try easy. eauto.
  Qed.
  Lemma good_setting f : good_host f -> setting l fetch a rg d f base out.
  Proof. intros H. pose proof (good_links f H). destruct H. now constructor. Qed.
  Lemma setting_good f : setting l fetch a rg d f base out -> partly l fetch d f out -> good_host f.
  Proof. intros [] H. now constructor. Qed.

  Lemma good_time t f : good_host f -> good_host (at_time t f).
  Proof. intros [H1 H2 H3]. constructor; auto. now apply (tidy_names f). Qed.

  (** Making directories on the way to an archived one. *)
  Lemma made_good f g o p : good_host f -> made f g o -> (exists t, out ++ p = o ++ t) ->
    (p = [] \/ exists mt, has l (d ++ p) (KDir, mt)) -> good_host g /\ aside l d out f g.
  Proof.
    intros [H1 H2 H3] M (t & Et) Hp.
    assert (Hmine : forall p' nd, p' <> [] -> has l (d ++ p') nd -> (exists u, o = (out ++ p') ++ u) -> fst nd = KDir).
    { intros p' nd Hp' Hh (u & Eu). rewrite Eu, <- !app_assoc in Et. apply app_inv_head in Et. destruct Hp as [->|[mt Hp]].
      - symmetry in Et. apply app_eq_nil in Et as [-> _]. easy.
      - rewrite Et in Hp. destruct (u ++ t) as [|x w] eqn:Ew.
        + rewrite app_nil_r in Hp. now rewrite (has_one _ _ _ Hh Hp).
        + destruct (has_above _ _ p' x w eq_refl Hp' Hp) as [mt' Hm]. now rewrite (has_one _ _ _ Hh Hm). }
    split.
    - constructor.
      + destruct H1 as (B1 & B2 & B3 & B4). split; auto. split; auto. split.
        * intros q x u E. apply (md_kept _ _ _ M). eapply B3; eauto.
        * intros q u E Hq. destruct (prefix_dec o q) as [[v Ev]|Hn].
          -- right. now apply (md_up _ _ _ M q v).
          -- rewrite (md_other _ _ _ M) by auto. eapply B4; eauto.
      + eapply made_tidy; eauto.
      + intros p' nd Hp' Hh. unfold begun. destruct (prefix_dec o (out ++ p')) as [Hpre|Hn].
        * pose proof (Hmine p' nd Hp' Hh Hpre) as ->. destruct Hpre as (v & Ev).
          rewrite (md_up _ _ _ M _ v Ev) by (destruct out; destruct p'; easy). auto.
        * rewrite (md_other _ _ _ M) by auto. rewrite (md_data _ _ _ M). exact (H3 p' nd Hp' Hh).
    - intros q Hq. destruct (h_names f q) as [nn|] eqn:Eq.
      { left. split; [rewrite Eq; now apply (md_kept _ _ _ M)|]. rewrite (md_data _ _ _ M), (md_mtime _ _ _ M). auto. }
      destruct (prefix_dec o q) as [[v Ev]|Hn].
      2: { left. split; [now rewrite (md_other _ _ _ M) by auto|]. rewrite Eq. easy. }
      destruct q as [|x q]; [left; split; [now rewrite (md_other _ _ _ M) by auto|now rewrite Eq]|].
      right. split; auto. split; [apply (md_up _ _ _ M _ v); [auto|easy]|].
      destruct (prefix_dec out (x :: q)) as [Hpre|Hn]; auto. exfalso.
      assert (Hw : exists p', p' <> [] /\ x :: q = out ++ p' /\ exists w, p = p' ++ w).
      { rewrite Ev, <- app_assoc in Et. clear - Et Hn. revert x q Et Hn. induction out as [|y o' IH]; intros x q Et Hn.
        - exists (x :: q). split; [easy|]. split; auto. eauto.
        - cbn [app] in Et. injection Et as <- Et. destruct q as [|z q].
          + exfalso. apply Hn. now exists o'.
          + destruct (IH z q Et) as (p' & P1 & P2 & P3); [intros (w & E); apply Hn; exists w; cbn in *; congruence|].
            exists p'. split; auto. split; auto. cbn. now rewrite P2. }
      destruct Hw as (p' & P1 & P2 & w & P3). destruct Hp as [->|[mt Hp]].
      + symmetry in P3. now apply app_eq_nil in P3 as [-> _].
      + destruct w as [|z w].
        * rewrite app_nil_r in P3. subst p'. now apply (Hq p (KDir, mt)).
        * destruct (has_above _ _ p' z w P3 P1 Hp) as [mt' Hm]. now apply (Hq p' (KDir, mt')).
  Qed.

  (** Removing an archived name that is not a directory. *)
  Lemma removed_good f p nd : good_host f -> p <> [] -> has l (d ++ p) nd -> h_names f (out ++ p) <> Some HDir ->
    good_host (set_name f (out ++ p) None) /\ aside l d out f (set_name f (out ++ p) None).
  Proof.
    intros [H1 H2 H3] Hp Hh Hnd.
    assert (Hoff : forall q t, out = q ++ t -> q <> out ++ p).
    { intros q t E ->. apply (f_equal (@length _)) in E. rewrite !app_length in E. destruct p; [easy|]. cbn in E. lia. }
    assert (Hout : forall q, h_names (set_name f (out ++ p) None) q = Some HDir <-> h_names f q = Some HDir).
    { intros q. cbn. destruct (path_eqb' q (out ++ p)) eqn:E; [|tauto]. apply path_eqb'_spec in E. subst q. split; [easy|contradiction]. }
    split.
    - constructor.
      + destruct H1 as (B1 & B2 & B3 & B4). split; auto. split; auto. split.
        * intros q x u E. apply Hout. eapply B3; eauto.
        * intros q u E Hq. cbn. rewrite path_eqb'_neq by (eapply Hoff; eauto). eapply B4; eauto.
      + destruct H2 as [T1 T2 T3 T4]. constructor.
        * intros q x n Hq. rewrite Hout. cbn in Hq. destruct (path_eqb' (q ++ [x]) (out ++ p)); [discriminate Hq|]. eapply T1; eauto.
        * unfold set_name. cbn [h_names]. destruct (path_eqb' [] (out ++ p)); auto.
        * intros q i Hq. cbn in Hq. destruct (path_eqb' q (out ++ p)); [discriminate Hq|]. eapply T3; eauto.
        * intros q q' i Hq Hq'. cbn in Hq, Hq'. destruct (path_eqb' q (out ++ p)); [discriminate Hq|]. destruct (path_eqb' q' (out ++ p)); [discriminate Hq'|]. eapply T4; eauto.
      + intros p' nd' Hp' Hh'. unfold begun. cbn. destruct (path_eqb' (out ++ p') (out ++ p)); auto. exact (H3 p' nd' Hp' Hh').
    - intros q Hq. left. split; auto. cbn. rewrite path_eqb'_neq; auto. intros ->. now apply (Hq p nd).
  Qed.

  Lemma aside_refl f : aside l d out f f.
  Proof. intros q _. left. apply unchanged_refl. Qed.
  Lemma aside_trans f g h : aside l d out f g -> aside l d out g h -> aside l d out f h.
  Proof.
    intros A B q Hq. destruct (A q Hq) as [HA|(A1 & A2 & A3)]; destruct (B q Hq) as [HB|(B1 & B2 & B3)].
    - left. eapply unchanged_trans; eauto.
    - right. rewrite (proj1 HA) in B1. auto.
    - right. rewrite <- (proj1 HB) in A2. auto.
    - congruence.
  Qed.

  (** A state whose files hold only a part of their contents. *)
  Lemma rel_good f log c : good_host f -> rel f log c ->
    (forall i, In i (map fst log) -> exists p nd, p <> [] /\ has l (d ++ p) nd /\ h_names f (out ++ p) = Some (HFile i)) ->
    good_host (x_fs c) /\ aside l d out f (x_fs c).
  Proof.
    intros [H1 H2 H3] [R1 R2 R3 R4 R5] Hlog.
    assert (En : forall q, h_names (x_fs c) q = h_names f q) by (intros q; now rewrite R1).
    assert (Hin : forall i, In i (map fst log) -> exists k, h_data (x_fs c) i = firstn k (h_data f i)).
    { intros i Hi. apply in_map_iff in Hi as ([i' dt] & Ei & Hi). cbn in Ei. subst i'. rewrite (R5 _ _ Hi).
      rewrite <- R2 in Hi. apply in_map_iff in Hi as (t & Et & Ht). injection Et as <- <-. destruct (R4 t Ht) as (K & _). eauto. }
    split.
    - constructor.
      + destruct H1 as (B1 & B2 & B3 & B4). split; auto. split; auto. split; intros; rewrite En; eauto.
      + apply (tidy_names f); auto. now rewrite R1.
      + intros p nd Hp Hh. specialize (H3 p nd Hp Hh). unfold begun in *. rewrite En.
        destruct (h_names f (out ++ p)) as [[|i|t m]|]; auto. destruct (fst nd) as [|size addr|u]; auto.
        destruct H3 as (data & k & Hf & Hd). exists data. destruct (in_dec N.eq_dec i (map fst log)) as [Hi|Hi].
        * destruct (Hin i Hi) as [k' Ek]. exists (Nat.min k' k). split; auto. now rewrite Ek, Hd, firstn_firstn.
        * exists k. split; auto. now rewrite R3.
    - intros q Hq. left. split; auto. intros i Hi. split; [|now rewrite R1]. apply R3. intros Hi'.
      destruct (Hlog i Hi') as (p & nd & Hp & Hh & Hf). apply (Hq p nd Hp Hh). eapply (td_links _ H2); eauto.
  Qed.

  Section Run.
    Variables (cfg : config).
    Hypothesis Hbase : x_base cfg = base.

    (** The entries extracted so far. *)
    Lemma state_good f0 done f log : good_host f0 -> (forall q t, out = q ++ t -> q <> [] -> h_names f0 q = Some HDir) ->
      (forall p nd, In (p, nd) done -> p <> [] /\ has l (d ++ p) nd) -> state a cfg out f0 done f log ->
      good_host f /\ aside l d out f0 f.
    Proof.
      intros [H1 H2 H3] Hup Hdone HS.
      assert (Hun : forall p nd, unchanged f0 f (out ++ p) -> begun fetch f0 (out ++ p) nd -> begun fetch f (out ++ p) nd).
      { intros p nd [U1 U2] Hb. unfold begun in *. rewrite U1. destruct (h_names f0 (out ++ p)) as [[|i|t m]|] eqn:E; auto.
        destruct (U2 i eq_refl) as [-> _]. exact Hb. }
      split.
      - constructor.
        + destruct H1 as (B1 & B2 & B3 & B4). split; auto. split; auto. split.
          * intros q x t E. apply (s_up _ _ _ _ _ _ _ HS (q ++ [x]) (t ++ filter not_dot (snd base))); [|now destruct q].
            rewrite B2, E, <- !app_assoc. reflexivity.
          * intros q t E Hq. right. exact (s_up _ _ _ _ _ _ _ HS q t E Hq).
        + exact (s_tidy _ _ _ _ _ _ _ HS).
        + intros p nd Hp Hh. specialize (H3 p nd Hp Hh).
          destruct (in_dec (list_eq_dec (list_eq_dec N.eq_dec)) p (map fst done)) as [Hi|Hi].
          2: { apply (Hun p nd); auto. apply (s_rest _ _ _ _ _ _ _ HS). intros p' nd' Hin E. apply app_inv_head in E. subst p'.
               apply Hi. apply in_map_iff. exists (p, nd'). auto. }
          apply in_map_iff in Hi as ([p' nd'] & Ep & Hi). cbn in Ep. subst p'. destruct (Hdone p nd' Hi) as [_ Hh'].
          rewrite (has_one _ _ _ Hh' Hh) in Hi. pose proof (s_done _ _ _ _ _ _ _ HS p nd Hi) as Hpl.
          destruct (chosen cfg p nd); [|now apply (Hun p nd)].
          unfold placed, by_policy in Hpl.
          destruct (archive_ok l fetch a Hsmall Hbuilt) as (m & _ & _ & Ef & _). rewrite Ef in Hpl.
          assert (Hfile : forall data size addr, fst nd = KFile size addr -> fetch addr = Found data -> has_file f (out ++ p) data -> begun fetch f (out ++ p) nd).
          { intros data size addr En Efe (i & Hi' & Hdt). unfold begun. rewrite Hi', En. exists data, (length data). split; auto. now rewrite Hdt, firstn_all. }
          assert (Hlink : forall t, fst nd = KLink t -> has_link f (out ++ p) t -> begun fetch f (out ++ p) nd).
          { intros t En (mm & Hm). unfold begun. now rewrite Hm, En. }
          destruct (fst nd) as [|size addr|t] eqn:En.
          * unfold begun. now rewrite Hpl, En.
          * destruct (fetch addr) as [data| | |] eqn:Efe; try easy; [|now apply (Hun p nd)].
            destruct (time_of f0 (out ++ p)) as [tm|]; [|now apply (Hfile data size addr)].
            destruct (x_policy cfg); try easy; try (now apply (Hun p nd)); [|now apply (Hfile data size addr)].
            destruct (Z_le_gt_dec tm (1000000000 * Z.of_N (m_mtime (snd nd)))) as [Hz|Hz].
            -- apply (Hfile data size addr); auto. now apply Hpl.
            -- apply (Hun p nd); auto. apply Hpl. unfold not_older. lia.
          * destruct (time_of f0 (out ++ p)) as [tm|]; [|now apply (Hlink t)].
            destruct (x_policy cfg); try easy; try (now apply (Hun p nd)); [|now apply (Hlink t)].
            destruct (Z_le_gt_dec tm (1000000000 * Z.of_N (m_mtime (snd nd)))) as [Hz|Hz].
            -- apply (Hlink t); auto. now apply Hpl.
            -- apply (Hun p nd); auto. apply Hpl. unfold not_older. lia.
      - intros q Hq. left. apply (s_rest _ _ _ _ _ _ _ HS). intros p nd Hin ->. destruct (Hdone p nd Hin) as [Hp Hh]. now apply (Hq p nd).
    Qed.

    (** Part of the next entry. *)
    Lemma cut_good j f p nd g : good_host f -> dirs_up f (out ++ removelast p) -> p <> [] -> has l (d ++ p) nd -> cut cfg j p nd f g ->
      good_host g /\ aside l d out f g /\ (forall q i, h_names g q = Some (HFile i) -> h_names f q = Some (HFile i)) /\
      (forall q i, h_names f q = Some (HFile i) -> q <> out ++ p -> h_names g q = Some (HFile i)).
    Proof.
      intros HG Hup Hp Hh Hcut. pose proof (has_plain p nd Hp Hh) as Ho.
      destruct (gh_out _ HG) as (B1 & B2 & B3 & B4).
      assert (Hshape : shaped (x_base cfg) out) by (rewrite Hbase; now split).
      destruct Hcut as [->|[[Hk ->]|(t & Hk & ->)]].
      - split; auto. split; [apply aside_refl|auto].
      - assert (Egood : path_iter (join p) = p).
        { rewrite iter_pieces. apply pieces_join. eapply Forall_impl; [|exact Ho]. apply ordinary_good. }
        assert (Ep : filter not_dot p = p) by (clear - Ho; induction Ho as [|y p Hy Hp IH]; cbn; auto; rewrite (not_dot_ordinary y Hy); now rewrite IH).
        unfold abs_path, part. rewrite Egood. cbn [fst snd].
        set (comps := firstn j (snd (x_base cfg) ++ p)).
        assert (Hpre : exists u, filter not_dot (snd (x_base cfg) ++ p) = filter not_dot comps ++ u).
        { exists (filter not_dot (skipn j (snd (x_base cfg) ++ p))). unfold comps. now rewrite <- filter_app, firstn_skipn. }
        assert (Eout : fst base ++ filter not_dot (snd base ++ p) = out ++ p) by (rewrite filter_app, Ep, B2; apply app_assoc).
        destruct (create_dir_all_made f (fst (x_base cfg)) comps) as (g & Eg & M).
        + unfold comps. apply Forall_forall. intros c Hc. assert (Hc' : In c (snd (x_base cfg) ++ p)) by (rewrite <- (firstn_skipn j); apply in_app_iff; auto).
          apply in_app_iff in Hc' as [Hc'|Hc'].
          * rewrite Hbase in Hc'. rewrite Forall_forall in B1. auto.
          * right. rewrite Forall_forall in Ho. auto.
        + rewrite Hbase. intros q t E Hq. destruct q as [|x q _] using rev_ind; [easy|]. apply (B3 q x t). now rewrite E, <- app_assoc.
        + rewrite Hbase in *. destruct Hpre as (u & Eu). intros q x t E.
          assert (Hq : exists t', out ++ p = (fst base ++ q ++ [x]) ++ t').
          { exists (t ++ u). rewrite <- Eout, Eu, E, <- !app_assoc. reflexivity. }
          destruct Hq as (t' & Et'). destruct t' as [|y t' _] using rev_ind.
          * rewrite app_nil_r in Et'. rewrite <- Et'. pose proof (gh_partly _ HG p nd Hp Hh) as Hb. unfold begun in Hb. rewrite Hk in Hb.
            destruct (h_names f (out ++ p)) as [[|i|tt m]|]; auto; easy.
          * right. apply (Hup (fst base ++ q ++ [x]) t'); [|now destruct (fst base); destruct q].
            rewrite (app_removelast_last [] Hp) in Et'. rewrite !app_assoc in Et'. apply app_inj_tail in Et' as [Et' _]. now rewrite <- !app_assoc in *.
        + unfold create_dir_all. cbn [fst snd]. rewrite Eg. cbn [fst].
          assert (Hmt : exists mt, has l (d ++ p) (KDir, mt)) by (destruct nd as [k mt]; cbn in Hk; subst k; eauto).
          destruct (made_good f g (fst (x_base cfg) ++ filter not_dot comps) p HG M) as [G1 G2]; auto.
          { destruct Hpre as (u & Eu). exists u. rewrite <- Eout, <- app_assoc, <- Eu. now rewrite Hbase. }
          split; auto. split; auto. split.
          * intros q i Hq. destruct (prefix_dec (fst (x_base cfg) ++ filter not_dot comps) q) as [[v Ev]|Hn]; [|now rewrite <- (md_other _ _ _ M q) by auto].
            destruct q as [|y q]; [now rewrite (md_other _ _ _ M) in Hq by auto|]. rewrite (md_up _ _ _ M _ v Ev) in Hq by easy. easy.
          * intros q i Hq _. now apply (md_kept _ _ _ M).
      - (* a link removed *)
        rewrite (app_removelast_last [] Hp) in Ho. apply Forall_app in Ho as [Ho1 Ho2]. apply Forall_inv in Ho2.
        pose proof (look_final cfg out Hshape f false (removelast p) (last p []) Hup Ho1 Ho2 (fun _ _ _ => eq_refl)) as HL.
        rewrite <- (app_removelast_last [] Hp) in HL.
        assert (Hrm : fst (remove_file f (abs_path cfg (join p))) = f \/
          (fst (remove_file f (abs_path cfg (join p))) = set_name f (out ++ p) None /\ h_names f (out ++ p) <> Some HDir)).
        { unfold remove_file. rewrite HL. destruct (h_names f (out ++ p)) as [[|i|tt m]|]; cbn; auto; right; split; auto; easy. }
        assert (Hhl : half_link cfg (join p) t (m_mtime (snd nd)) f = f \/
          (half_link cfg (join p) t (m_mtime (snd nd)) f = set_name f (out ++ p) None /\ h_names f (out ++ p) <> Some HDir)).
        { unfold half_link. destruct (symlink f t (abs_path cfg (join p))) as [f1 [e|]]; auto. destruct e; auto. destruct (x_policy cfg); auto.
          destruct (modified f false (abs_path cfg (join p))); auto. destruct (entry_time _); auto. destruct (_ <=? _)%Z; auto. }
        destruct Hhl as [->|[-> Hnd]].
        + split; auto. split; [apply aside_refl|auto].
        + destruct (removed_good f p nd HG Hp Hh Hnd) as [G1 G2]. split; auto. split; auto. split.
          * intros q i Hq. cbn in Hq. destruct (path_eqb' q (out ++ p)); [discriminate Hq|auto].
          * intros q i Hq Hne. cbn. now rewrite path_eqb'_neq.
    Qed.

    Lemma killed_good sched last n j f : good_host f ->
      good_host (killed_run a rg cfg sched last n j f) /\ aside l d out f (killed_run a rg cfg sched last n j f).
    Proof.
      intros HG. pose proof (plain_handled a d Hnames) as Hh.
      destruct (archive_ok l fetch a Hsmall Hbuilt) as (m & _ & _ & _ & Hwf & _).
      destruct (range_forest a Hwf rg d Hrange) as (fo & k & Hf & Hb & Hd & Hin & Hsort & E).
      destruct (vis_spec a cfg Hwf rg d fo k Hf Hb Hd Hin Hsort) as [HV HSo].
      assert (Hfn : fnames fo).
      { apply (fnames_flat fo d). intros i p Hi. apply Hin in Hi as [Hi (x & t & ->)]. apply Hh in Hi.
        unfold handled in *. rewrite Forall_forall in Hi. constructor; [|constructor]. apply Hi.
        rewrite (app_removelast_last [] (l := d ++ x :: t)) by now destruct d.
        rewrite last_last. replace (List.last (d ++ x :: t) []) with (List.last (x :: t) []).
        - rewrite (app_removelast_last [] (l := x :: t)) at 2 by easy. apply in_app_iff. right. now left.
        - clear. induction d as [|y d' IH]; auto. cbn [app]. rewrite IH. destruct (d' ++ x :: t) eqn:E; [now destruct d'|reflexivity]. }
      assert (Er : forall l g tk, run_turns l (mkCtx [] g [] false tk) = mkCtx [] g [] false tk).
      { induction l0 as [|[i o] l0 IH]; intros g tk; auto. cbn. unfold run_turns in IH. unfold one_turn at 2. cbn. destruct i; apply IH. }
      assert (Etick : tick sched (mkCtx [] f [] false 0) = mkCtx [] f [] false 1) by (unfold tick; now rewrite Er).
      unfold killed_run. rewrite E. cbn [killed_extractor on_start x_tick].
      destruct (gh_out _ HG) as (B1 & B2 & B3 & B4).
      destruct (Nat.eqb_spec 0 n) as [En|En].
      { (* killed while making the output directory *)
        rewrite Etick. cbn [andthen fst x_fs]. unfold with_fs. cbn [x_cur x_fs x_tasks x_failed x_tick]. rewrite Er. cbn [x_fs].
        rewrite Hbase. unfold part, create_dir_all. cbn [fst snd].
        assert (Hpre : exists u, filter not_dot (snd base) = filter not_dot (firstn j (snd base)) ++ u).
        { exists (filter not_dot (skipn j (snd base))). now rewrite <- filter_app, firstn_skipn. }
        destruct (create_dir_all_made f (fst base) (firstn j (snd base))) as (g & Eg & M).
        + apply Forall_forall. intros c Hc. rewrite Forall_forall in B1. apply B1. rewrite <- (firstn_skipn j). apply in_app_iff. auto.
        + intros q t Eq Hq. destruct q as [|x q _] using rev_ind; [easy|]. apply (B3 q x t). now rewrite Eq, <- app_assoc.
        + destruct Hpre as (u & Eu). intros q x t Eq. apply (B4 (fst base ++ q ++ [x]) (t ++ u)); [|now destruct (fst base); destruct q].
          rewrite B2, Eu, Eq, <- !app_assoc. reflexivity.
        + rewrite Eg. cbn [fst]. destruct Hpre as (u & Eu). apply (made_good f g (fst base ++ filter not_dot (firstn j (snd base))) []); auto.
          exists u. now rewrite app_nil_r, B2, Eu, <- app_assoc. }
      cbn [extractor on_start]. rewrite Etick. cbn [x_fs].
      destruct (base_made f base out (gh_out _ HG)) as (f0 & Ec & M & Hshape). rewrite Hbase, Ec.
      unfold io, with_fs. cbn [fst snd x_cur x_fs x_tasks x_failed x_tick].
      cbn [andthen]. set (c0 := mkCtx [] f0 [] false 1).
      destruct (made_good f f0 out [] HG M) as [G0 A0]; [exists []; now rewrite !app_nil_r|now left|].
      assert (Hrel : rel f0 [] c0) by (constructor; cbn; auto; try easy; now destruct f0).
      assert (Hord : forall p nd, In (p, nd) (vis cfg [] fo) -> p <> [] /\ has l (d ++ p) nd).
      { intros p nd Hp. apply HV in Hp as (Hp & (i & Hs) & _). split; auto. apply stored_has. eauto. }
      assert (Hanc : forall p nd q, In (p, nd) (vis cfg [] fo) -> q <> [] -> below q p ->
        exists mt, In (q, (KDir, mt)) (vis cfg [] fo) /\ should_extract cfg (join q) true = true).
      { intros p nd q Hp Hq Hbe. apply HV in Hp. pose proof Hp as (_ & _ & Hv).
        destruct (visited_dir a cfg d Hwf Hh p nd q Hp Hq Hbe) as [mt Hm]. exists mt. split; [now apply HV|auto]. }
      rewrite <- Hbase in Hshape.
      assert (Hlk : forall p nd t mm, In (p, nd) (vis cfg [] fo) -> h_names f0 (out ++ p) = Some (HLink t mm) -> exists t', fst nd = KLink t').
      { intros p nd t mm Hp Hl. destruct (Hord p nd Hp) as [Hp1 Hp2]. apply stored_has in Hp2 as [i Hi]. eapply (good_links f0 G0); eauto. }
      assert (Hup0 := md_up _ _ _ M).
      destruct (fold_run a cfg out Hshape f0 (vis cfg [] fo) HSo) with (todo := vis cfg [] fo) (done := @nil (path * node)) (f := f0) (log := @nil (N * bytes))
        as (done & rest & f1 & log & r & E1 & _ & HS & _ & _); auto.
      { intros p nd Hp. destruct (Hord p nd Hp) as [Hp1 Hp2]. split; auto. eapply has_plain; eauto. }
      { apply state_start; auto. apply (gh_tidy _ G0). }
      pose proof (walk_cut a cfg sched n j Hwf _ _ fo Hf [] f0 [] c0 (Forall_nil _) Hfn Hrel eq_refl) as HC.
      rewrite E1 in HC. cbn [fst snd] in HC. specialize (HC (proj1 (s_log _ _ _ _ _ _ _ HS))).
      assert (Hstop : stopped a cfg j (vis cfg [] fo) f0 [] (fst (walk_forest x_builder a (killed_extractor a cfg sched n j) fo c0))).
      { destruct HC as [[K1 (f3 & log3 & K2 & K3 & _)]|[_ K]]; auto.
        exists (vis cfg [] fo), [], f3, log3, (Ok tt), f3. split; [now rewrite app_nil_r|]. auto. }
      clear HC HS E1 done rest f1 log r.
      assert (Efin : forall y : ctx * res unit, fst (andthen y (fun c _ => on_stop (extractor a cfg sched) c)) = fst y) by (intros [c [[]|e| |]]; reflexivity).
      change (on_stop (killed_extractor a cfg sched n j)) with (on_stop (extractor a cfg sched)). rewrite Efin.
      destruct (walk_forest x_builder a (killed_extractor a cfg sched n j) fo c0) as [c1 r1]. cbn [fst] in *.
      destruct Hstop as (l1 & l2 & f1 & log1 & r2 & f2 & El & Ex & Hr & Hcut).
      assert (Hlt : forall p nd p' nd', In (p, nd) l1 -> In (p', nd') l2 -> path_lt p p').
      { intros p nd p' nd' H1 H2. rewrite El, map_app in HSo. apply (in_map fst) in H1, H2. cbn [fst] in *. clear - HSo H1 H2.
        induction (map fst l1) as [|y ll IH]; [easy|]. cbn [app] in HSo. apply StronglySorted_inv in HSo as [S1 S2].
        destruct H1 as [->|H1]; auto. rewrite Forall_forall in S2. apply S2. apply in_app_iff. auto. }
      destruct (fold_run a cfg out Hshape f0 l1) with (todo := l1) (done := @nil (path * node)) (f := f0) (log := @nil (N * bytes))
        as (done & rest & f1' & log' & r' & E1 & E2 & HS & Hr' & _); auto.
      { rewrite El, map_app in HSo. clear - HSo. induction (map fst l1) as [|y ll IH]; [constructor|]. cbn [app] in HSo. apply StronglySorted_inv in HSo as [S1 S2].
        constructor; auto. rewrite Forall_forall in *. intros z Hz. apply S2. apply in_app_iff. auto. }
      { intros p nd Hp. assert (Hp' : In (p, nd) (vis cfg [] fo)) by (rewrite El; apply in_app_iff; auto). destruct (Hord p nd Hp') as [Hp1 Hp2]. split; auto. eapply has_plain; eauto. }
      { intros p nd q Hp Hq Hbe. assert (Hp' : In (p, nd) (vis cfg [] fo)) by (rewrite El; apply in_app_iff; auto).
        destruct (Hanc p nd q Hp' Hq Hbe) as (mt & H1 & H2). exists mt. split; auto. rewrite El in H1. apply in_app_iff in H1 as [H1|H1]; auto.
        exfalso. pose proof (Hlt _ _ _ _ Hp H1) as Hl. apply (path_lt_asym _ _ Hl). destruct Hbe as (x & t & ->). apply path_lt_below. }
      { intros p nd t mm Hp. apply Hlk. rewrite El. apply in_app_iff. auto. }
      { apply state_start; auto. apply (gh_tidy _ G0). }
      rewrite Ex in E1. injection E1 as <- <- <-.
      assert (Hdone : forall p nd, In (p, nd) done -> p <> [] /\ has l (d ++ p) nd).
      { intros p nd Hp. apply Hord. rewrite El, E2, !in_app_iff. auto. }
      destruct (state_good f0 done f1 log1 G0 Hup0 Hdone HS) as [G1 A1].
      destruct (s_log _ _ _ _ _ _ _ HS) as [Hnd Hlog].
      assert (G2 : good_host f2 /\ aside l d out f1 f2 /\
        forall i, In i (map fst log1) -> exists p nd, p <> [] /\ has l (d ++ p) nd /\ h_names f2 (out ++ p) = Some (HFile i)).
      { assert (Hl1 : forall i, In i (map fst log1) -> exists p nd, In (p, nd) done /\ p <> [] /\ has l (d ++ p) nd /\ h_names f1 (out ++ p) = Some (HFile i)).
        { intros i Hi. destruct (Hlog i Hi) as (p & nd & Hp & _ & Hfi). destruct (Hdone p nd Hp). exists p, nd. auto. }
        destruct Hcut as [->|(-> & p & nd & l3 & -> & Hcut)].
        - split; auto. split; [apply aside_refl|]. intros i Hi. destruct (Hl1 i Hi) as (p & nd & _ & H). eauto.
        - assert (rest = []) as -> by now apply Hr'. rewrite app_nil_r in E2. subst done.
          assert (Hpin : In (p, nd) (vis cfg [] fo)) by (rewrite El; apply in_app_iff; right; now left).
          destruct (Hord p nd Hpin) as [Hp Hhp].
          assert (Hup : dirs_up f1 (out ++ removelast p)).
          { apply dirs_up_app; [exact (s_up _ _ _ _ _ _ _ HS)|]. intros q t Eq Hq.
            assert (Hbe : below q p).
            { destruct t as [|x t]; [exists (List.last p []), []|exists x, (t ++ [List.last p []])];
                rewrite (app_removelast_last [] Hp) at 1; rewrite Eq; rewrite <- ?app_assoc; cbn [app]; [now rewrite ?app_nil_r|reflexivity]. }
            destruct (Hanc p nd q Hpin Hq Hbe) as (mt & Hqi & Hsel). rewrite El in Hqi. apply in_app_iff in Hqi as [Hqi|Hqi].
            - pose proof (s_done _ _ _ _ _ _ _ HS _ _ Hqi) as Hpl. unfold chosen in Hpl. cbn [is_dir_node is_dir_kind fst] in Hpl. rewrite Hsel in Hpl. exact Hpl.
            - exfalso. destruct Hqi as [Hqi|Hqi].
              + injection Hqi as -> _. destruct Hbe as (x & u & Eu). rewrite <- (app_nil_r q) in Eu at 1. now apply app_inv_head in Eu.
              + rewrite El, map_app in HSo. cbn [map fst] in HSo.
                assert (Hpq : path_lt p q).
                { apply (in_map fst) in Hqi. cbn [fst] in Hqi. clear - HSo Hqi. induction (map fst l1) as [|y ll IH]; cbn [app] in HSo; apply StronglySorted_inv in HSo as [S1 S2]; auto.
                  rewrite Forall_forall in S2. now apply S2. }
                apply (path_lt_asym _ _ Hpq). destruct Hbe as (x & u & ->). apply path_lt_below. }
          destruct (cut_good j f1 p nd f2 G1 Hup Hp Hhp Hcut) as (K1 & K2 & K3 & K4). split; auto. split; auto.
          intros i Hi. destruct (Hl1 i Hi) as (p' & nd' & Hp' & Hn' & Hh' & Hf'). exists p', nd'. split; auto. split; auto.
          apply K4; auto. intros Ee. apply app_inv_head in Ee. subst p'. assert (Hpp : path_lt p p) by (eapply Hlt; [exact Hp'|now left]).
          now apply path_lt_irrefl in Hpp. }
      destruct G2 as (G2 & A2 & Hlog2).
      pose proof (run_turns_rel f2 log1 last c1 Hnd Hr) as Hr2.
      destruct (rel_good f2 log1 (run_turns last c1) G2 Hr2 Hlog2) as [G3 A3]. split; auto.
      eapply aside_trans; [exact A0|]. eapply aside_trans; [exact A1|]. eapply aside_trans; eauto.
    Qed.
  End Run.
End Good.
