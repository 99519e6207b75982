(** The walker computes the walk of the forest, which holds every entry once in path order. *)
From Verif Require Export Forest ReaderProofs.

Lemma andthen_ext {C A B} (x : C * res A) (k k' : C -> A -> C * res B) :
  (forall c v, x = (c, Ok v) -> k c v = k' c v) -> andthen x k = andthen x k'.
Proof. destruct x as [c [v|e| |]]; cbn; intros H; auto. Qed.

Section Walk.
  Variable a : archive.
  Hypothesis Hwf : wf a.
  Local Notation recs := (a_recs a).
  Local Notation n := (N.of_nat (length (a_recs a))).

  Lemma child_after i r first nb k : at_ recs i = Some r -> r_payload r = RDir first nb ->
    first <= k < first + nb -> i < k.
  Proof.
    intros Hr Hp Hk. destruct (wf_dir _ Hwf _ _ _ _ Hr Hp) as [_ H]. apply H in Hk as (rk & Hrk & Hpk).
    destruct (wf_parent _ Hwf _ _ Hrk) as [H0|(j & _ & _ & _ & Hj & Hlt & _)]; lia.
  Qed.

  Lemma run_range_forest fuel : forall lo hi, lo <= hi -> hi <= n -> (n - lo < N.of_nat fuel) ->
    exists f, forest_of a lo hi f /\
      forall C F L D (B : builder F L D) (op : operator C F L D) c,
        run_range B a op fuel lo hi c = walk_forest B a op f c.
  Proof.
    induction fuel as [|k IH]; intros lo hi Hle Hhi Hf; [lia|].
    destruct (N.eqb_spec lo hi) as [->|Hne].
    - exists FNil. split; [constructor|]. intros. cbn [run_range]. now rewrite N.eqb_refl.
    - assert (Hlt : lo < hi) by lia.
      destruct (at_lt_some recs lo) as [r Hr]; [lia|].
      destruct (IH (lo + 1) hi) as (rest & Hrest & Erest); [lia|lia|lia|].
      assert (Hcase : (exists first nb, r_payload r = RDir first nb) \/ (forall f nb, r_payload r <> RDir f nb)).
      { destruct (r_payload r); eauto; right; easy. }
      destruct Hcase as [(first & nb & Hp)|Hp].
      + destruct (wf_dir _ Hwf _ _ _ _ Hr Hp) as [Hb _].
        destruct (wf_dir_u32 a Hwf _ _ _ _ Hr Hp) as [E1 E2].
        assert (Hkids : exists kids, forest_of a first (first + nb) kids /\
          forall C F L D (B : builder F L D) (op : operator C F L D) c,
            run_range B a op k first (first + nb) c = walk_forest B a op kids c).
        { destruct (N.eq_dec nb 0) as [->|Hnb].
          - exists FNil. split; [rewrite N.add_0_r; constructor|]. intros.
            destruct k as [|k]; [lia|]. cbn [run_range]. now rewrite N.add_0_r, N.eqb_refl.
          - assert (lo < first) by (eapply child_after; eauto; lia).
            apply IH; lia. }
        destruct Hkids as (kids & Hkids & Ekids).
        exists (FCons lo r kids rest). split; [eapply fo_dir; eauto|].
        intros. cbn [run_range walk_forest]. destruct (N.eqb_spec lo hi); [easy|].
        apply andthen_ext. intros c1 e He. injection He as <- He.
        unfold create_entry in He. rewrite (rec_at_ok _ _ _ Hr) in He. cbn [bind] in He. rewrite Hp in He.
        destruct (b_dir B lo r) as [x| | |]; cbn in He; try discriminate He. injection He as <-.
        rewrite E1, E2. cbn [fst snd].
        apply andthen_ext. intros c2 enter _. destruct enter; [rewrite Ekids|]; apply andthen_ext; intros;
          apply andthen_ext; intros; apply Erest.
      + exists (FCons lo r FNil rest). split; [now apply fo_leaf|].
        intros. cbn [run_range walk_forest]. destruct (N.eqb_spec lo hi); [easy|].
        apply andthen_ext. intros c1 e He. injection He as <- He.
        pose proof (create_entry_dir a Hwf B _ _ _ Hr He) as Hd. destruct e as [x|x|rg x].
        * apply andthen_ext; intros; apply Erest.
        * apply andthen_ext; intros; apply Erest.
        * destruct Hd as [_ (f & nb & Hd)]. now apply Hp in Hd.
  Qed.

  Theorem run_from_range_forest fuel lo cnt : lo + cnt <= n -> (length recs < fuel)%nat ->
    exists f, forest_of a lo (lo + cnt) f /\
      forall C F L D (B : builder F L D) (op : operator C F L D) c,
        run_from_range B a op fuel (lo, cnt) c =
        andthen (on_start op c) (fun c _ => andthen (walk_forest B a op f c) (fun c _ => on_stop op c)).
  Proof.
    intros Hb Hfuel. destruct (run_range_forest fuel lo (lo + cnt)) as (f & Hf & E); [lia|lia|lia|].
    exists f. split; auto. intros. unfold run_from_range. cbn [fst snd]. apply andthen_ext. intros. now rewrite E.
  Qed.

  Theorem run_forest :
    exists f, forest_of a (fst (a_root a)) (fst (a_root a) + snd (a_root a)) f /\
      forall C F L D (B : builder F L D) (op : operator C F L D) c,
        run B a op c = andthen (on_start op c) (fun c _ => andthen (walk_forest B a op f c) (fun c _ => on_stop op c)).
  Proof.
    destruct (wf_root _ Hwf) as [Hb _].
    destruct (run_from_range_forest (walk_fuel a) (fst (a_root a)) (snd (a_root a)) Hb) as (f & Hf & E).
    { unfold walk_fuel. lia. }
    exists f. split; [exact Hf|]. intros. unfold run. rewrite <- E. now destruct (a_root a).
  Qed.

  Lemma forest_of_le lo hi f : forest_of a lo hi f -> lo <= hi.
  Proof. induction 1; lia. Qed.

  (** ** The entries of the forest *)
  (** The siblings from [lo] to [hi] are children of directory [j], whose path is [d]. *)
  Definition brothers (j : N) (lo hi : N) : Prop :=
    forall k, lo <= k < hi -> exists r, at_ recs k = Some r /\ r_parent r = j.

  Lemma brothers_dir i r first nb : at_ recs i = Some r -> r_payload r = RDir first nb ->
    brothers (i + 1) first (first + nb).
  Proof. intros Hr Hp k Hk. destruct (wf_dir _ Hwf _ _ _ _ Hr Hp) as [_ H]. now apply H. Qed.

  Lemma flat_in lo hi f : forest_of a lo hi f -> forall j d, brothers j lo hi -> apdir a j d ->
    forall i p, In (i, p) (flat d f) <->
      (apath a i p /\ exists k q, lo <= k < hi /\ apath a k (d ++ [q]) /\ exists t, p = (d ++ [q]) ++ t).
  Proof.
    induction 1 as [lo|lo hi r rest Hlt Hr Hnd Hrest IH|lo hi r first nb kids rest Hlt Hr Hp Hkids IHk Hrest IHr];
      intros j d Hb Hd i p; cbn [flat].
    - split; [easy|]. intros (_ & k & _ & Hk & _). lia.
    - destruct (Hb lo) as (r' & Hr' & Hpar); [lia|]. rewrite Hr in Hr'. injection Hr' as <-.
      assert (Hlo : apath a lo (d ++ [r_name r])) by (apply apath_intro; auto; now rewrite Hpar).
      cbn [In app]. rewrite (IH j d); [|intros k Hk; apply Hb; lia|auto]. split.
      + intros [E|(H1 & k & q & Hk & H2 & H3)].
        * injection E as <- <-. split; auto. exists lo, (r_name r). split; [lia|]. split; auto. exists []. now rewrite app_nil_r.
        * split; auto. exists k, q. split; [lia|auto].
      + intros (H1 & k & q & Hk & H2 & t & Ht). destruct (N.eq_dec k lo) as [->|Hne].
        * left. assert (E := apath_det _ _ _ _ H2 Hlo). apply app_inj_tail in E as [_ ->].
          destruct t as [|x t].
          -- rewrite app_nil_r in Ht. subst p. f_equal. eapply apath_inj; eauto.
          -- exfalso. subst p. destruct (apath_prefix_dir a Hwf _ _ _ _ _ Hlo H1) as (r' & f & nb & Hr' & Hp').
             rewrite Hr in Hr'. injection Hr' as <-. now apply Hnd in Hp'.
        * right. split; auto. exists k, q. split; [lia|]. split; auto. exists t. auto.
    - destruct (Hb lo) as (r' & Hr' & Hpar); [lia|]. rewrite Hr in Hr'. injection Hr' as <-.
      assert (Hlo : apath a lo (d ++ [r_name r])) by (apply apath_intro; auto; now rewrite Hpar).
      assert (Hdk : apdir a (lo + 1) (d ++ [r_name r])) by (right; eauto).
      cbn [In]. rewrite in_app_iff, (IHr j d); [|intros k Hk; apply Hb; lia|auto].
      rewrite (IHk (lo + 1) (d ++ [r_name r])); [|eapply brothers_dir; eauto|auto]. split.
      + intros [E|[(H1 & k & q & Hk & H2 & t & Ht)|(H1 & k & q & Hk & H2 & H3)]].
        * injection E as <- <-. split; auto. exists lo, (r_name r). split; [lia|]. split; auto. exists []. now rewrite app_nil_r.
        * split; auto. exists lo, (r_name r). split; [lia|]. split; auto. exists (q :: t). rewrite Ht.
          now rewrite <- !app_assoc.
        * split; auto. exists k, q. split; [lia|auto].
      + intros (H1 & k & q & Hk & H2 & t & Ht). destruct (N.eq_dec k lo) as [->|Hne].
        * assert (E := apath_det _ _ _ _ H2 Hlo). apply app_inj_tail in E as [_ ->].
          destruct t as [|x t].
          -- left. rewrite app_nil_r in Ht. subst p. f_equal. eapply apath_inj; eauto.
          -- right. left. split; auto.
             assert (Hx : exists k', apath a k' ((d ++ [r_name r]) ++ [x])).
             { clear - H1 Ht. subst p. revert i H1. induction t as [|y t IH] using rev_ind; intros i H1; [eauto|].
               replace ((d ++ [r_name r]) ++ x :: t ++ [y]) with (((d ++ [r_name r]) ++ x :: t) ++ [y]) in H1
                 by (rewrite <- !app_assoc; reflexivity).
               apply apath_inv in H1 as (r' & d' & _ & Hd' & Heq). apply app_inj_tail in Heq as [<- _].
               destruct Hd' as [[_ H]|(z & _ & Hz)]; [now destruct d|eauto]. }
             destruct Hx as [k' Hk']. exists k', x.
             destruct (wf_dir _ Hwf _ _ _ _ Hr Hp) as [_ Hdir].
             split; [apply Hdir; apply (child_path a Hwf (d ++ [r_name r])); eauto|]. split; auto.
             exists t. rewrite Ht. now rewrite <- !app_assoc.
        * right. right. split; auto. exists k, q. split; [lia|]. split; auto. exists t. auto.
  Qed.

  Lemma path_lt_app p q r : path_lt q r -> path_lt (p ++ q) (p ++ r).
  Proof. unfold path_lt. now rewrite path_cmp_app. Qed.

  Lemma path_lt_below p x t : path_lt p (p ++ x :: t).
  Proof. rewrite <- (app_nil_r p) at 1. apply path_lt_app. reflexivity. Qed.

  Lemma path_lt_names d x y s t : bytes_lt x y -> path_lt ((d ++ [x]) ++ s) ((d ++ [y]) ++ t).
  Proof.
    intros H. rewrite <- !app_assoc. apply path_lt_app. unfold path_lt. cbn. unfold bytes_lt in H. now rewrite H.
  Qed.

  Lemma flat_sorted lo hi f : forest_of a lo hi f -> forall j d, brothers j lo hi -> apdir a j d ->
    StronglySorted path_lt (map snd (flat d f)).
  Proof.
    induction 1 as [lo|lo hi r rest Hlt Hr Hnd Hrest IH|lo hi r first nb kids rest Hlt Hr Hp Hkids IHk Hrest IHr];
      intros j d Hb Hd; cbn [flat map]; [constructor| |].
    - destruct (Hb lo) as (r' & Hr' & Hpar); [lia|]. rewrite Hr in Hr'. injection Hr' as <-.
      assert (Hb' : brothers j (lo + 1) hi) by (intros k Hk; apply Hb; lia).
      cbn [app]. constructor; [eapply IH; eauto|]. apply Forall_forall. intros p Hin.
      apply in_map_iff in Hin as ((i & p') & <- & Hin). cbn [snd] in *.
      apply (flat_in _ _ _ Hrest j d Hb' Hd) in Hin as (_ & k & q & Hk & Hq & t & ->).
      rewrite <- (app_nil_r (d ++ [r_name r])) at 1. apply path_lt_names.
      destruct (Hb k) as (rk & Hrk & Hpk); [lia|].
      destruct (wf_sorted _ Hwf lo k r rk ltac:(lia) Hr Hrk) as [L|[_ L]]; [lia|].
      assert (E : d ++ [q] = d ++ [r_name rk]).
      { eapply apath_det; eauto. apply apath_intro; auto. now rewrite Hpk. }
      apply app_inj_tail in E as [_ ->]. exact L.
    - destruct (Hb lo) as (r' & Hr' & Hpar); [lia|]. rewrite Hr in Hr'. injection Hr' as <-.
      assert (Hlo : apath a lo (d ++ [r_name r])) by (apply apath_intro; auto; now rewrite Hpar).
      assert (Hb' : brothers j (lo + 1) hi) by (intros k Hk; apply Hb; lia).
      assert (Hbk := brothers_dir _ _ _ _ Hr Hp).
      assert (Hdk : apdir a (lo + 1) (d ++ [r_name r])) by (right; eauto).
      rewrite map_app.
      assert (Hrestlt : forall p, In p (map snd (flat d rest)) -> forall t, path_lt ((d ++ [r_name r]) ++ t) p).
      { intros p Hin t0. apply in_map_iff in Hin as ((i & p') & <- & Hin). cbn [snd].
        apply (flat_in _ _ _ Hrest j d Hb' Hd) in Hin as (_ & k & q & Hk & Hq & t & ->).
        apply path_lt_names. destruct (Hb k) as (rk & Hrk & Hpk); [lia|].
        destruct (wf_sorted _ Hwf lo k r rk ltac:(lia) Hr Hrk) as [L|[_ L]]; [lia|].
        assert (E : d ++ [q] = d ++ [r_name rk]).
        { eapply apath_det; eauto. apply apath_intro; auto. now rewrite Hpk. }
        apply app_inj_tail in E as [_ ->]. exact L. }
      assert (Hkids' : forall p, In p (map snd (flat (d ++ [r_name r]) kids)) ->
                exists x t, p = (d ++ [r_name r]) ++ x :: t).
      { intros p Hin. apply in_map_iff in Hin as ((i & p') & <- & Hin). cbn [snd].
        apply (flat_in _ _ _ Hkids _ _ Hbk Hdk) in Hin as (_ & k & q & _ & _ & t & ->).
        exists q, t. now rewrite <- !app_assoc. }
      constructor.
      + apply strongly_sorted_app. split; [eapply IHk; eauto|]. split; [eapply IHr; eauto|].
        intros x y Hx Hy. apply Hkids' in Hx as (z & t & ->). now apply Hrestlt.
      + apply Forall_forall. intros p Hin. apply in_app_iff in Hin as [Hin|Hin].
        * apply Hkids' in Hin as (x & t & ->). apply path_lt_below.
        * rewrite <- (app_nil_r (d ++ [r_name r])). now apply Hrestlt.
  Qed.

  (** The whole archive. *)
  Lemma root_brothers : brothers 0 (fst (a_root a)) (fst (a_root a) + snd (a_root a)).
  Proof. intros k Hk. now apply (wf_root _ Hwf). Qed.

  Lemma apath_top_of i p : apath a i p -> exists q t k, p = [q] ++ t /\ apath a k [q] /\
     fst (a_root a) <= k < fst (a_root a) + snd (a_root a).
  Proof.
    intros H. induction H as [i r Hr Hp|i r j p Hr Hp Hj (q & t & k & -> & Hk & Hb)].
    - exists (r_name r), [], i. split; auto. split; [now apply apath_top|]. apply (wf_root _ Hwf). eauto.
    - exists q, (t ++ [r_name r]), k. auto.
  Qed.

  Theorem root_flat f : forest_of a (fst (a_root a)) (fst (a_root a) + snd (a_root a)) f ->
    (forall i p, In (i, p) (flat [] f) <-> apath a i p) /\ StronglySorted path_lt (map snd (flat [] f)).
  Proof.
    intros Hf. assert (Hd : apdir a 0 []) by now left. split.
    - intros i p. rewrite (flat_in _ _ _ Hf 0 [] root_brothers Hd). split; [tauto|]. intros H. split; auto.
      destruct (apath_top_of _ _ H) as (q & t & k & -> & Hk & Hb). exists k, q. split; auto. split; auto. exists t. auto.
    - eapply flat_sorted; eauto. apply root_brothers.
  Qed.

  Theorem dir_flat i d r first nb f : at_ recs i = Some r -> r_payload r = RDir first nb -> apath a i d ->
    forest_of a first (first + nb) f ->
    (forall k p, In (k, p) (flat d f) <-> apath a k p /\ exists x t, p = d ++ x :: t) /\
    StronglySorted path_lt (map snd (flat d f)).
  Proof.
    intros Hr Hp Hi Hf. assert (Hd : apdir a (i + 1) d) by (right; eauto).
    assert (Hb := brothers_dir _ _ _ _ Hr Hp). split; [|eapply flat_sorted; eauto].
    intros k p. rewrite (flat_in _ _ _ Hf _ _ Hb Hd). split.
    - intros (H1 & x & q & Hx & Hq & t & ->). split; auto. exists q, t. now rewrite <- app_assoc.
    - intros (H1 & x & t & ->). split; auto.
      assert (Hx : exists k', apath a k' (d ++ [x])).
      { clear - H1. revert k H1. induction t as [|y t IH] using rev_ind; intros k H1; [eauto|].
        replace (d ++ x :: t ++ [y]) with ((d ++ x :: t) ++ [y]) in H1 by (rewrite <- !app_assoc; reflexivity).
        apply apath_inv in H1 as (r' & d' & _ & Hd' & Heq). apply app_inj_tail in Heq as [<- _].
        destruct Hd' as [[_ H]|(z & _ & Hz)]; [now destruct d|eauto]. }
      destruct Hx as [k' Hk']. exists k', x.
      destruct (wf_dir _ Hwf _ _ _ _ Hr Hp) as [_ Hdir].
      split; [apply Hdir; apply (child_path a Hwf d); eauto|]. split; auto.
      exists t. now rewrite <- app_assoc.
  Qed.
End Walk.
