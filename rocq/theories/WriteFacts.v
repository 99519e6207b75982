(** The index written is a function of the map only (C10). *)
From Verif Require Export WriteProofs CreatorFacts ReaderProofs.

Definition in_order (a : archive) : Prop :=
  forall i j p q, apath a i p -> apath a j q -> (i < j <-> shortlex_lt p q).
Definition normal (a : archive) : Prop :=
  fst (a_root a) = 0 /\ forall r f, In r (a_recs a) -> r_payload r = RDir f 0 -> f = 0.

Lemma write_normal st fetch a : write_archive st fetch = Some a -> normal a.
Proof.
  unfold write_archive. destruct (layout_of (cs_store st)) as [ord|]; [|easy]. intros H. injection H as <-.
  split; auto. intros r f Hin Hp. cbn [a_recs] in Hin. apply in_map_iff in Hin as (s & <- & _).
  unfold record_of in Hp. cbn [r_payload] in Hp. destruct (se_kind (sentry_of (cs_store st) s)); try discriminate Hp.
  injection Hp as H1 H2. unfold nb_children, first_child in *.
  destruct (cs_heap st (Some s)); [now rewrite <- H1|discriminate H2].
Qed.

Section Two.
  Variables a1 a2 : archive.
  Variable m : pmap.
  Hypotheses (W1 : wf a1) (W2 : wf a2) (A1 : aholds a1 m) (A2 : aholds a2 m)
             (O1 : in_order a1) (O2 : in_order a2) (N1 : normal a1) (N2 : normal a2).

  Lemma has_node a i p : wf a -> apath a i p -> exists nd, astored a i p nd.
  Proof.
    intros W H. destruct (apath_at _ _ _ H) as [r Hr]. destruct (node_of_rec r) as [nd|] eqn:E.
    - exists nd, r. auto.
    - unfold node_of_rec in E. destruct (r_payload r) eqn:Ep; try discriminate E.
      now apply (wf_variant _ W _ _ variant) in Hr.
  Qed.

  Lemma same_paths_aux a a' p i : wf a -> aholds a m -> aholds a' m -> apath a i p -> exists j, apath a' j p.
  Proof.
    intros W H H' Hp. destruct (has_node a i p W Hp) as [nd Hn].
    assert (Hm : m p = Some nd) by (apply (proj1 H); eauto).
    apply (proj1 H') in Hm as (j & r & _ & Hj & _). eauto.
  Qed.

  Lemma same_index i : forall p, apath a1 i p -> apath a2 i p.
  Proof.
    induction i as [i IH] using (well_founded_induction N.lt_wf_0). intros p Hp.
    destruct (same_paths_aux a1 a2 p i W1 A1 A2 Hp) as [j Hj].
    destruct (N.lt_trichotomy j i) as [Hlt|[->|Hgt]]; auto; exfalso.
    - assert (Hj1 : j < N.of_nat (length (a_recs a1))).
      { destruct (apath_at _ _ _ Hp) as [r Hr]. apply at_some_lt in Hr. lia. }
      destruct (apath_total a1 W1 j Hj1) as [p' Hp'].
      assert (p' = p) by (eapply apath_det; [apply IH; eauto|exact Hj]). subst p'.
      assert (i = j) by (eapply (apath_inj a1); eauto). lia.
    - assert (Hi2 : i < N.of_nat (length (a_recs a2))).
      { destruct (apath_at _ _ _ Hj) as [r Hr]. apply at_some_lt in Hr. lia. }
      destruct (apath_total a2 W2 i Hi2) as [p' Hp'].
      destruct (same_paths_aux a2 a1 p' i W2 A2 A1 Hp') as [k Hk].
      assert (Hki : k < i).
      { apply (O1 k i p' p Hk Hp). apply (O2 i j p' p Hp' Hj). exact Hgt. }
      assert (k = i) by (eapply (apath_inj a2); [exact W2|apply IH; eauto|exact Hp']). lia.
  Qed.
End Two.

Section Two2.
  Variables a1 a2 : archive.
  Variable m : pmap.
  Hypotheses (W1 : wf a1) (W2 : wf a2) (A1 : aholds a1 m) (A2 : aholds a2 m)
             (O1 : in_order a1) (O2 : in_order a2) (N1 : normal a1) (N2 : normal a2).

  Lemma si12 i p : apath a1 i p -> apath a2 i p.
  Proof. now apply same_index with m. Qed.
  Lemma si21 i p : apath a2 i p -> apath a1 i p.
  Proof. now apply same_index with m. Qed.

  Lemma interval_same f n f' n' :
    (forall k, f <= k < f + n <-> f' <= k < f' + n') -> n = n' /\ (n = 0 \/ f = f').
  Proof.
    intros H. pose proof (H f) as H1. pose proof (H f') as H2.
    pose proof (H (f + n)) as H3. pose proof (H (f' + n')) as H4.
    pose proof (H (f + n - 1)) as H5. pose proof (H (f' + n' - 1)) as H6. lia.
  Qed.

  Lemma same_rec i r1 r2 : at_ (a_recs a1) i = Some r1 -> at_ (a_recs a2) i = Some r2 -> r1 = r2.
  Proof.
    intros H1 H2.
    destruct (apath_total a1 W1 i) as [p Hp]; [now apply at_some_lt in H1|].
    pose proof (si12 _ _ Hp) as Hp2.
    destruct (has_node a1 i p W1 Hp) as [nd Hn1]. destruct (has_node a2 i p W2 Hp2) as [nd' Hn2].
    assert (nd' = nd).
    { assert (m p = Some nd) by (apply (proj1 A1); eauto). assert (m p = Some nd') by (apply (proj1 A2); eauto). congruence. }
    subst nd'. destruct Hn1 as (x & Hx & _ & Hn1). rewrite H1 in Hx. injection Hx as <-.
    destruct Hn2 as (x & Hx & _ & Hn2). rewrite H2 in Hx. injection Hx as <-.
    apply apath_inv in Hp as I1. destruct I1 as (x & d1 & Hx & Hd1 & E1). rewrite H1 in Hx. injection Hx as <-.
    apply apath_inv in Hp2 as I2. destruct I2 as (x & d2 & Hx & Hd2 & E2). rewrite H2 in Hx. injection Hx as <-.
    rewrite E1 in E2. apply app_inj_tail in E2 as [<- En].
    assert (Ep : r_parent r1 = r_parent r2).
    { destruct Hd1 as [[-> ->]|(j & -> & Hj)], Hd2 as [[-> E]|(j' & -> & Hj')]; auto.
      - now apply apath_nonempty in Hj'.
      - subst d1. now apply apath_nonempty in Hj.
      - f_equal. apply si12 in Hj. eapply (apath_inj a2); eauto. }
    assert (Em : meta_of_rec r1 = meta_of_rec r2 /\ r_payload r1 = r_payload r2).
    { unfold node_of_rec in Hn1, Hn2.
      destruct (r_payload r1) as [ad s|f n|t|v] eqn:P1; try discriminate Hn1;
      destruct (r_payload r2) as [ad' s'|f' n'|t'|v'] eqn:P2; try discriminate Hn2;
        (split; [congruence|]); try congruence.
      assert (Hi : forall k, f <= k < f + n <-> f' <= k < f' + n').
      { intros k. destruct (wf_dir _ W1 _ _ _ _ H1 P1) as [_ D1]. destruct (wf_dir _ W2 _ _ _ _ H2 P2) as [_ D2].
        rewrite D1, D2. rewrite <- !child_path with (d := p); eauto; try (right; eauto).
        split; intros [x Hx]; exists x; [now apply si12|now apply si21]. }
      destruct (interval_same _ _ _ _ Hi) as [<- [E| <-]]; [|reflexivity]. subst n.
      assert (f = 0).
      { apply (proj2 N1 r1); auto. eapply at_in; eauto. }
      assert (f' = 0).
      { apply (proj2 N2 r2); auto. eapply at_in; eauto. }
      congruence. }
    destruct Em as [Em Epl]. destruct r1, r2. unfold meta_of_rec in Em. cbn in *. congruence.
  Qed.

  Lemma same_recs : a_recs a1 = a_recs a2.
  Proof.
    assert (Hl : forall i, at_ (a_recs a1) i = None <-> at_ (a_recs a2) i = None).
    { intros i. split; intros H.
      - destruct (at_ (a_recs a2) i) as [r|] eqn:E; auto.
        destruct (apath_total a2 W2 i) as [p Hp]; [now apply at_some_lt in E|].
        apply si21, apath_at in Hp as [r' Hr]. congruence.
      - destruct (at_ (a_recs a1) i) as [r|] eqn:E; auto.
        destruct (apath_total a1 W1 i) as [p Hp]; [now apply at_some_lt in E|].
        apply si12, apath_at in Hp as [r' Hr]. congruence. }
    apply list_ext_at. intros i. specialize (Hl i).
    destruct (at_ (a_recs a1) i) as [r1|] eqn:E1, (at_ (a_recs a2) i) as [r2|] eqn:E2; auto.
    - f_equal. eapply same_rec; eauto.
    - now apply Hl.
    - symmetry. now apply Hl.
  Qed.

  Lemma same_root : a_root a1 = a_root a2.
  Proof.
    destruct (wf_root _ W1) as [_ R1]. destruct (wf_root _ W2) as [_ R2].
    destruct N1 as [Z1 _]. destruct N2 as [Z2 _].
    rewrite (surjective_pairing (a_root a1)), (surjective_pairing (a_root a2)), Z1, Z2. f_equal.
    rewrite Z1 in R1. rewrite Z2 in R2. rewrite same_recs in R1.
    assert (H : forall k, 0 <= k < 0 + snd (a_root a1) <-> 0 <= k < 0 + snd (a_root a2)) by (intros k; now rewrite R1, R2).
    now apply interval_same in H.
  Qed.
End Two2.

Theorem same_map_same_index l1 l2 fetch :
  (forall p nd, stored (cs_store (fst (run_adds creator_new l1))) p nd <-> stored (cs_store (fst (run_adds creator_new l2))) p nd) ->
  N.of_nat (length (cs_store (fst (run_adds creator_new l1)))) < 2^32 ->
  N.of_nat (length (cs_store (fst (run_adds creator_new l2)))) < 2^32 ->
  exists a, write_archive (fst (run_adds creator_new l1)) fetch = Some a /\
            write_archive (fst (run_adds creator_new l2)) fetch = Some a.
Proof.
  intros H S1 S2. destruct (after_sim l1) as (m1 & I1 & R1 & _). destruct (after_sim l2) as (m2 & I2 & R2 & _).
  assert (R2' : represents (fst (run_adds creator_new l2)) m1).
  { intros p nd. rewrite <- H. apply R1. }
  destruct (write_archive_ok _ m1 fetch I1 R1 S1) as (a1 & E1 & F1 & W1 & A1 & _ & O1).
  destruct (write_archive_ok _ m1 fetch I2 R2' S2) as (a2 & E2 & F2 & W2 & A2 & _ & O2).
  apply write_normal in E1 as N1. apply write_normal in E2 as N2.
  exists a1. split; auto. rewrite E2. f_equal.
  destruct a1 as [rc1 rt1 en1 f1], a2 as [rc2 rt2 en2 f2].
  pose proof (wf_entries _ W1) as E5. pose proof (wf_entries _ W2) as E6.
  pose proof (same_recs _ _ m1 W1 W2 A1 A2 O1 O2 N1 N2) as E3.
  pose proof (same_root _ _ m1 W1 W2 A1 A2 O1 O2 N1 N2) as E4. cbn in *. congruence.
Qed.
