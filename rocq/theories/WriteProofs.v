(** The archive written by the creator is well formed and holds the creator's map. *)
From Verif Require Export LayoutProofs SpecArchive.

(** ** Intervals *)
Lemma min_list_in l : l <> [] -> In (min_list l) l /\ forall x, In x l -> min_list l <= x.
Proof.
  destruct l as [|a l]; [easy|]. intros _. cbn [min_list].
  assert (H : forall l a, (In (fold_left N.min l a) (a :: l)) /\ (forall x, In x (a :: l) -> fold_left N.min l a <= x)).
  { clear. induction l as [|c l IH]; intros a; cbn.
    - split; auto. intros x [->|[]]. lia.
    - destruct (IH (N.min a c)) as [H1 H2]. split.
      + destruct H1 as [H1|H1]; auto. rewrite <- H1. destruct (N.min_spec a c) as [[_ ->]|[_ ->]]; auto.
      + intros x Hx. assert (Hm : fold_left N.min l (N.min a c) <= N.min a c) by (apply H2; now left).
        destruct Hx as [->|[->|Hx]]; try lia. apply H2. now right. }
  apply H.
Qed.

Lemma max_exists (l : list N) : l <> [] -> exists M, In M l /\ forall x, In x l -> x <= M.
Proof.
  induction l as [|a l IH]; [easy|]. intros _. destruct l as [|c l].
  - exists a. split; [now left|]. intros x [->|[]]. lia.
  - destruct IH as (M & H1 & H2); [easy|]. destruct (N.le_ge_cases a M).
    + exists M. split; [now right|]. intros x [->|Hx]; auto.
    + exists a. split; [now left|]. intros x [->|Hx]; [lia|]. specialize (H2 x Hx). lia.
Qed.

Lemma interval_of_convex (l : list N) : NoDup l ->
  (forall x y z, In x l -> In y l -> x <= z <= y -> In z l) ->
  forall k, In k l <-> min_list l <= k < min_list l + N.of_nat (length l).
Proof.
  intros Hn Hc. destruct l as [|a l].
  { intros k. cbn. lia. }
  set (L := a :: l) in *. assert (HL : L <> []) by easy.
  destruct (min_list_in L HL) as [Hm1 Hm2]. destruct (max_exists L HL) as (M & HM1 & HM2).
  set (m := min_list L) in *. specialize (Hm2 M HM1) as HmM.
  assert (Hlen : length L = N.to_nat (M - m + 1)).
  { apply Nat.le_antisymm.
    - rewrite <- (iota_length m (N.to_nat (M - m + 1))). apply NoDup_incl_length; auto.
      intros x Hx. apply in_iota. specialize (Hm2 x Hx). specialize (HM2 x Hx). lia.
    - rewrite <- (iota_length m (N.to_nat (M - m + 1))) at 1. apply NoDup_incl_length; [apply iota_nodup|].
      intros x Hx. apply in_iota in Hx. apply (Hc m M); auto. lia. }
  intros k. rewrite Hlen. split.
  - intros Hk. specialize (Hm2 k Hk). specialize (HM2 k Hk). lia.
  - intros Hk. apply (Hc m M); auto. lia.
Qed.

Section Written.
  Variable st : cstate.
  Hypothesis Hinv : cinv st.
  Variable ord : list slot.
  Local Notation store := (cs_store st).
  Hypothesis Hord : is_order st ord.
  Hypothesis Hright : right_all st ord.
  Variable fetch : caddr -> fetched.
  Hypothesis Hsize : N.of_nat (length store) < 2^32.

  Let a := mkArchive (map (record_of st ord) ord) (0, as_u32 (nb_children st None)) (0, as_u32 (N.of_nat (length store))) fetch.

  Lemma w_nodup : NoDup ord. Proof. now apply (order_nodup st). Qed.
  Lemma w_in s : In s ord <-> (s < length store)%nat. Proof. now apply order_in. Qed.

  Lemma w_at i r : at_ (a_recs a) i = Some r <->
    exists s, (s < length store)%nat /\ index_of ord s = i /\ r = record_of st ord s.
  Proof.
    unfold a. cbn [a_recs]. rewrite at_map. split.
    - destruct (at_ ord i) as [s|] eqn:E; [|easy]. intros H. injection H as <-. exists s.
      apply at_in in E as Hin. rewrite w_in in Hin. split; auto. split; auto.
      apply index_of_at; auto. apply w_nodup.
    - intros (s & Hs & <- & ->). rewrite at_index_of; auto. now apply w_in.
  Qed.

  Lemma w_length : length (a_recs a) = length store.
  Proof. unfold a. cbn. rewrite map_length. now apply order_length. Qed.

  Lemma w_index_lt s : (s < length store)%nat -> index_of ord s < N.of_nat (length store).
  Proof. intros H. rewrite <- (order_length st ord); auto. apply index_of_lt. now apply w_in. Qed.

  Lemma w_index_inj s t : (s < length store)%nat -> (t < length store)%nat ->
    index_of ord s = index_of ord t -> s = t.
  Proof. intros Hs Ht. apply index_of_inj; now apply w_in. Qed.

  Lemma w_K s t : (s < length store)%nat -> (t < length store)%nat ->
    index_of ord s < index_of ord t -> K st ord s t.
  Proof.
    intros Hs Ht Hlt. destruct (slot_path st Hinv s Hs) as [p Hp]. destruct (slot_path st Hinv t Ht) as [q Hq].
    apply (K_shortlex st Hinv (length p) ord s t p q); auto.
    - intros s' t' p' q' Hs' Ht' _ Hp' Hq' _. now apply Hright.
    - intros ->. lia.
    - apply (Hright s t); auto.
  Qed.

  Lemma w_parent_lt s d : (s < length store)%nat -> se_parent (sentry_of store s) = Some d ->
    index_of ord d < index_of ord s.
  Proof.
    intros Hs Hp. destruct (slot_parent st Hinv s d Hs Hp) as (_ & Hd & _).
    destruct (slot_path st Hinv d Hd) as [p Hpd].
    apply (Hright d s p (p ++ [se_name (sentry_of store s)])); auto.
    - apply spath_sub with d; auto. now apply sentry_nth.
    - left. rewrite app_length. cbn. lia.
  Qed.

  (** Indices of the children recorded in a cache. *)
  Definition kids (d : dirref) : list N := map (fun c => index_of ord (child_slot (snd c))) (cs_heap st d).

  Lemma in_heap d n c : In (n, c) (cs_heap st d) <-> assoc n (cs_heap st d) = Some c.
  Proof.
    split; [apply in_assoc; apply (ci_nodup _ Hinv)|apply assoc_in].
  Qed.

  Lemma in_kids d i : In i (kids d) <->
    exists s, (s < length store)%nat /\ se_parent (sentry_of store s) = d /\ index_of ord s = i.
  Proof.
    unfold kids. rewrite in_map_iff. split.
    - intros ([n c] & <- & H). cbn [snd]. apply in_heap in H.
      destruct (ci_heap _ Hinv _ _ _ H) as (e & He & _ & Hp & _).
      assert (Hs : (child_slot c < length store)%nat) by (apply nth_error_Some; congruence).
      exists (child_slot c). split; auto. split; auto.
      unfold sentry_of. now rewrite (nth_error_nth _ _ _ He).
    - intros (s & Hs & Hp & <-). pose proof (sentry_nth st s Hs) as He. apply (ci_store _ Hinv) in He.
      rewrite Hp in He.
      exists (se_name (sentry_of store s), mkchild (se_kind (sentry_of store s)) s).
      cbn [snd]. rewrite child_slot_mkchild. split; auto. now apply in_heap.
  Qed.

  Lemma kids_nodup d : NoDup (kids d).
  Proof.
    unfold kids. pose proof (ci_nodup _ Hinv d) as Hn.
    assert (H : forall l, incl l (cs_heap st d) -> NoDup (map fst l) ->
      NoDup (map (fun c => index_of ord (child_slot (snd c))) l)).
    { induction l as [|[n c] l IH]; intros Hi Hnd; cbn; constructor; cbn in Hnd;
        apply NoDup_cons_iff in Hnd as [Hx Hnd].
      - intros Hin. apply in_map_iff in Hin as ([n' c'] & Heq & Hin'). cbn [snd] in Heq.
        assert (H1 : assoc n (cs_heap st d) = Some c) by (apply in_heap, Hi; now left).
        assert (H2 : assoc n' (cs_heap st d) = Some c') by (apply in_heap, Hi; now right).
        destruct (ci_heap _ Hinv _ _ _ H1) as (e1 & He1 & Hn1 & _ & _).
        destruct (ci_heap _ Hinv _ _ _ H2) as (e2 & He2 & Hn2 & _ & _).
        assert (child_slot c' = child_slot c).
        { apply w_index_inj; auto; apply nth_error_Some; congruence. }
        rewrite H in He2. rewrite He1 in He2. injection He2 as <-.
        apply Hx. apply in_map_iff. exists (n', c'). split; [cbn; congruence|auto].
      - apply IH; auto. intros x Hxl. apply Hi. now right. }
    apply H; [apply incl_refl|auto].
  Qed.

  Lemma w_rparent s : r_parent (record_of st ord s) = parent_value ord (se_parent (sentry_of store s)).
  Proof. reflexivity. Qed.

  Lemma parent_value_inj s t d : (s < length store)%nat -> (t < length store)%nat ->
    se_parent (sentry_of store s) = d ->
    parent_value ord (se_parent (sentry_of store t)) = parent_value ord d ->
    se_parent (sentry_of store t) = d.
  Proof.
    intros Hs Ht Hd H. destruct (se_parent (sentry_of store t)) as [x|] eqn:E1, d as [y|]; cbn in H; auto; try lia.
    f_equal. apply w_index_inj; [|now apply (slot_parent st Hinv s y)|lia].
    now apply (slot_parent st Hinv t x).
  Qed.

  Lemma kids_convex d x y z : In x (kids d) -> In y (kids d) -> x <= z <= y -> In z (kids d).
  Proof.
    rewrite !in_kids. intros (s & Hs & Hps & <-) (t & Ht & Hpt & <-) Hz.
    assert (Hzn : z < N.of_nat (length ord)).
    { rewrite (order_length st ord); auto.  pose proof (w_index_lt t Ht). lia. }
    destruct (at_lt_some ord z Hzn) as [u Hu]. apply at_in in Hu as Huin. apply w_in in Huin.
    pose proof (index_of_at ord u z w_nodup Hu) as Hidx.
    exists u. split; auto. split; auto.
    destruct (Nat.eq_dec u s) as [->|Hus]; auto. destruct (Nat.eq_dec u t) as [->|Hut]; auto.
    assert (index_of ord s <> z) by (intros E; apply Hus; apply w_index_inj; auto; congruence).
    assert (index_of ord t <> z) by (intros E; apply Hut; apply w_index_inj; auto; congruence).
    assert (K1 : K st ord s u) by (apply w_K; auto; lia).
    assert (K2 : K st ord u t) by (apply w_K; auto; lia).
    unfold K, key in K1, K2. rewrite key_lt_spec in K1, K2.
    rewrite Hps in K1. rewrite Hpt in K2. apply parent_value_inj with s; auto.
    destruct K1 as [K1|[K1 _]], K2 as [K2|[K2 _]]; lia.
  Qed.

  Lemma kids_interval d k : In k (kids d) <-> min_list (kids d) <= k < min_list (kids d) + nb_children st d.
  Proof.
    rewrite (interval_of_convex (kids d) (kids_nodup d) (kids_convex d) k).
    unfold kids at 3. now rewrite map_length.
  Qed.

  Lemma in_kids_rec d k : (d = None \/ exists s, d = Some s /\ (s < length store)%nat) ->
    (In k (kids d) <-> exists rk, at_ (a_recs a) k = Some rk /\ r_parent rk = parent_value ord d).
  Proof.
    intros Hd. rewrite in_kids. split.
    - intros (s & Hs & Hp & Hi). exists (record_of st ord s). split.
      + apply w_at. exists s. auto.
      + rewrite w_rparent. now rewrite Hp.
    - intros (rk & Hk & Hp). apply w_at in Hk as (s & Hs & Hi & ->). exists s. split; auto. split; auto.
      rewrite w_rparent in Hp.
      destruct (se_parent (sentry_of store s)) as [x|] eqn:E1, d as [y|]; cbn in Hp; auto; try lia.
      destruct Hd as [Hd|(y' & Hd & Hy)]; [discriminate Hd|]. injection Hd as <-.
      f_equal. apply w_index_inj; auto; [|lia]. now apply (slot_parent st Hinv s x).
  Qed.

  Lemma kids_bound d : (d = None \/ exists s, d = Some s /\ (s < length store)%nat) ->
    min_list (kids d) + nb_children st d <= N.of_nat (length (a_recs a)).
  Proof.
    intros Hd. destruct (N.eq_dec (nb_children st d) 0) as [E|E].
    - rewrite E. assert (kids d = []) as ->.
      { unfold nb_children in E. unfold kids. destruct (cs_heap st d); auto. cbn in E. lia. }
      cbn. lia.
    - assert (H : In (min_list (kids d) + nb_children st d - 1) (kids d)) by (apply kids_interval; lia).
      apply in_kids_rec in H as (rk & Hk & _); auto. apply at_some_lt in Hk. lia.
  Qed.

  Lemma nb_children_small d : (d = None \/ exists s, d = Some s /\ (s < length store)%nat) ->
    as_u32 (nb_children st d) = nb_children st d.
  Proof.
    intros Hd. unfold as_u32. apply N.mod_small. pose proof (kids_bound d Hd).
    rewrite w_length in H. lia.
  Qed.

  Lemma root_min : min_list (kids None) = 0.
  Proof.
    destruct (kids None) as [|x l] eqn:E; auto. rewrite <- E.
    assert (Hx : In x (kids None)) by (rewrite E; now left).
    apply in_kids in Hx as (s & Hs & _ & Hi).
    assert (Hlen : 0 < N.of_nat (length ord)) by (rewrite (order_length st ord); auto; lia).
    destruct (at_lt_some ord 0 Hlen) as [u Hu]. apply at_in in Hu as Huin. apply w_in in Huin.
    pose proof (index_of_at ord u 0 w_nodup Hu) as Hidx.
    assert (H0 : In 0 (kids None)).
    { apply in_kids. exists u. split; auto. split; auto.
      destruct (se_parent (sentry_of store u)) as [d|] eqn:Ep; auto.
      apply w_parent_lt in Ep; auto. lia. }
    assert (Hne : kids None <> []) by (rewrite E; easy).
    destruct (min_list_in _ Hne) as [_ Hm]. specialize (Hm 0 H0). lia.
  Qed.

  Theorem written_wf : wf a.
  Proof.
    constructor.
    - rewrite w_length. exact Hsize.
    - intros i r H. apply w_at in H as (s & Hs & <- & ->). rewrite w_rparent.
      destruct (se_parent (sentry_of store s)) as [d|] eqn:E; [right|left; reflexivity].
      destruct (slot_parent st Hinv s d Hs E) as (_ & Hd & Hk).
      exists (index_of ord d), (record_of st ord d), (first_child st ord d), (nb_children st (Some d)).
      split; [reflexivity|]. split; [now apply w_parent_lt|]. split; [apply w_at; eauto|].
      unfold record_of. cbn. now rewrite Hk.
    - intros i j ri rj Hij Hi Hj. apply w_at in Hi as (s & Hs & <- & ->). apply w_at in Hj as (t & Ht & <- & ->).
      pose proof (w_K s t Hs Ht Hij) as HK. unfold K, key in HK. rewrite key_lt_spec in HK.
      unfold rec_lt. exact HK.
    - intros i r first nb H Hp. apply w_at in H as (s & Hs & <- & ->).
      unfold record_of in Hp. cbn in Hp.
      destruct (se_kind (sentry_of store s)) eqn:Ek; try discriminate Hp. injection Hp as <- <-.
      assert (Hd : Some s = None \/ exists s', Some s = Some s' /\ (s' < length store)%nat) by eauto.
      split; [now apply kids_bound|]. intros k.
      change (first_child st ord s) with (min_list (kids (Some s))).
      rewrite <- kids_interval. now apply in_kids_rec.
    - cbn [a_root a fst snd]. rewrite nb_children_small by auto. 
      pose proof (kids_bound None (or_introl eq_refl)) as Hb. rewrite root_min in Hb.
      split; [exact Hb|]. intros k. pose proof (kids_interval None k) as Hk. rewrite root_min in Hk.
      rewrite <- Hk. apply in_kids_rec. auto.
    - intros i r v H Hp. apply w_at in H as (s & Hs & <- & ->). unfold record_of in Hp. cbn in Hp.
      destruct (se_kind (sentry_of (cs_store st) s)); discriminate Hp.
    - rewrite w_length. cbn [a a_entries]. unfold as_u32. rewrite N.mod_small by exact Hsize. reflexivity.
  Qed.

  Lemma apath_spath i p : apath a i p <-> exists s, spath store s p /\ index_of ord s = i.
  Proof.
    split.
    - induction 1 as [i r H Hp|i r j p H Hp _ IH].
      + apply w_at in H as (s & Hs & <- & ->). exists s. split; auto.
        apply spath_top; [now apply sentry_nth|]. rewrite w_rparent in Hp.
        destruct (se_parent (sentry_of store s)); cbn in Hp; auto. lia.
      + apply w_at in H as (s & Hs & <- & ->). exists s. split; auto.
        destruct IH as (d & Hd & Hj). rewrite w_rparent in Hp.
        destruct (se_parent (sentry_of store s)) as [d'|] eqn:E; cbn in Hp; [|lia].
        assert (d' = d) as ->.
        { apply w_index_inj; [|now apply spath_lt in Hd|lia]. now apply (slot_parent st Hinv s d'). }
        apply spath_sub with d; auto. now apply sentry_nth.
    - intros (s & Hs & <-). induction Hs as [s e He Hp|s e d p He Hp Hd IH].
      + assert (Hs : (s < length store)%nat) by (apply nth_error_Some; congruence).
        assert (He' : sentry_of store s = e) by (unfold sentry_of; now rewrite (nth_error_nth _ _ _ He)).
        change (se_name e) with (r_name (mkRec (se_name e) 0 0 0 0 0 (RBad 0))).
        rewrite <- He'. apply (apath_top a _ (record_of st ord s)); [apply w_at; eauto|].
        rewrite w_rparent, He', Hp. reflexivity.
      + assert (Hs : (s < length store)%nat) by (apply nth_error_Some; congruence).
        assert (He' : sentry_of store s = e) by (unfold sentry_of; now rewrite (nth_error_nth _ _ _ He)).
        rewrite <- He'. apply (apath_sub a _ (record_of st ord s) (index_of ord d)); auto; [apply w_at; eauto|].
        rewrite w_rparent, He', Hp. reflexivity.
  Qed.

  Lemma node_of_record s : (s < length store)%nat ->
    node_of_rec (record_of st ord s) = Some (se_kind (sentry_of store s), se_meta (sentry_of store s)).
  Proof.
    intros Hs. unfold node_of_rec, record_of, meta_of_rec. cbn. 
    destruct (se_meta (sentry_of store s)) as [u g m t]. cbn.
    destruct (se_kind (sentry_of store s)); reflexivity.
  Qed.

  Theorem written_holds m : represents st m -> aholds a m.
  Proof.
    intros Hr. split; [|split; [|split]].
    - intros p nd. rewrite <- (Hr p nd). split.
      + intros (i & r & Hi & Hp & Hn). apply w_at in Hi as (s & Hs & <- & ->).
        apply apath_spath in Hp as (t & Ht & Hti). apply w_index_inj in Hti; auto; [|now apply spath_lt in Ht].
        subst t. exists s, (sentry_of store s). split; [now apply sentry_nth|]. split; auto.
        rewrite node_of_record in Hn; auto. congruence.
      + intros (s & e & He & Hs & ->).
        assert (Hsl : (s < length store)%nat) by now apply spath_lt in Hs.
        assert (He' : sentry_of store s = e) by (unfold sentry_of; now rewrite (nth_error_nth _ _ _ He)).
        exists (index_of ord s), (record_of st ord s). split; [apply w_at; eauto|].
        split; [apply apath_spath; eauto|]. rewrite node_of_record; auto. now rewrite He'.
    - intros i Hi. rewrite w_length in Hi. rewrite <- (order_length st ord Hord) in Hi.
      destruct (at_lt_some ord i Hi) as [s Hs]. apply at_in in Hs as Hin. apply w_in in Hin.
      destruct (slot_path st Hinv s Hin) as [p Hp]. exists p. apply apath_spath. exists s. split; auto.
      apply index_of_at; auto. apply w_nodup.
    - intros i p q Hp Hq. apply apath_spath in Hp as (s & Hs & <-). apply apath_spath in Hq as (t & Ht & E).
      apply w_index_inj in E; [|now apply spath_lt in Ht|now apply spath_lt in Hs]. subst t.
      eapply spath_det; eauto.
    - intros i j p Hp Hq. apply apath_spath in Hp as (s & Hs & <-). apply apath_spath in Hq as (t & Ht & <-).
      f_equal. eapply spath_inj; eauto.
  Qed.

  (** Entries are in short-lex order of paths. *)
  Theorem written_shortlex i j p q : apath a i p -> apath a j q -> (i < j <-> shortlex_lt p q).
  Proof.
    intros Hp Hq. apply apath_spath in Hp as (s & Hs & <-). apply apath_spath in Hq as (t & Ht & <-).
    apply Hright; auto; eapply spath_lt; eauto.
  Qed.
End Written.

Theorem write_archive_ok st m fetch : cinv st -> represents st m -> N.of_nat (length (cs_store st)) < 2^32 ->
  exists a, write_archive st fetch = Some a /\ a_fetch a = fetch /\ wf a /\ aholds a m /\
    length (a_recs a) = length (cs_store st) /\
    (forall i j p q, apath a i p -> apath a j q -> (i < j <-> shortlex_lt p q)).
Proof.
  intros Hi Hr Hs. destruct (layout_ok st Hi) as (ord & H1 & H2 & H3).
  unfold write_archive. rewrite H1. eexists. split; [reflexivity|]. split; [reflexivity|].
  split; [now apply written_wf|]. split; [now apply written_holds|].
  split; [now apply w_length|]. intros i j p q. now apply written_shortlex.
Qed.
