(** The finalisation loop reaches the short-lex order of paths. *)
From Verif Require Export Layout CreatorProofs OrderFacts.

(** ** Facts about [index_of] *)
Lemma index_of_nth ord s i : NoDup ord -> nth_error ord i = Some s -> index_of ord s = N.of_nat i.
Proof.
  revert i; induction ord as [|x ord IH]; intros i Hn H; [destruct i; discriminate H|].
  apply NoDup_cons_iff in Hn as [Hx Hn]. destruct i as [|i]; cbn in *.
  - injection H as ->. now rewrite Nat.eqb_refl.
  - destruct (Nat.eqb_spec x s) as [->|].
    + destruct Hx. eapply nth_error_In; eauto.
    + rewrite (IH i); auto. lia.
Qed.

Lemma index_of_lt ord s : In s ord -> index_of ord s < N.of_nat (length ord).
Proof.
  induction ord as [|x ord IH]; cbn; [easy|]. intros H.
  destruct (Nat.eqb_spec x s); [lia|]. destruct H as [->|H]; [easy|]. specialize (IH H). lia.
Qed.

Lemma index_of_inj ord s t : In s ord -> In t ord -> index_of ord s = index_of ord t -> s = t.
Proof.
  induction ord as [|x ord IH]; cbn; [easy|]. intros Hs Ht H.
  destruct (Nat.eqb_spec x s) as [Hxs|Hxs], (Nat.eqb_spec x t) as [Hxt|Hxt]; try lia.
  destruct Hs as [->|Hs]; [easy|]. destruct Ht as [->|Ht]; [easy|]. apply IH; auto. lia.
Qed.

Lemma nth_index_of ord s : In s ord -> nth_error ord (N.to_nat (index_of ord s)) = Some s.
Proof.
  induction ord as [|x ord IH]; cbn; [easy|]. intros H.
  destruct (Nat.eqb_spec x s) as [->|]; [reflexivity|]. destruct H as [->|H]; [easy|].
  replace (N.to_nat (1 + index_of ord s)) with (S (N.to_nat (index_of ord s))) by lia.
  now apply IH.
Qed.

Lemma at_index_of ord s : In s ord -> at_ ord (index_of ord s) = Some s.
Proof. intros H. rewrite at_nth. now apply nth_index_of. Qed.

Lemma index_of_at ord s i : NoDup ord -> at_ ord i = Some s -> index_of ord s = i.
Proof. rewrite at_nth. intros Hn H. rewrite (index_of_nth _ _ _ Hn H). lia. Qed.

Lemma sorted_by_index ord : NoDup ord ->
  StronglySorted (fun s t => index_of ord s < index_of ord t) ord.
Proof.
  induction ord as [|x ord IH]; intros Hn; constructor; apply NoDup_cons_iff in Hn as [Hx Hn].
  - specialize (IH Hn). eapply strongly_sorted_impl; [|exact IH].
    intros a c Ha Hc H. cbn in *. destruct (Nat.eqb_spec x a); [subst; easy|].
    destruct (Nat.eqb_spec x c); [subst; easy|]. lia.
  - apply Forall_forall. intros y Hy. cbn. rewrite Nat.eqb_refl.
    destruct (Nat.eqb_spec x y); [subst; easy|]. lia.
Qed.

Lemma index_sorted (R : slot -> slot -> Prop) ord : NoDup ord -> StronglySorted R ord ->
  (forall s t, R s t -> ~ R t s) -> forall s t, In s ord -> In t ord -> s <> t ->
  (index_of ord s < index_of ord t <-> R s t).
Proof.
  intros Hn Hs Ha s t Hin1 Hin2 Hne.
  apply nth_index_of in Hin1 as N1. apply nth_index_of in Hin2 as N2.
  assert (Hd : index_of ord s <> index_of ord t) by (intros E; apply Hne; eapply index_of_inj; eauto).
  split.
  - intros H. eapply strongly_sorted_nth; [exact Hs|exact N1|exact N2|lia].
  - intros H. destruct (N.lt_ge_cases (index_of ord s) (index_of ord t)) as [|Hge]; auto.
    exfalso. apply (Ha _ _ H). eapply strongly_sorted_nth; [exact Hs|exact N2|exact N1|lia].
Qed.

(** ** Sorting *)
Lemma sorted_byb_spec {A} (leb : A -> A -> bool) l :
  sorted_byb leb l = true <-> Sorted (fun x y => leb x y = true) l.
Proof.
  induction l as [|x l IH]; cbn; [split; auto|]. destruct l as [|y l].
  - split; intros; auto.
  - rewrite andb_true_iff, IH. split.
    + intros [H1 H2]. constructor; auto.
    + intros H. apply Sorted_inv in H as [H1 H2]. split; auto. now inversion H2.
Qed.

Lemma insert_by_perm {A} (leb : A -> A -> bool) x l : Permutation (insert_by leb x l) (x :: l).
Proof.
  induction l as [|y l IH]; cbn; auto. destruct (leb x y); auto.
  rewrite IH. apply perm_swap.
Qed.

Lemma sort_by_perm {A} (leb : A -> A -> bool) l : Permutation (sort_by leb l) l.
Proof. induction l as [|x l IH]; cbn; auto. rewrite insert_by_perm. now rewrite IH. Qed.

Lemma insert_by_sorted {A} (leb : A -> A -> bool) x l : (forall x y, leb x y = false -> leb y x = true) ->
  Sorted (fun x y => leb x y = true) l -> Sorted (fun x y => leb x y = true) (insert_by leb x l).
Proof.
  intros Ht. induction l as [|y l IH]; cbn; intros H; auto.
  destruct (leb x y) eqn:E; auto. apply Sorted_inv in H as [H1 H2]. specialize (IH H1).
  constructor; auto. destruct l as [|z l]; cbn.
  - constructor. auto.
  - destruct (leb x z); constructor; auto. now inversion H2.
Qed.

Lemma sort_by_sorted {A} (leb : A -> A -> bool) l : (forall x y, leb x y = false -> leb y x = true) ->
  Sorted (fun x y => leb x y = true) (sort_by leb l).
Proof. intros Ht. induction l as [|x l IH]; cbn; auto. now apply insert_by_sorted. Qed.

(** ** The key order *)
Definition key_lt x y := key_cmp x y = Lt.

Lemma key_cmp_antisym x y : key_cmp y x = CompOpp (key_cmp x y).
Proof.
  unfold key_cmp. rewrite (N.compare_antisym (fst x) (fst y)).
  destruct (N.compare (fst x) (fst y)); cbn; auto. apply bytes_cmp_antisym.
Qed.

Lemma key_cmp_eq x y : key_cmp x y = Eq <-> x = y.
Proof.
  destruct x as [a x], y as [c y]. unfold key_cmp. cbn.
  destruct (N.compare_spec a c) as [->|H|H].
  - rewrite bytes_cmp_eq. split; congruence.
  - split; [easy|]. intros E. injection E as -> _. lia.
  - split; [easy|]. intros E. injection E as -> _. lia.
Qed.

Lemma key_lt_spec a x c y : key_lt (a, x) (c, y) <-> a < c \/ (a = c /\ bytes_lt x y).
Proof.
  unfold key_lt, key_cmp, bytes_lt. cbn. destruct (N.compare_spec a c) as [->|H|H]; split; intros K; try easy.
  - right; auto.
  - destruct K as [K|[_ K]]; [lia|easy].
  - now left.
  - exfalso. destruct K as [K|[K _]]; lia.
Qed.

Lemma key_lt_trans x y z : key_lt x y -> key_lt y z -> key_lt x z.
Proof.
  destruct x, y, z. rewrite !key_lt_spec. intros [H1|[-> H1]] [H2|[-> H2]]; try (left; lia).
  right. split; auto. eapply bytes_lt_trans; eauto.
Qed.

Lemma key_lt_asym x y : key_lt x y -> ~ key_lt y x.
Proof. unfold key_lt. rewrite (key_cmp_antisym x y). destruct (key_cmp x y); easy. Qed.

Lemma key_leb_total x y : key_leb x y = false -> key_leb y x = true.
Proof. unfold key_leb. rewrite (key_cmp_antisym x y). destruct (key_cmp x y); easy. Qed.

Lemma key_leb_trans x y z : key_leb x y = true -> key_leb y z = true -> key_leb x z = true.
Proof.
  unfold key_leb. destruct (key_cmp x y) eqn:E1, (key_cmp y z) eqn:E2; try easy; intros _ _.
  - apply key_cmp_eq in E1 as ->. now rewrite E2.
  - apply key_cmp_eq in E1 as ->. now rewrite E2.
  - apply key_cmp_eq in E2 as <-. now rewrite E1.
  - pose proof (key_lt_trans _ _ _ E1 E2) as H. unfold key_lt in H. now rewrite H.
Qed.

(** ** One sorting round, whatever the algorithm *)
Definition round (store : list sentry) (ord ord' : list slot) : Prop :=
  Permutation ord ord' /\ Sorted (fun s t => slot_leb store ord s t = true) ord'.

Lemma sort_by_round store ord : round store ord (sort_by (slot_leb store ord) ord).
Proof.
  split; [symmetry; apply sort_by_perm|]. apply sort_by_sorted. intros s t. apply key_leb_total.
Qed.

Section Forest.
  Variable st : cstate.
  Hypothesis Hinv : cinv st.
  Local Notation store := (cs_store st).

  Definition is_order (ord : list slot) : Prop := Permutation (seq 0 (length store)) ord.

  Lemma order_nodup ord : is_order ord -> NoDup ord.
  Proof. intros H. eapply Permutation_NoDup; [exact H|apply seq_NoDup]. Qed.

  Lemma order_in ord s : is_order ord -> (In s ord <-> (s < length store)%nat).
  Proof.
    intros H. split; intros Hs.
    - apply (Permutation_in _ (Permutation_sym H)) in Hs. apply in_seq in Hs. lia.
    - apply (Permutation_in _ H). apply in_seq. lia.
  Qed.

  Lemma order_length ord : is_order ord -> length ord = length store.
  Proof. intros H. apply Permutation_length in H. rewrite seq_length in H. congruence. Qed.

  Lemma sentry_nth s : (s < length store)%nat -> nth_error store s = Some (sentry_of store s).
  Proof. intros H. now apply nth_error_nth'. Qed.

  Lemma slot_path s : (s < length store)%nat -> exists p, spath store s p.
  Proof. intros H. now apply spath_total. Qed.

  Lemma slot_parent s d : (s < length store)%nat -> se_parent (sentry_of store s) = Some d ->
    (d < s)%nat /\ (d < length store)%nat /\ se_kind (sentry_of store d) = KDir.
  Proof.
    intros Hs Hp. apply sentry_nth in Hs as He. destruct (ci_parent _ Hinv _ _ He) as [Hv Hlt].
    rewrite Hp in Hv. cbn in Hv. destruct Hv as (e & Hed & Hk). specialize (Hlt _ Hp).
    split; auto. split; [lia|]. unfold sentry_of.
    erewrite nth_error_nth; eauto.
  Qed.

  Lemma same_key s t : (s < length store)%nat -> (t < length store)%nat ->
    se_parent (sentry_of store s) = se_parent (sentry_of store t) ->
    se_name (sentry_of store s) = se_name (sentry_of store t) -> s = t.
  Proof.
    intros Hs Ht H1 H2. apply sentry_nth in Hs, Ht.
    apply (ci_store _ Hinv) in Hs as A1. apply (ci_store _ Hinv) in Ht as A2.
    rewrite H1, H2 in A1. rewrite A1 in A2. injection A2 as A2.
    apply (f_equal child_slot) in A2. now rewrite !child_slot_mkchild in A2.
  Qed.

  Lemma key_inj ord s t : is_order ord -> (s < length store)%nat -> (t < length store)%nat ->
    key store ord s = key store ord t -> s = t.
  Proof.
    intros Ho Hs Ht H. unfold key in H. injection H as Hp Hn. apply same_key; auto.
    unfold parent_value in Hp.
    destruct (se_parent (sentry_of store s)) as [d|] eqn:E1, (se_parent (sentry_of store t)) as [d'|] eqn:E2;
      try lia; auto. f_equal.
    apply slot_parent in E1 as (_ & H1 & _); auto. apply slot_parent in E2 as (_ & H2 & _); auto.
    apply (index_of_inj ord); [now apply order_in|now apply order_in|lia].
  Qed.

  Definition K (ord : list slot) (s t : slot) : Prop := key_lt (key store ord s) (key store ord t).

  Lemma K_asym ord s t : K ord s t -> ~ K ord t s.
  Proof. apply key_lt_asym. Qed.

  (** A round sorts strictly by key. *)
  Lemma round_order ord ord' : is_order ord -> round store ord ord' -> is_order ord'.
  Proof. intros H [Hp _]. unfold is_order in *. now rewrite H. Qed.

  Lemma round_sorted ord ord' : is_order ord -> round store ord ord' -> StronglySorted (K ord) ord'.
  Proof.
    intros Ho Hr. pose proof (round_order _ _ Ho Hr) as Ho'. destruct Hr as [Hp Hs].
    apply Sorted_StronglySorted in Hs; [|intros x y z; apply key_leb_trans].
    pose proof (order_nodup _ Ho') as Hn.
    assert (Hall : forall s, In s ord' -> (s < length store)%nat) by (intros s; now apply order_in).
    clear Ho' Hp. induction ord' as [|x l IH]; constructor; apply StronglySorted_inv in Hs as [Hs F];
      apply NoDup_cons_iff in Hn as [Hx Hn].
    - apply IH; auto. intros s Hsl. apply Hall. now right.
    - rewrite Forall_forall in *. intros y Hy. specialize (F y Hy). unfold slot_leb, key_leb in F.
      unfold K, key_lt. destruct (key_cmp (key store ord x) (key store ord y)) eqn:E; try easy.
      apply key_cmp_eq in E. apply key_inj in E; auto; [subst; easy|apply Hall; now left|apply Hall; now right].
  Qed.

  Lemma round_index ord ord' s t : is_order ord -> round store ord ord' ->
    (s < length store)%nat -> (t < length store)%nat -> s <> t ->
    (index_of ord' s < index_of ord' t <-> K ord s t).
  Proof.
    intros Ho Hr Hs Ht Hne. pose proof (round_order _ _ Ho Hr) as Ho'.
    apply index_sorted; auto.
    - now apply order_nodup.
    - now apply round_sorted.
    - apply K_asym.
    - now apply order_in.
    - now apply order_in.
  Qed.

  (** The order is right for entries of depth at most [k]. *)
  Definition right_to (k : nat) (ord : list slot) : Prop :=
    forall s t p q, (s < length store)%nat -> (t < length store)%nat -> s <> t ->
      spath store s p -> spath store t q -> (length p <= k)%nat ->
      (index_of ord s < index_of ord t <-> shortlex_lt p q).

  Lemma K_shortlex k ord s t p q : is_order ord -> right_to k ord ->
    (s < length store)%nat -> (t < length store)%nat -> s <> t ->
    spath store s p -> spath store t q -> (length p <= S k)%nat ->
    (K ord s t <-> shortlex_lt p q).
  Proof.
    intros Ho Hk Hs Ht Hne Hp Hq Hl.
    pose proof Hp as Hp0. pose proof Hq as Hq0.
    apply spath_inv in Hp as (e & pp & He & Hpp & ->). apply spath_inv in Hq as (f & qq & Hf & Hqq & ->).
    rewrite (sentry_nth s Hs) in He. injection He as <-.
    rewrite (sentry_nth t Ht) in Hf. injection Hf as <-.
    unfold K, key. rewrite key_lt_spec. unfold parent_value.
    destruct (se_parent (sentry_of store s)) as [d|] eqn:E1, (se_parent (sentry_of store t)) as [d'|] eqn:E2;
      cbn in Hpp, Hqq.
    - apply slot_parent in E1 as (L1 & L2 & _); auto. apply slot_parent in E2 as (M1 & M2 & _); auto.
      rewrite app_length in Hl. cbn in Hl.
      destruct (Nat.eq_dec d d') as [->|Hdd].
      + assert (pp = qq) by (eapply spath_det; eauto). subst qq.
        rewrite shortlex_snoc_same. split; [intros [H|[_ H]]; [lia|auto]|intros H; right; auto].
      + assert (Hpq : pp <> qq). { intros ->. apply Hdd. eapply spath_inj; eauto. }
        rewrite shortlex_snoc by auto. rewrite <- (Hk d d' pp qq); auto; [|lia].
        assert (index_of ord d <> index_of ord d').
        { intros E. apply Hdd. eapply index_of_inj; eauto; now apply order_in. }
        split; [intros [H'|[H' _]]; lia|intros; left; lia].
    - subst qq. split; [intros [H|[H _]]; lia|]. intros H. exfalso.
      apply spath_nonempty in Hpp. destruct pp as [|x pp]; [easy|].
      destruct H as [H|[H _]]; rewrite !app_length in H; cbn in H; lia.
    - subst pp. split; [intros _|intros _; left; lia]. left.
      apply spath_nonempty in Hqq. destruct qq; [easy|]. rewrite !app_length. cbn. lia.
    - subst pp qq. rewrite (shortlex_snoc_same [] _ _).
      split; [intros [H|[_ H]]; [lia|auto]|intros H; right; auto].
  Qed.

  Lemma round_right k ord ord' : is_order ord -> right_to k ord -> round store ord ord' -> right_to (S k) ord'.
  Proof.
    intros Ho Hk Hr s t p q Hs Ht Hne Hp Hq Hl.
    rewrite (round_index ord ord'); auto. eapply K_shortlex; eauto.
  Qed.

  Lemma right_0 ord : right_to 0 ord.
  Proof. intros s t p q _ _ _ Hp _ Hl. apply spath_nonempty in Hp. destruct p; [easy|cbn in Hl; lia]. Qed.

  (** Depth is bounded by the number of entries. *)
  Lemma depth_bound s p : spath store s p -> (length p <= S s)%nat.
  Proof.
    induction 1 as [s e He Hp|s e d p He Hp Hd IH]; cbn; [lia|].
    rewrite app_length. cbn. destruct (ci_parent _ Hinv _ _ He) as [_ Hlt]. specialize (Hlt _ Hp). lia.
  Qed.

  Definition right_all (ord : list slot) : Prop :=
    forall s t p q, (s < length store)%nat -> (t < length store)%nat ->
      spath store s p -> spath store t q ->
      (index_of ord s < index_of ord t <-> shortlex_lt p q).

  Definition depth_le (D : nat) : Prop := forall s p, spath store s p -> (length p <= D)%nat.

  Lemma depth_le_length : depth_le (length store).
  Proof. intros s p H. pose proof (depth_bound _ _ H). apply spath_lt in H. lia. Qed.

  Lemma right_to_all D ord : depth_le D -> right_to D ord -> right_all ord.
  Proof.
    intros Hd H s t p q Hs Ht Hp Hq. destruct (Nat.eq_dec s t) as [->|Hne].
    - assert (p = q) by (eapply spath_det; eauto). subst. split; [lia|].
      intros E. now apply shortlex_irrefl in E.
    - eapply H; eauto.
  Qed.

  (** An order is stable when it is sorted under its own indices. *)
  Definition self_sorted (ord : list slot) : Prop := Sorted (fun s t => slot_leb store ord s t = true) ord.

  Lemma right_all_self_sorted ord : is_order ord -> right_all ord -> self_sorted ord.
  Proof.
    intros Ho Hr. apply StronglySorted_Sorted.
    eapply strongly_sorted_impl; [|apply sorted_by_index; now apply order_nodup].
    intros s t Hs Ht Hlt. apply order_in in Hs, Ht; auto. cbn in Hlt.
    assert (HK : K ord s t).
    { destruct (slot_path s Hs) as [p Hp]. destruct (slot_path t Ht) as [q Hq].
      eapply (K_shortlex (length p)); eauto.
      - intros s' t' p' q' Hs' Ht' _ Hp' Hq' _. now apply Hr.
      - intros ->. lia.
      - apply (Hr s t); auto. }
    unfold slot_leb, key_leb. unfold K, key_lt in HK. now rewrite HK.
  Qed.

  Lemma self_sorted_right ord : is_order ord -> self_sorted ord -> right_all ord.
  Proof.
    intros Ho Hs. assert (Hr : round store ord ord) by (split; auto).
    assert (H : forall k, right_to k ord).
    { induction k as [|k IH]; [apply right_0|]. eapply round_right; eauto. }
    eapply right_to_all; [apply depth_le_length|apply H].
  Qed.

  Lemma right_all_unique ord ord' : is_order ord -> is_order ord' -> right_all ord -> right_all ord' -> ord = ord'.
  Proof.
    intros H1 H2 R1 R2. apply (sorted_unique (fun s t => index_of ord s < index_of ord t)).
    - intros x y Hx Hy. lia.
    - eapply Permutation_trans; [apply Permutation_sym; exact H1|exact H2].
    - apply sorted_by_index. now apply order_nodup.
    - eapply strongly_sorted_impl; [|apply sorted_by_index; now apply order_nodup].
      intros s t Hs Ht Hlt. apply order_in in Hs, Ht; auto.
      destruct (slot_path s Hs) as [p Hp]. destruct (slot_path t Ht) as [q Hq].
      apply (R1 s t p q); auto. now apply (R2 s t p q).
  Qed.

  Lemma seq_order : is_order (seq 0 (length store)).
  Proof. unfold is_order. reflexivity. Qed.

  (** The loop: [k] rounds already done. *)
  Lemma sort_loop_spec D fuel : depth_le D -> forall k ord, is_order ord -> right_to k ord ->
    (D <= k + fuel)%nat ->
    exists ord', sort_loop store fuel ord = Some ord' /\ is_order ord' /\ self_sorted ord'.
  Proof.
    intros HD. induction fuel as [|f IH]; intros k ord Ho Hk Hf; cbn [sort_loop].
    - assert (Hs : self_sorted ord).
      { apply right_all_self_sorted; auto. apply right_to_all with D; auto.
        intros s t p q ? ? ? Hp ? ?. eapply Hk; eauto. specialize (HD _ _ Hp). lia. }
      apply sorted_byb_spec in Hs as Hb. rewrite Hb. eauto.
    - destruct (sorted_byb (slot_leb store ord) ord) eqn:E.
      + exists ord. split; auto. split; auto. now apply sorted_byb_spec.
      + apply (IH (S k)); [|eapply round_right; eauto; apply sort_by_round|lia].
        eapply round_order; eauto. apply sort_by_round.
  Qed.

  Lemma layout_ok : exists ord, layout_of store = Some ord /\ is_order ord /\ right_all ord.
  Proof.
    destruct (sort_loop_spec (length store) (length store) depth_le_length 0 _ seq_order (right_0 _))
      as (ord & H1 & H2 & H3); [lia|].
    exists ord. split; auto. split; auto. now apply self_sorted_right.
  Qed.

  Inductive rounds : nat -> list slot -> list slot -> Prop :=
  | rounds_0 ord : rounds 0 ord ord
  | rounds_S k a c d : rounds k a c -> round store c d -> rounds (S k) a d.

  Lemma rounds_right k a c : is_order a -> rounds k a c -> is_order c /\ right_to k c.
  Proof.
    intros Ha H. induction H as [|k a c d H IH Hr]; [split; [auto|apply right_0]|].
    destruct (IH Ha) as [Hc Hk]. split; [eapply round_order; eauto|eapply round_right; eauto].
  Qed.

  Theorem rounds_converge D k a c : depth_le D -> is_order a -> rounds k a c -> (D <= k)%nat ->
    is_order c /\ self_sorted c /\ layout_of store = Some c.
  Proof.
    intros HD Ha H Hk. destruct (rounds_right _ _ _ Ha H) as [Hc Hr].
    assert (Hra : right_all c).
    { apply right_to_all with D; auto. intros s t p q ? ? ? Hp ? ?. eapply Hr; eauto.
      specialize (HD _ _ Hp). lia. }
    split; auto. split; [now apply right_all_self_sorted|].
    destruct layout_ok as (ord & H1 & H2 & H3). rewrite H1. f_equal. now apply right_all_unique.
  Qed.
End Forest.
