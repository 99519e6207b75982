(** Facts about path orders and sorted lists. *)
From Verif Require Export SpecOrder BaseFacts.

Lemma path_cmp_eq p q : path_cmp p q = Eq <-> p = q.
Proof.
  revert q; induction p as [|a p IH]; intros [|c q]; cbn; split; intros H; try easy.
  - destruct (bytes_cmp a c) eqn:E; try easy. apply bytes_cmp_eq in E. apply IH in H. congruence.
  - injection H as -> ->. rewrite bytes_cmp_refl. now apply IH.
Qed.

Lemma path_cmp_antisym p q : path_cmp q p = CompOpp (path_cmp p q).
Proof.
  revert q; induction p as [|a p IH]; intros [|c q]; cbn; try easy.
  rewrite (bytes_cmp_antisym a c). destruct (bytes_cmp a c); cbn; auto.
Qed.

Lemma path_lt_irrefl p : ~ path_lt p p.
Proof. unfold path_lt. assert (path_cmp p p = Eq) as -> by now apply path_cmp_eq. easy. Qed.

Lemma path_lt_trans p q r : path_lt p q -> path_lt q r -> path_lt p r.
Proof.
  unfold path_lt. revert q r; induction p as [|a p IH]; intros [|c q] [|d r]; cbn; try easy.
  destruct (bytes_cmp a c) eqn:E1; try easy.
  - apply bytes_cmp_eq in E1 as ->. destruct (bytes_cmp c d) eqn:E2; try easy. apply IH.
  - intros _. destruct (bytes_cmp c d) eqn:E2; try easy; intros _.
    + apply bytes_cmp_eq in E2 as <-. now rewrite E1.
    + pose proof (bytes_lt_trans _ _ _ E1 E2) as E3. unfold bytes_lt in E3. now rewrite E3.
Qed.

Lemma path_lt_asym p q : path_lt p q -> ~ path_lt q p.
Proof. intros H1 H2. exact (path_lt_irrefl p (path_lt_trans _ _ _ H1 H2)). Qed.

Lemma path_lt_total p q : path_lt p q \/ p = q \/ path_lt q p.
Proof.
  unfold path_lt. destruct (path_cmp p q) eqn:E; auto.
  - right; left. now apply path_cmp_eq.
  - right; right. now rewrite path_cmp_antisym, E.
Qed.

Lemma path_cmp_app p q r : path_cmp (p ++ q) (p ++ r) = path_cmp q r.
Proof. induction p as [|a p IH]; cbn; auto. now rewrite bytes_cmp_refl. Qed.

Lemma path_cmp_snoc_neq p q x y : length p = length q -> p <> q ->
  path_cmp (p ++ x) (q ++ y) = path_cmp p q.
Proof.
  revert q; induction p as [|a p IH]; intros [|c q] Hl Hn; cbn in *; try easy.
  destruct (bytes_cmp a c) eqn:E; auto. apply bytes_cmp_eq in E as ->.
  apply IH; congruence.
Qed.

Lemma shortlex_irrefl p : ~ shortlex_lt p p.
Proof. intros [H|[_ H]]; [lia|now apply path_lt_irrefl in H]. Qed.

Lemma shortlex_trans p q r : shortlex_lt p q -> shortlex_lt q r -> shortlex_lt p r.
Proof.
  unfold shortlex_lt. intros [H1|[H1 L1]] [H2|[H2 L2]]; try (left; lia).
  right. split; [lia|]. eapply path_lt_trans; eauto.
Qed.

Lemma shortlex_asym p q : shortlex_lt p q -> ~ shortlex_lt q p.
Proof. intros H1 H2. exact (shortlex_irrefl p (shortlex_trans _ _ _ H1 H2)). Qed.

Lemma shortlex_total p q : shortlex_lt p q \/ p = q \/ shortlex_lt q p.
Proof.
  unfold shortlex_lt. destruct (lt_eq_lt_dec (length p) (length q)) as [[H|H]|H]; auto.
  destruct (path_lt_total p q) as [L|[L|L]]; auto.
Qed.

Lemma shortlex_snoc p q a c : p <> q -> (shortlex_lt (p ++ [a]) (q ++ [c]) <-> shortlex_lt p q).
Proof.
  intros Hn. unfold shortlex_lt, path_lt. rewrite !app_length. cbn [length].
  split; intros [H|[H L]].
  - left; lia.
  - right. split; [lia|]. rewrite path_cmp_snoc_neq in L; auto. lia.
  - left; lia.
  - right. split; [lia|]. rewrite path_cmp_snoc_neq; auto.
Qed.

Lemma shortlex_snoc_same p a c : shortlex_lt (p ++ [a]) (p ++ [c]) <-> bytes_lt a c.
Proof.
  unfold shortlex_lt, path_lt. rewrite path_cmp_app, !app_length. cbn.
  unfold bytes_lt. split; [intros [H|[_ H]]; [lia|]|intros H; right; split; auto].
  - now destruct (bytes_cmp a c).
  - now rewrite H.
Qed.

(** Sorted lists *)
Lemma sorted_unique {A} (R : A -> A -> Prop) l1 l2 :
  (forall x y, R x y -> ~ R y x) -> Permutation l1 l2 ->
  StronglySorted R l1 -> StronglySorted R l2 -> l1 = l2.
Proof.
  intros Ha. revert l2. induction l1 as [|x l1 IH]; intros l2 Hp H1 H2.
  - apply Permutation_nil in Hp. now subst.
  - destruct l2 as [|y l2]; [now apply Permutation_sym, Permutation_nil in Hp|].
    apply StronglySorted_inv in H1 as [H1 F1]. apply StronglySorted_inv in H2 as [H2 F2].
    assert (x = y) as ->.
    { assert (Hx : In x (y :: l2)) by (eapply Permutation_in; [exact Hp|now left]).
      assert (Hy : In y (x :: l1)) by (eapply Permutation_in; [symmetry; exact Hp|now left]).
      destruct Hx as [->|Hx]; auto. destruct Hy as [->|Hy]; auto.
      rewrite Forall_forall in F1, F2. apply F1 in Hy. apply F2 in Hx. now apply Ha in Hx. }
    f_equal. apply IH; auto. eapply Permutation_cons_inv; eauto.
Qed.

Lemma strongly_sorted_impl {A} (R S : A -> A -> Prop) l :
  (forall x y, In x l -> In y l -> R x y -> S x y) -> StronglySorted R l -> StronglySorted S l.
Proof.
  intros H. induction l as [|x l IH]; intros Hs; constructor; apply StronglySorted_inv in Hs as [Hs F].
  - apply IH; auto. intros a c Ha Hc. apply H; now right.
  - rewrite Forall_forall in *. intros y Hy. apply H; auto; [now left|now right].
Qed.

Lemma strongly_sorted_app {A} (R : A -> A -> Prop) l1 l2 :
  StronglySorted R (l1 ++ l2) <->
  StronglySorted R l1 /\ StronglySorted R l2 /\ (forall x y, In x l1 -> In y l2 -> R x y).
Proof.
  induction l1 as [|a l1 IH]; cbn.
  - split; [intros H; repeat split; auto; [constructor|easy]|easy].
  - split.
    + intros H. apply StronglySorted_inv in H as [H F]. apply IH in H as (H1 & H2 & H3).
      rewrite Forall_app in F. destruct F as [F1 F2]. repeat split; auto; [now constructor|].
      intros x y [->|Hx] Hy; auto. rewrite Forall_forall in F2. auto.
    + intros (H1 & H2 & H3). apply StronglySorted_inv in H1 as [H1 F]. constructor.
      * apply IH. repeat split; auto.
      * apply Forall_app. split; auto. apply Forall_forall. auto.
Qed.

Lemma strongly_sorted_nth {A} (R : A -> A -> Prop) l i j x y :
  StronglySorted R l -> nth_error l i = Some x -> nth_error l j = Some y -> (i < j)%nat -> R x y.
Proof.
  revert i j. induction l as [|a l IH]; intros i j Hs Hi Hj Hij; [destruct i; discriminate Hi|].
  apply StronglySorted_inv in Hs as [Hs F]. destruct j as [|j]; [lia|]. cbn in Hj.
  destruct i as [|i]; cbn in Hi.
  - injection Hi as <-. rewrite Forall_forall in F. apply F. eapply nth_error_In; eauto.
  - eapply IH; eauto. lia.
Qed.

Lemma strongly_sorted_filter {A} (R : A -> A -> Prop) f l : StronglySorted R l -> StronglySorted R (filter f l).
Proof.
  induction l as [|a l IH]; intros H; cbn; auto. apply StronglySorted_inv in H as [H F].
  destruct (f a); auto. constructor; auto. apply Forall_forall. intros x Hx.
  apply filter_In in Hx as [Hx _]. rewrite Forall_forall in F. auto.
Qed.

Lemma strongly_sorted_map {A B} (f : A -> B) (R : B -> B -> Prop) l :
  StronglySorted R (map f l) <-> StronglySorted (fun x y => R (f x) (f y)) l.
Proof.
  induction l as [|a l IH]; cbn; split; intros H; try constructor;
  apply StronglySorted_inv in H as [H F]; try (now apply IH);
  rewrite Forall_forall in *; intros x Hx.
  - apply F. now apply in_map.
  - apply in_map_iff in Hx as (y & <- & Hy). now apply F.
Qed.

Lemma strongly_sorted_nodup {A} (R : A -> A -> Prop) l : (forall x, ~ R x x) -> StronglySorted R l -> NoDup l.
Proof.
  intros Hr. induction l as [|a l IH]; intros H; constructor; apply StronglySorted_inv in H as [H F]; auto.
  intros Hin. rewrite Forall_forall in F. exact (Hr a (F a Hin)).
Qed.
