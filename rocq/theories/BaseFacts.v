(** Facts about the base definitions. *)
From Verif Require Export Base.
From Coq Require Export Sorted Permutation.

Lemma bytes_eqb_eq x y : bytes_eqb x y = true <-> x = y.
Proof.
  revert y; induction x as [|a x IH]; intros [|c y]; cbn; split; intros H; try easy.
  - apply andb_prop in H as [H1 H2]. apply N.eqb_eq in H1. apply IH in H2. congruence.
  - injection H as -> ->. rewrite N.eqb_refl. cbn. now apply IH.
Qed.

Lemma bytes_eqb_refl x : bytes_eqb x x = true.
Proof. now apply bytes_eqb_eq. Qed.

Lemma bytes_eqb_neq x y : bytes_eqb x y = false <-> x <> y.
Proof.
  destruct (bytes_eqb x y) eqn:E; split; intros H; try easy.
  - apply bytes_eqb_eq in E. contradiction.
  - intros ->. rewrite bytes_eqb_refl in E. discriminate.
Qed.

Lemma bytes_eqb_spec x y : reflect (x = y) (bytes_eqb x y).
Proof. apply iff_reflect. symmetry. apply bytes_eqb_eq. Qed.

Lemma bytes_eqb_sym x y : bytes_eqb x y = bytes_eqb y x.
Proof. destruct (bytes_eqb_spec x y), (bytes_eqb_spec y x); congruence. Qed.

Lemma bytes_dec (x y : bytes) : {x = y} + {x <> y}.
Proof. destruct (bytes_eqb_spec x y); auto. Qed.

(** Generic facts about lexicographic comparison of lists, used for bytes and for paths. *)
Lemma bytes_cmp_eq x y : bytes_cmp x y = Eq <-> x = y.
Proof.
  revert y; induction x as [|a x IH]; intros [|c y]; cbn; split; intros H; try easy.
  - destruct (N.compare a c) eqn:E; try easy. apply N.compare_eq in E. apply IH in H. congruence.
  - injection H as -> ->. rewrite N.compare_refl. now apply IH.
Qed.

Lemma bytes_cmp_refl x : bytes_cmp x x = Eq.
Proof. now apply bytes_cmp_eq. Qed.

Lemma bytes_cmp_antisym x y : bytes_cmp y x = CompOpp (bytes_cmp x y).
Proof.
  revert y; induction x as [|a x IH]; intros [|c y]; cbn; try easy.
  rewrite (N.compare_antisym a c). destruct (N.compare a c); cbn; auto.
Qed.

Definition bytes_lt x y := bytes_cmp x y = Lt.

Lemma bytes_lt_trans x y z : bytes_lt x y -> bytes_lt y z -> bytes_lt x z.
Proof.
  unfold bytes_lt. revert y z; induction x as [|a x IH]; intros [|c y] [|d z]; cbn; try easy.
  destruct (N.compare_spec a c) as [->|H1|H1]; try easy.
  - destruct (N.compare_spec c d) as [->|H2|H2]; try easy. eauto.
  - intros _. destruct (N.compare_spec c d) as [->|H2|H2]; try easy; intros _.
    + now apply N.compare_lt_iff in H1 as ->.
    + assert (H3 : a < d) by lia. now apply N.compare_lt_iff in H3 as ->.
Qed.

Lemma bytes_lt_irrefl x : ~ bytes_lt x x.
Proof. unfold bytes_lt. now rewrite bytes_cmp_refl. Qed.

Lemma bytes_lt_total x y : bytes_lt x y \/ x = y \/ bytes_lt y x.
Proof.
  unfold bytes_lt. destruct (bytes_cmp x y) eqn:E; auto.
  - right; left. now apply bytes_cmp_eq.
  - right; right. rewrite bytes_cmp_antisym, E. reflexivity.
Qed.

Lemma bytes_gt_lt x y : bytes_cmp x y = Gt <-> bytes_lt y x.
Proof. unfold bytes_lt. rewrite (bytes_cmp_antisym x y). destruct (bytes_cmp x y); cbn; easy. Qed.

(** [at_] is [nth_error]. *)
Lemma at_nth {A} (l : list A) i : at_ l i = nth_error l (N.to_nat i).
Proof.
  unfold at_. destruct (N.ltb_spec i (N.of_nat (length l))) as [H|H]; auto.
  symmetry. apply nth_error_None. lia.
Qed.

Lemma at_some_lt {A} (l : list A) i x : at_ l i = Some x -> i < N.of_nat (length l).
Proof. unfold at_. destruct (N.ltb_spec i (N.of_nat (length l))); easy. Qed.

Lemma at_lt_some {A} (l : list A) i : i < N.of_nat (length l) -> exists x, at_ l i = Some x.
Proof.
  intros H. rewrite at_nth. destruct (nth_error l (N.to_nat i)) eqn:E; eauto.
  apply nth_error_None in E. lia.
Qed.

Lemma at_none {A} (l : list A) i : at_ l i = None <-> N.of_nat (length l) <= i.
Proof. rewrite at_nth, nth_error_None. lia. Qed.

Lemma at_in {A} (l : list A) i x : at_ l i = Some x -> In x l.
Proof. rewrite at_nth. apply nth_error_In. Qed.

Lemma in_at {A} (l : list A) x : In x l -> exists i, at_ l i = Some x.
Proof.
  intros H. apply In_nth_error in H as [n H]. exists (N.of_nat n).
  rewrite at_nth. now rewrite Nat2N.id.
Qed.

Lemma at_map {A B} (f : A -> B) l i : at_ (map f l) i = option_map f (at_ l i).
Proof. rewrite !at_nth. apply nth_error_map. Qed.

Lemma list_ext_at {A} (l1 l2 : list A) : (forall i, at_ l1 i = at_ l2 i) -> l1 = l2.
Proof.
  revert l2; induction l1 as [|x l1 IH]; intros [|y l2] H; auto.
  - specialize (H 0). discriminate H.
  - specialize (H 0). discriminate H.
  - f_equal.
    + specialize (H 0). rewrite !at_nth in H. change (N.to_nat 0) with 0%nat in H. cbn in H. congruence.
    + apply IH. intros i. specialize (H (i + 1)). rewrite !at_nth in *.
      replace (N.to_nat (i + 1)) with (S (N.to_nat i)) in H by lia. exact H.
Qed.

Lemma iota_length lo n : length (iota lo n) = n.
Proof. revert lo; induction n; intros lo; cbn; auto. Qed.

Lemma in_iota lo n x : In x (iota lo n) <-> lo <= x < lo + N.of_nat n.
Proof.
  revert lo; induction n as [|n IH]; intros lo; cbn [iota In].
  - lia.
  - rewrite IH. lia.
Qed.

Lemma iota_nodup lo n : NoDup (iota lo n).
Proof.
  revert lo; induction n as [|n IH]; intros lo; cbn; constructor; auto.
  rewrite in_iota. lia.
Qed.

Lemma iota_app lo n m : iota lo (n + m) = iota lo n ++ iota (lo + N.of_nat n) m.
Proof.
  revert lo; induction n as [|n IH]; intros lo; cbn [iota Nat.add app].
  - now rewrite N.add_0_r.
  - f_equal. rewrite IH. do 2 f_equal. lia.
Qed.

(** UTF-8 facts. *)
Lemma utf8_ascii_cons c s : c <= 127 -> utf8 (c :: s) = utf8 s.
Proof. intros H. cbn. apply N.leb_le in H. now rewrite H. Qed.
