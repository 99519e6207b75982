(** C07 in the terms of SpecLayout. *)
From Verif Require Export SpecLayout LayoutProofs.

Section L.
  Variable st : cstate.
  Hypothesis Hinv : cinv st.
  Local Notation store := (cs_store st).

  Lemma own_key_key ord s : (s < length store)%nat -> own_key store ord s = key store ord s.
  Proof.
    intros Hs. unfold own_key, key. rewrite (sentry_nth st s Hs). unfold parent_value.
    destruct (se_parent (sentry_of store s)); reflexivity.
  Qed.

  Lemma lt_key_lt x y : lt_key x y <-> key_lt x y.
  Proof. destruct x, y. rewrite key_lt_spec. reflexivity. Qed.

  Lemma perm_lt ord k s : is_perm store ord -> nth_error ord k = Some s -> (s < length store)%nat.
  Proof. intros Hp Hk. apply nth_error_In in Hk. now apply (order_in st) in Hk. Qed.

  Lemma one_round_round ord ord' : is_perm store ord -> one_round store ord ord' -> round store ord ord'.
  Proof.
    intros Hp [H1 H2]. split; auto.
    assert (Hp' : is_perm store ord') by (eapply Permutation_trans; eauto).
    assert (Hall : forall i s, nth_error ord' i = Some s -> (s < length store)%nat).
    { intros i s Hi. eapply perm_lt; eauto. }
    clear H1 Hp'. induction ord' as [|x l IH]; constructor.
    - apply IH.
      + intros i j s t Hij Hi Hj. apply (H2 (S i) (S j)); auto. lia.
      + intros i s Hi. apply (Hall (S i)); auto.
    - destruct l as [|y l]; constructor.
      specialize (H2 0%nat 1%nat x y ltac:(lia) eq_refl eq_refl).
      rewrite !own_key_key in H2 by first [apply (Hall 0%nat); reflexivity|apply (Hall 1%nat); reflexivity].
      rewrite lt_key_lt in H2. unfold slot_leb, key_leb.
      rewrite (key_cmp_antisym (key store ord y)). unfold key_lt in H2.
      destruct (key_cmp (key store ord y) (key store ord x)); cbn; auto; now destruct H2.
  Qed.

  Lemma stable_of ord : is_perm store ord -> self_sorted st ord -> stable store ord.
  Proof.
    intros Hp Hs i j s t Hij Hi Hj.
    assert (H : StronglySorted (K st ord) ord) by (apply (round_sorted st Hinv ord ord); auto; split; auto).
    rewrite !own_key_key by (eapply perm_lt; eauto).
    apply lt_key_lt. exact (strongly_sorted_nth _ _ _ _ _ _ H Hi Hj Hij).
  Qed.

  Lemma of_stable ord : is_perm store ord -> stable store ord -> self_sorted st ord.
  Proof.
    intros Hp Hs. apply (one_round_round ord ord); auto. split; auto.
    intros i j s t Hij Hi Hj. specialize (Hs i j s t Hij Hi Hj).
    rewrite lt_key_lt in *. now apply key_lt_asym.
  Qed.

  Theorem any_sort_converges D k x y : deep store D -> is_perm store x -> many_rounds store k x y -> (D <= k)%nat ->
    is_perm store y /\ stable store y /\ layout_of store = Some y.
  Proof.
    intros HD Hx Hr Hk.
    assert (H : is_perm store y /\ rounds st k x y).
    { clear Hk. induction Hr as [|k x y z Hr IH H1]; [split; auto; constructor|].
      destruct (IH Hx) as [Hy Hry]. split; [eapply Permutation_trans; [exact Hy|apply H1]|].
      econstructor; eauto. now apply one_round_round. }
    destruct H as [Hy H].
    destruct (rounds_converge st Hinv D k x y HD Hx H Hk) as (H1 & H2 & H3).
    split; auto. split; auto. now apply stable_of.
  Qed.

  Theorem stable_unique x y : is_perm store x -> is_perm store y -> stable store x -> stable store y -> x = y.
  Proof.
    intros Px Py Sx Sy. apply (right_all_unique st); auto; apply self_sorted_right; auto; now apply of_stable.
  Qed.

  Theorem loop_terminates D : deep store D -> exists y, sort_loop store D (seq 0 (length store)) = Some y /\
    is_perm store y /\ stable store y.
  Proof.
    intros HD. destruct (sort_loop_spec st Hinv D D HD 0 _ (seq_order st) (right_0 st _)) as (y & H1 & H2 & H3); [lia|].
    exists y. split; auto. split; auto. now apply stable_of.
  Qed.
End L.
