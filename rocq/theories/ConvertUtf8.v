(** The components of a UTF-8 string are UTF-8. *)
From Verif Require Export RelPathFacts.

Lemma split_sep_cons c r : is_sep c = false -> exists h t, split_sep r = h :: t /\ split_sep (c :: r) = (c :: h) :: t.
Proof.
  intros H. cbn [split_sep]. rewrite H. destruct (split_sep r) as [|h t] eqn:E; [|eauto].
  destruct r as [|d r]; [discriminate E|]. cbn [split_sep] in E. destruct (is_sep d); [discriminate E|]. destruct (split_sep r); discriminate E.
Qed.

Lemma big_not_sep c : 127 < c -> is_sep c = false.
Proof. unfold is_sep, sep. intros. lia. Qed.

Lemma utf8_split n : forall s, (length s <= n)%nat -> utf8 s = true -> Forall (fun x => utf8 x = true) (split_sep s).
Proof.
  induction n as [|n IH]; intros s Hl.
  { destruct s; [|cbn in Hl; lia]. intros _. cbn. auto. }
  destruct s as [|c r]; [cbn; auto|]. cbn [length] in Hl. cbn [utf8]. destruct (c <=? 127) eqn:Ec.
  - intros H. assert (Hr : Forall (fun x => utf8 x = true) (split_sep r)) by (apply IH; [lia|auto]).
    destruct (is_sep c) eqn:Es.
    + cbn [split_sep]. rewrite Es. constructor; auto.
    + destruct (split_sep_cons c r Es) as (h & t & E & ->). rewrite E in Hr. inversion_clear Hr. constructor; auto.
      cbn [utf8]. now rewrite Ec.
  - destruct r as [|c1 r1]; [easy|]. cbn [length] in Hl.
    assert (Hs : is_sep c = false) by (apply big_not_sep; lia).
    destruct (inr 194 c 223) eqn:E2.
    + rewrite andb_true_iff. intros [H1 H2]. assert (Hr : Forall (fun x => utf8 x = true) (split_sep r1)) by (apply IH; [lia|auto]).
      assert (Hs1 : is_sep c1 = false) by (apply big_not_sep; unfold cont, inr in H1; lia).
      destruct (split_sep_cons c1 r1 Hs1) as (h1 & t & E1 & E1'). destruct (split_sep_cons c (c1 :: r1) Hs) as (h & t' & E0 & ->).
      rewrite E1' in E0. injection E0 as <- <-. rewrite E1 in Hr. inversion_clear Hr. constructor; auto.
      cbn [utf8]. rewrite Ec, E2, H1. auto.
    + destruct r1 as [|c2 r2]; [easy|]. cbn [length] in Hl. destruct (inr 224 c 239) eqn:E3.
      * rewrite !andb_true_iff. intros [[H1 H2] H3]. assert (Hr : Forall (fun x => utf8 x = true) (split_sep r2)) by (apply IH; [lia|auto]).
        assert (Hs1 : is_sep c1 = false) by (apply big_not_sep; unfold cont, inr in H1; destruct (c =? 224), (c =? 237); lia).
        assert (Hs2 : is_sep c2 = false) by (apply big_not_sep; unfold cont, inr in H2; lia).
        destruct (split_sep_cons c2 r2 Hs2) as (h2 & t & F1 & F1'). destruct (split_sep_cons c1 (c2 :: r2) Hs1) as (h1 & t1 & F2 & F2').
        destruct (split_sep_cons c (c1 :: c2 :: r2) Hs) as (h & t' & E0 & ->).
        rewrite F1' in F2. injection F2 as <- <-. rewrite F2' in E0. injection E0 as <- <-. rewrite F1 in Hr. inversion_clear Hr. constructor; auto.
        cbn [utf8]. rewrite Ec, E2, E3, H1, H2. auto.
      * destruct r2 as [|c3 r3]; [easy|]. cbn [length] in Hl. destruct (inr 240 c 244) eqn:E4; [|easy].
        rewrite !andb_true_iff. intros [[[H1 H2] H3] H4]. assert (Hr : Forall (fun x => utf8 x = true) (split_sep r3)) by (apply IH; [lia|auto]).
        assert (Hs1 : is_sep c1 = false) by (apply big_not_sep; unfold cont, inr in H1; destruct (c =? 240), (c =? 244); lia).
        assert (Hs2 : is_sep c2 = false) by (apply big_not_sep; unfold cont, inr in H2; lia).
        assert (Hs3 : is_sep c3 = false) by (apply big_not_sep; unfold cont, inr in H3; lia).
        destruct (split_sep_cons c3 r3 Hs3) as (h3 & t & F1 & F1'). destruct (split_sep_cons c2 (c3 :: r3) Hs2) as (h2 & t2 & F2 & F2').
        destruct (split_sep_cons c1 (c2 :: c3 :: r3) Hs1) as (h1 & t1 & F3 & F3'). destruct (split_sep_cons c (c1 :: c2 :: c3 :: r3) Hs) as (h & t' & E0 & ->).
        rewrite F1' in F2. injection F2 as <- <-. rewrite F2' in F3. injection F3 as <- <-. rewrite F3' in E0. injection E0 as <- <-.
        rewrite F1 in Hr. inversion_clear Hr. constructor; auto. cbn [utf8]. rewrite Ec, E2, E3, E4, H1, H2, H3. auto.
Qed.

Lemma utf8_pieces s : utf8 s = true -> Forall (fun x => utf8 x = true) (pieces s).
Proof.
  intros H. apply (utf8_split (length s) s) in H; [|lia]. apply Forall_forall. intros x Hx. unfold pieces in Hx. apply filter_In in Hx as [Hx _].
  rewrite Forall_forall in H. auto.
Qed.
