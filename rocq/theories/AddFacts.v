(** Adding one fresh entry to a creator. *)
From Verif Require Export SpecAdd CreatorFacts ReadFacts.

Lemma run_adds_app l1 : forall st l2, (forall r, In r (snd (run_adds st l1)) -> r = Ok tt) ->
  run_adds st (l1 ++ l2) = (fst (run_adds (fst (run_adds st l1)) l2), snd (run_adds st l1) ++ snd (run_adds (fst (run_adds st l1)) l2)).
Proof.
  induction l1 as [|e l1 IH]; intros st l2 H; cbn [run_adds app fst snd].
  - destruct (run_adds st l2); reflexivity.
  - cbn [run_adds] in H. destruct (add_entry st e) as [st1 o] eqn:E.
    assert (Ho : o = Ok tt).
    { destruct o; try (destruct (run_adds st1 l1)); apply H; cbn; auto. }
    subst o. destruct (run_adds st1 l1) as [st2 outs] eqn:E1. cbn [fst snd] in *.
    rewrite IH; [rewrite E1; reflexivity|]. rewrite E1. cbn. intros r Hr. apply H. now right.
Qed.

Lemma after_app l1 l2 : all_ok l1 -> after (l1 ++ l2) = fst (run_adds (after l1) l2).
Proof. intros H. unfold after at 1. now rewrite run_adds_app by exact H. Qed.

Lemma after_snoc l e st : all_ok l -> add_entry (after l) e = (st, Ok tt) -> after (l ++ [e]) = st /\ all_ok (l ++ [e]).
Proof.
  intros H He. split.
  - rewrite after_app by auto. cbn [run_adds]. now rewrite He.
  - intros r. unfold answers. rewrite run_adds_app by exact H. cbn [snd]. rewrite in_app_iff. intros [Hr|Hr]; [now apply H|].
    fold (after l) in Hr. cbn [run_adds] in Hr. rewrite He in Hr. cbn in Hr. destruct Hr as [Hr|[]]; auto.
Qed.

Lemma all_ok_nil : all_ok [].
Proof. intros r []. Qed.

Lemma has_nonempty l p nd : has l p nd -> p <> [].
Proof. intros (s & e & _ & H & _). now apply spath_nonempty in H. Qed.

Lemma has_closed l p q n nd : has l (p ++ q ++ [n]) nd -> p <> [] -> exists mt, has l p (KDir, mt).
Proof.
  intros H Hp. destruct (after_sim l) as (m & Hi & Hr & _). apply Hr in H. rewrite app_assoc in H.
  destruct (represents_closed _ m Hi Hr (p ++ q) n) with (q := p) as [mt Hmt]; auto; [congruence| |].
  - apply is_prefix_spec. eauto.
  - exists mt. now apply Hr.
Qed.

Lemma add_fresh l e k n : all_ok l -> e_kind e = Ok (Some k) -> last_of (e_path e) = Some n ->
  (forall q r nd, dir_of (e_path e) = q ++ r -> has l q nd -> is_dir_node nd = true) ->
  (forall nd, ~ has l (dir_of (e_path e) ++ [n]) nd) ->
  let p := dir_of (e_path e) ++ [n] in
  add_entry (after l) e = (after (l ++ [e]), Ok tt) /\ all_ok (l ++ [e]) /\
  (forall q nd, has (l ++ [e]) q nd <-> has l q nd \/ (q = p /\ nd = (k, e_meta e)) \/
     (q <> [] /\ (exists r, dir_of (e_path e) = q ++ r) /\ nd = implicit_dir /\ forall nd', ~ has l q nd')).
Proof.
  intros Hok Hk Hn Hdirs Hfresh. cbv zeta. destruct (after_sim l) as (m & Hi & Hr & _).
  set (dir := dir_of (e_path e)) in *. fold (after l) in Hi, Hr.
  assert (Hm : forall p nd, has l p nd <-> m p = Some nd) by (intros; apply Hr).
  pose proof (add_entry_sim (after l) m e Hi Hr) as Hs.
  destruct (add_entry (after l) e) as [st' o] eqn:Ea. destruct (spec_add_entry m e) as [m' o'] eqn:E.
  destruct Hs as (Hi' & Hr' & <-).
  unfold spec_add_entry, spec_add in E. fold dir in E. rewrite Hk, Hn in E.
  assert (Hb : blocked m dir = false).
  { destruct (blocked m dir) eqn:Eb; auto. apply blocked_true in Eb as (q & nd & H1 & H2 & H3 & H4).
    apply is_prefix_spec in H2 as [r H2]. apply Hm in H3. rewrite (Hdirs q r nd H2 H3) in H4. discriminate H4. }
  rewrite Hb in E. cbv zeta in E.
  assert (Hnone : m (dir ++ [n]) = None).
  { destruct (m (dir ++ [n])) as [nd|] eqn:Em; auto. apply Hm in Em. now apply Hfresh in Em. }
  rewrite Hnone in E.
  assert (Hm' : m' = update (with_dirs m dir) (dir ++ [n]) (k, e_meta e) /\ o = Ok tt) by (destruct k; split; congruence).
  destruct Hm' as [Hm' ->]. destruct (after_snoc l e st' Hok Ea) as [Haf Hok']. rewrite Haf.
  split; auto. split; auto. intros q nd.
  assert (Hh : has (l ++ [e]) q nd <-> m' q = Some nd) by (unfold has; rewrite Haf; apply Hr').
  rewrite Hh, Hm'. unfold update, with_dirs. destruct (path_beq_spec q (dir ++ [n])) as [->|Hne].
  - split.
    + intros H. injection H as <-. auto.
    + intros [H|[[_ ->]|(_ & [r Hr1] & _)]]; auto.
      * now apply Hfresh in H.
      * exfalso. apply (f_equal (@length _)) in Hr1. rewrite !app_length in Hr1. cbn in Hr1. lia.
  - destruct (m q) as [nd0|] eqn:Eq.
    + rewrite Hm, Eq. split; auto. intros [H|[[H _]|(_ & _ & _ & H)]]; auto; [easy|]. apply Hm in Eq. now apply H in Eq.
    + rewrite Hm, Eq. split.
      * destruct q as [|y q]; [easy|]. destruct (is_prefix (y :: q) dir) eqn:Ep; [|easy]. intros H. injection H as <-.
        right. right. split; [easy|]. split; [apply is_prefix_spec in Ep as [r ->]; eauto|]. split; auto.
        intros nd' H'. apply Hm in H'. congruence.
      * intros [H|[[H _]|(Hq & [r Hr1] & -> & _)]]; [easy|easy|]. destruct q as [|y q]; [easy|].
        assert (is_prefix (y :: q) dir = true) as -> by (apply is_prefix_spec; eauto). reflexivity.
Qed.
