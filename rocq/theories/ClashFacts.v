(** Two paths for one place in the archive. *)
From Verif Require Export SpecClash FaithfulFacts.

Local Ltac bad := let H := fresh in intros H; discriminate H.

Lemma stands_inj s p q : stands_for s p -> stands_for s q -> p = q.
Proof. intros [_ H] [_ G]. congruence. Qed.

(** What is added where something is are a directory and a directory. *)
Lemma not_twice w pre s f l contents c' p nd q n : all_ok l ->
  add_entry_from_path w pre s f (mkCreator (after l) contents) = (c', Ok tt) ->
  stands_for s (pieces pre ++ p) -> p <> [] -> look_str w f s = At q n -> (forall i, n = HFile i -> at_special (w_attr w q) = false) ->
  has l p nd -> n = HDir /\ fst nd = KDir.
Proof.
  intros Hok Hadd Hst Hp Hl Hsp Hnd. pose proof Hadd as Hadd0. unfold add_entry_from_path in Hadd.
  destruct (is_abs s) eqn:Ha; [rewrite from_path_abs in Hadd by auto; discriminate Hadd|].
  destruct (forallb utf8 (filter not_dot (pieces s))) eqn:Hu; [|rewrite from_path_bad in Hadd by auto; discriminate Hadd].
  assert (Hs : s <> []) by (intros ->; discriminate Hl). pose proof (proj2 Hst) as Hst2.
  assert (Hread : forall i, n = HFile i -> at_special (w_attr w q) = false -> at_readable (w_attr w q) = true).
  { intros i -> Hs0. destruct (at_readable (w_attr w q)) eqn:Er; auto. exfalso.
    destruct (one_path s pre p Hs Ha Hu Hst2) as (x & a & H1 & H2 & H3 & _). rewrite H1, H2 in Hadd.
    assert (Hna : nonempty a = true) by (destruct a; [exfalso; now apply Hp|reflexivity]). rewrite Hna in Hadd.
    unfold new_from_path in Hadd. rewrite (detect_look w s pre p Hs Ha Hu Hst2 f q (HFile i) Hl) in Hadd. cbn [bind kind_at] in Hadd. rewrite Hs0, Er in Hadd. discriminate Hadd. }
  destruct (AddSession.one_entry w s pre p Hs Ha Hu Hst2 f q n (mkCreator (after l) contents) Hp Hl Hread) as (e & ext & E & Ep & Hk).
  rewrite E in Hadd0. cbn [cr_entries cr_contents] in *. destruct (add_entry (after l) e) as [st r] eqn:Ea. injection Hadd0 as <- ->.
  destruct Hk as [(_ & _ & i & -> & Hs1)|(k & Ek & Hm & _)]; [rewrite (Hsp i eq_refl) in Hs1; discriminate Hs1|].
  pose proof (dotless_filter s _ _ Hst2) as Hdot.
  destruct (rev p) as [|x d'] eqn:Erev. { exfalso. apply Hp. rewrite <- (rev_involutive p), Erev. reflexivity. }
  assert (Epd : p = rev d' ++ [x]) by (rewrite <- (rev_involutive p), Erev; reflexivity). set (d := rev d') in *. rewrite Epd in Ep.
  destruct (dotless_split (e_path e) d x Ep) as [Hd Hlast]; [now rewrite <- Epd|].
  destruct (after_sim l) as (m & Hi & Hr & _). fold (after l) in Hi, Hr.
  pose proof (add_entry_sim (after l) m e Hi Hr) as Hsim. rewrite Ea in Hsim. destruct (spec_add_entry m e) as [m' o] eqn:Es. destruct Hsim as (_ & _ & Ho).
  unfold spec_add_entry, spec_add in Es. rewrite Hd, Ek in Es.
  assert (Hx : last_of (e_path e) = Some x \/ last_of (e_path e) = None).
  { destruct (bytes_eqb_spec x (b "..")) as [->|Hx]; [|left; now apply Hlast]. right. unfold last_of. rewrite Ep, drop_dots_dotless, rev_app_distr by (now rewrite <- Epd). reflexivity. }
  destruct (blocked m d); [injection Es as _ Es; congruence|]. destruct Hx as [Hx|Hx]; rewrite Hx in Es; [|injection Es as _ Es; congruence].
  rewrite <- Epd in Es. assert (Hmp : m p = Some nd) by (now apply Hr). rewrite Hmp in Es.
  destruct k as [|z a|t]; [|injection Es as _ Es; congruence|injection Es as _ Es; congruence].
  destruct nd as [k0 mt0]. destruct k0 as [|z a|t]; cbn [is_dir_node fst] in Es; [|injection Es as _ Es; congruence|injection Es as _ Es; congruence].
  split; [|reflexivity]. destruct Hm as (_ & _ & _ & _ & Hm). cbn [fst] in Hm. destruct n as [|i|t m0]; [reflexivity|destruct Hm as (? & Hm & _); discriminate Hm|discriminate Hm].
Qed.

Lemma kept_at w pre l contents s f p q n : kept w pre l contents s f -> stands_for s (pieces pre ++ p) -> p <> [] ->
  look_str w f s = At q n -> (forall i, n = HFile i -> at_special (w_attr w q) = false) ->
  exists nd, has l p nd /\ (n = HDir <-> fst nd = KDir).
Proof.
  intros Hk Hst Hp Hl Hsp. destruct (Hk s f (conj eq_refl eq_refl)) as (p' & Hst' & Hk').
  assert (p' = p) as ->. { apply (app_inv_head (pieces pre)). now apply (stands_inj s). }
  destruct (Hk' Hp) as (q' & n' & Hl' & Hn). rewrite Hl in Hl'. injection Hl' as <- <-. destruct n as [|i|t m].
  - destruct Hn as [mt Hn]. exists (KDir, mt). split; [exact Hn|]. split; reflexivity.
  - destruct Hn as [Hn|(_ & nd & H1 & _ & _ & _ & _ & a & H2 & _)]; [rewrite (Hsp i eq_refl) in Hn; discriminate Hn|].
    exists nd. split; [exact H1|]. rewrite H2. split; bad.
  - destruct Hn as (nd & H1 & _ & _ & _ & _ & H2). exists nd. split; [exact H1|]. rewrite H2. split; bad.
Qed.

Lemma has_under l p r nd : has l (p ++ r) nd -> p <> [] -> r <> [] -> exists mt, has l p (KDir, mt).
Proof. intros H Hp Hr. destruct r as [|x r]; [now destruct Hr|]. eapply has_ancestor; eauto. Qed.

(** An accepted path is not in the way of one accepted before, nor the other way round. *)
Lemma apart_one w pre S c s f c' : filled w pre S c -> add_entry_from_path w pre s f c = (c', Ok tt) ->
  forall s0 f0, In (s0, f0) S -> ~ in_the_way w pre s0 f0 s f /\ ~ in_the_way w pre s f s0 f0.
Proof.
  intros (l & Hc & Hok & _ & Hall) Hadd s0 f0 Hin. destruct c as [st contents]. cbn [cr_entries cr_contents] in *. subst st.
  destruct (one_added w pre s f l contents c' Hok Hadd) as (l2 & c2 & H1 & H2 & H3 & H4 & _).
  assert (Hk0 : kept w pre l contents s0 f0) by (intros x y [-> ->]; now apply Hall).
  split; intros ((q & n & Hl & Hnd & Hsp) & (q' & n' & Hl' & Hsp') & p & r & Hp & Hst & Hst').
  - destruct (kept_at _ _ _ _ _ _ _ _ _ Hk0 Hst Hp Hl Hsp) as (nd & Hh & Hdir).
    destruct (list_eq_dec (list_eq_dec N.eq_dec) r []) as [-> |Hr].
    + rewrite app_nil_r in Hst'. destruct (not_twice w pre s f l contents c' p nd q' n' Hok Hadd Hst' Hp Hl' Hsp' Hh) as [_ G]. now apply Hnd, Hdir.
    + assert (Hpr : p ++ r <> []) by (intros G; apply app_eq_nil in G as [G _]; contradiction).
      destruct (kept_at _ _ _ _ _ _ _ _ _ H4 Hst' Hpr Hl' Hsp') as (nd' & Hh' & _).
      destruct (has_under _ _ _ _ Hh' Hp Hr) as (mt & Hd). pose proof (has_fun _ _ _ _ (has_more l l2 p nd Hok Hh) Hd) as ->. now apply Hnd, Hdir.
  - destruct (list_eq_dec (list_eq_dec N.eq_dec) r []) as [-> |Hr].
    + rewrite app_nil_r in Hst'. destruct (kept_at _ _ _ _ _ _ _ _ _ Hk0 Hst' Hp Hl' Hsp') as (nd & Hh & _).
      destruct (not_twice w pre s f l contents c' p nd q n Hok Hadd Hst Hp Hl Hsp Hh) as [G _]. now apply Hnd.
    + assert (Hpr : p ++ r <> []) by (intros G; apply app_eq_nil in G as [G _]; contradiction).
      destruct (kept_at _ _ _ _ _ _ _ _ _ Hk0 Hst' Hpr Hl' Hsp') as (nd' & Hh' & _).
      destruct (has_under _ _ _ _ Hh' Hp Hr) as (mt & Hd).
      destruct (not_twice w pre s f l contents c' p _ q n Hok Hadd Hst Hp Hl Hsp Hd) as [G _]. now apply Hnd.
Qed.

Lemma add_each_app w pre l2 : forall l1 c c', add_each w pre (l1 ++ l2) c = (c', Ok tt) ->
  exists c1, add_each w pre l1 c = (c1, Ok tt) /\ add_each w pre l2 c1 = (c', Ok tt).
Proof.
  induction l1 as [|[s f] l1 IH]; intros c c'; cbn [app add_each]; [eauto|].
  destruct (add_entry_from_path w pre s f c) as [c1 [[]| | |]]; try bad. apply IH.
Qed.
Lemma add_infiles_app fuel w pre rc l2 : forall l1 c c', add_infiles fuel w pre (l1 ++ l2) rc c = (c', Ok tt) ->
  exists c1, add_infiles fuel w pre l1 rc c = (c1, Ok tt) /\ add_infiles fuel w pre l2 rc c1 = (c', Ok tt).
Proof.
  induction l1 as [|s l1 IH]; intros c c'; cbn [app add_infiles]; [eauto|].
  destruct (add_from_path fuel w pre s rc c) as [c1 [[]| | |]]; try bad. apply IH.
Qed.

Lemma apart_each w pre S c l0 c' : filled w pre S c -> add_each w pre l0 c = (c', Ok tt) ->
  forall s0 f0 s f, In (s0, f0) S -> In (s, f) l0 -> ~ in_the_way w pre s0 f0 s f /\ ~ in_the_way w pre s f s0 f0.
Proof.
  intros Hf H s0 f0 s f H0 H1. apply in_split in H1 as (l1 & l2 & ->).
  destruct (add_each_app _ _ _ _ _ _ H) as (c1 & E1 & E2). cbn [add_each] in E2.
  destruct (add_entry_from_path w pre s f c1) as [c2 [[]| | |]] eqn:E; try discriminate E2.
  apply (apart_one w pre (S ++ l1) c1 s f c2); [eapply filled_each; eauto|exact E|]. apply in_app_iff. now left.
Qed.

Lemma nth_two {A} (l : list A) i j x y : (i < j)%nat -> nth_error l i = Some x -> nth_error l j = Some y ->
  exists l1 l2 l3, l = (l1 ++ x :: l2) ++ y :: l3.
Proof.
  intros Hij Hx Hy. apply nth_error_split in Hy as (u & v & -> & Hu). rewrite nth_error_app1 in Hx by lia.
  apply nth_error_split in Hx as (l1 & l2 & -> & _). eauto.
Qed.
