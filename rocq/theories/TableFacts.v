(** Tables that differ only in the addresses of their contents. *)
From Verif Require Export WriteFacts ReadFacts SpecSame.

Definition erase_kind (k : kind) : kind := match k with KFile s _ => KFile s (mkAddr 0 0) | k => k end.
Definition erase_node (n : node) : node := (erase_kind (fst n), snd n).
Definition erase_rec (r : rec) : rec :=
  mkRec (r_name r) (r_parent r) (r_owner r) (r_group r) (r_rights r) (r_mtime r)
    match r_payload r with RFile _ s => RFile (mkAddr 0 0) s | p => p end.
Definition erase (a : archive) : archive := mkArchive (map erase_rec (a_recs a)) (a_root a) (a_entries a) (a_fetch a).
Definition erase_map (m : pmap) : pmap := fun p => option_map erase_node (m p).

Lemma erase_at a i : at_ (a_recs (erase a)) i = option_map erase_rec (at_ (a_recs a) i).
Proof. cbn [erase a_recs]. apply at_map. Qed.

Lemma erase_at_some a i r' : at_ (a_recs (erase a)) i = Some r' -> exists r, at_ (a_recs a) i = Some r /\ r' = erase_rec r.
Proof. rewrite erase_at. destruct (at_ (a_recs a) i) as [r|]; [|easy]. intros H. injection H as <-. eauto. Qed.

Lemma erase_apath a i p : apath (erase a) i p <-> apath a i p.
Proof.
  split.
  - induction 1 as [i r H E|i r j p H E Hp IH]; apply erase_at_some in H as (r0 & H & ->).
    + now apply (apath_top a i r0).
    + now apply (apath_sub a i r0 j).
  - induction 1 as [i r H E|i r j p H E Hp IH].
    + change (r_name r) with (r_name (erase_rec r)). apply apath_top; [now rewrite erase_at, H|exact E].
    + change (r_name r) with (r_name (erase_rec r)). apply apath_sub with j; [now rewrite erase_at, H|exact E|exact IH].
Qed.

Lemma erase_dir r f n : r_payload (erase_rec r) = RDir f n <-> r_payload r = RDir f n.
Proof. cbn [erase_rec r_payload]. destruct (r_payload r); split; intros H; try discriminate H; auto. Qed.

Lemma erase_length a : length (a_recs (erase a)) = length (a_recs a).
Proof. apply map_length. Qed.

Lemma erase_has a i (P : rec -> Prop) : (forall r, P (erase_rec r) <-> P r) ->
  ((exists r, at_ (a_recs (erase a)) i = Some r /\ P r) <-> (exists r, at_ (a_recs a) i = Some r /\ P r)).
Proof.
  intros HP. split.
  - intros (r & H & Hr). apply erase_at_some in H as (r0 & H & ->). exists r0. split; auto. now apply HP.
  - intros (r & H & Hr). exists (erase_rec r). split; [now rewrite erase_at, H|now apply HP].
Qed.

Lemma erase_wf a : wf a -> wf (erase a).
Proof.
  intros W. constructor.
  - rewrite erase_length. apply (wf_size _ W).
  - intros i r H. apply erase_at_some in H as (r0 & H & ->). destruct (wf_parent _ W i r0 H) as [E|(j & rj & f & n & E & Hlt & Hj & Hp)]; auto.
    right. exists j, (erase_rec rj), f, n. split; [exact E|]. split; [exact Hlt|]. split; [now rewrite erase_at, Hj|now apply erase_dir].
  - intros i j ri rj Hlt Hi Hj. apply erase_at_some in Hi as (r0 & Hi & ->). apply erase_at_some in Hj as (r1 & Hj & ->).
    exact (wf_sorted _ W i j r0 r1 Hlt Hi Hj).
  - intros i r f n H Hp. apply erase_at_some in H as (r0 & H & ->). apply (proj1 (erase_dir _ _ _)) in Hp.
    destruct (wf_dir _ W i r0 f n H Hp) as [D1 D2]. rewrite erase_length. split; auto. intros k. rewrite D2.
    symmetry. apply (erase_has a k (fun rk => r_parent rk = i + 1)). easy.
  - destruct (wf_root _ W) as [R1 R2]. rewrite erase_length. split; auto. intros k. cbn [erase a_root]. rewrite R2.
    symmetry. apply (erase_has a k (fun rk => r_parent rk = 0)). easy.
  - intros i r v H. apply erase_at_some in H as (r0 & H & ->). pose proof (wf_variant _ W i r0 v H) as Hv.
    cbn [erase_rec r_payload]. destruct (r_payload r0); easy.
  - cbn [erase a_entries]. rewrite (wf_entries _ W), erase_length. reflexivity.
Qed.

Lemma erase_node_of r : node_of_rec (erase_rec r) = option_map erase_node (node_of_rec r).
Proof. unfold node_of_rec. cbn [erase_rec r_payload]. now destruct (r_payload r). Qed.

Lemma erase_aholds a m : aholds a m -> aholds (erase a) (erase_map m).
Proof.
  intros (H1 & H2 & H3 & H4). repeat split.
  - intros (i & r & Hr & Hp & Hn). apply erase_at_some in Hr as (r0 & Hr & ->). rewrite erase_apath in Hp. rewrite erase_node_of in Hn.
    destruct (node_of_rec r0) as [n0|] eqn:E; [|discriminate Hn]. unfold erase_map.
    assert (E' : m p = Some n0) by (apply H1; exists i, r0; auto). rewrite E'. exact Hn.
  - unfold erase_map. destruct (m p) as [n0|] eqn:E; [|easy]. intros Hn. apply H1 in E as (i & r & Hr & Hp & E).
    exists i, (erase_rec r). split; [now rewrite erase_at, Hr|]. split; [now apply erase_apath|]. now rewrite erase_node_of, E.
  - intros i. rewrite erase_length. intros Hi. destruct (H2 i Hi) as [p Hp]. exists p. now apply erase_apath.
  - intros i p q. rewrite !erase_apath. apply H3.
  - intros i j p. rewrite !erase_apath. apply H4.
Qed.

Lemma erase_in_order a : in_order a -> in_order (erase a).
Proof. intros H i j p q. rewrite !erase_apath. apply H. Qed.

Lemma erase_normal a : normal a -> normal (erase a).
Proof.
  intros [H1 H2]. split; auto. intros r f Hin Hp. cbn [erase a_recs] in Hin. apply in_map_iff in Hin as (r0 & <- & Hin).
  apply (proj1 (erase_dir _ _ _)) in Hp. eauto.
Qed.

Lemma erased_same_table a1 a2 m1 m2 : wf a1 -> wf a2 -> aholds a1 m1 -> aholds a2 m2 -> in_order a1 -> in_order a2 -> normal a1 -> normal a2 ->
  (forall p, match m1 p, m2 p with Some n1, Some n2 => like_node (a_fetch a1) n1 (a_fetch a2) n2 | None, None => True | _, _ => False end) ->
  same_table a1 a2.
Proof.
  intros W1 W2 A1 A2 O1 O2 N1 N2 Hm.
  assert (Em : forall p, erase_map m2 p = erase_map m1 p).
  { intros p. specialize (Hm p). unfold erase_map. destruct (m1 p) as [[k1 t1]|], (m2 p) as [[k2 t2]|]; try easy. destruct Hm as [E1 E2].
    cbn [fst snd] in *. subst t2. cbn [option_map]. unfold erase_node. cbn [fst snd]. destruct k1, k2; try discriminate E2; try congruence.
    destruct E2 as [-> _]. reflexivity. }
  assert (A2' : aholds (erase a2) (erase_map m1)).
  { destruct (erase_aholds _ _ A2) as (B1 & B2). split; auto. intros p nd. now rewrite <- Em. }
  pose proof (same_recs _ _ _ (erase_wf _ W1) (erase_wf _ W2) (erase_aholds _ _ A1) A2' (erase_in_order _ O1) (erase_in_order _ O2) (erase_normal _ N1) (erase_normal _ N2)) as E.
  pose proof (same_root _ _ _ (erase_wf _ W1) (erase_wf _ W2) (erase_aholds _ _ A1) A2' (erase_in_order _ O1) (erase_in_order _ O2) (erase_normal _ N1) (erase_normal _ N2)) as Er.
  split; [exact Er|].
  split. { rewrite (wf_entries _ W1), (wf_entries _ W2). apply (f_equal (@length _)) in E. rewrite !erase_length in E. now rewrite E. }
  unfold same_record. cbn [erase a_recs] in E.
  assert (Hf : forall i r1 r2, at_ (a_recs a1) i = Some r1 -> at_ (a_recs a2) i = Some r2 -> erase_rec r1 = erase_rec r2 ->
    match r_payload r1, r_payload r2 with RFile x s, RFile y t => s = t /\ a_fetch a1 x = a_fetch a2 y | p, p' => p = p' end).
  { intros i r1 r2 H1 H2 Ee. assert (Ep : r_payload (erase_rec r1) = r_payload (erase_rec r2)) by congruence. cbn [erase_rec r_payload] in Ep.
    destruct (apath_total a1 W1 i) as [p Hp]; [now apply at_some_lt in H1|].
    assert (Hp2 : apath a2 i p).
    { apply erase_apath, (si12 _ _ _ (erase_wf _ W1) (erase_wf _ W2) (erase_aholds _ _ A1) A2' (erase_in_order _ O1) (erase_in_order _ O2)). now apply erase_apath. }
    destruct (has_node a1 i p W1 Hp) as [n1 Hn1]. destruct (has_node a2 i p W2 Hp2) as [n2 Hn2].
    assert (M1 : m1 p = Some n1) by (apply (proj1 A1); eauto). assert (M2 : m2 p = Some n2) by (apply (proj1 A2); eauto).
    specialize (Hm p). rewrite M1, M2 in Hm. destruct Hm as [_ Hm].
    destruct Hn1 as (x & Hx & _ & Hn1). rewrite H1 in Hx. injection Hx as <-.
    destruct Hn2 as (x & Hx & _ & Hn2). rewrite H2 in Hx. injection Hx as <-.
    unfold node_of_rec in Hn1, Hn2. destruct (r_payload r1), (r_payload r2); try discriminate Ep; try exact Ep.
    injection Hn1 as <-. injection Hn2 as <-. exact Hm. }
  assert (Hl : length (a_recs a1) = length (a_recs a2)) by (rewrite <- (map_length erase_rec (a_recs a1)), E; apply map_length).
  clear - E Hf. revert E Hf. generalize (a_fetch a1) (a_fetch a2). intros f1 f2.
  generalize (a_recs a2) as l2. induction (a_recs a1) as [|r1 l1 IH]; intros [|r2 l2] E Hf; try discriminate E; [constructor|].
  cbn [map] in E. assert (E1 : erase_rec r1 = erase_rec r2) by congruence. assert (E2 : map erase_rec l1 = map erase_rec l2) by congruence.
  constructor.
  - assert (G : forall A (g : rec -> A), g (erase_rec r1) = g (erase_rec r2)) by (intros; now rewrite E1).
    pose proof (G _ r_name) as G1. pose proof (G _ r_parent) as G2. pose proof (G _ r_owner) as G3. pose proof (G _ r_group) as G4.
    pose proof (G _ r_rights) as G5. pose proof (G _ r_mtime) as G6. cbn [erase_rec r_name r_parent r_owner r_group r_rights r_mtime] in *.
    repeat (split; [assumption|]). apply (Hf 0 r1 r2); auto.
  - apply IH; auto. intros i x y Hx Hy. apply (Hf (i + 1)).
    + rewrite at_nth in *. replace (N.to_nat (i + 1)) with (S (N.to_nat i)) by lia. exact Hx.
    + rewrite at_nth in *. replace (N.to_nat (i + 1)) with (S (N.to_nat i)) by lia. exact Hy.
Qed.
