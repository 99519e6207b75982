(** Archives whose modes are replaced; for C96. *)
From Verif Require Export TableFacts SpecTools PropSame.
From Verif Require Import ConvertedFacts PropConvert.

Section Modes.
Variable g : N -> N.
Definition plain_meta (m : meta) : meta := mkMeta (m_uid m) (m_gid m) (g (m_mode m)) (m_mtime m).
Definition plain_node (n : node) : node := (fst n, plain_meta (snd n)).
Definition plain_rec (r : rec) : rec :=
  mkRec (r_name r) (r_parent r) (r_owner r) (r_group r) (g (r_rights r)) (r_mtime r) (r_payload r).
Definition plain (a : archive) : archive := mkArchive (map plain_rec (a_recs a)) (a_root a) (a_entries a) (a_fetch a).
Definition plain_map (m : pmap) : pmap := fun p => option_map plain_node (m p).

Lemma plain_at a i : at_ (a_recs (plain a)) i = option_map plain_rec (at_ (a_recs a) i).
Proof. cbn [plain a_recs]. apply at_map. Qed.

Lemma plain_at_some a i r' : at_ (a_recs (plain a)) i = Some r' -> exists r, at_ (a_recs a) i = Some r /\ r' = plain_rec r.
Proof. rewrite plain_at. destruct (at_ (a_recs a) i) as [r|]; [|easy]. intros H. injection H as <-. eauto. Qed.

Lemma plain_apath a i p : apath (plain a) i p <-> apath a i p.
Proof.
  split.
  - induction 1 as [i r H E|i r j p H E Hp IH]; apply plain_at_some in H as (r0 & H & ->).
    + now apply (apath_top a i r0).
    + now apply (apath_sub a i r0 j).
  - induction 1 as [i r H E|i r j p H E Hp IH].
    + change (r_name r) with (r_name (plain_rec r)). apply apath_top; [now rewrite plain_at, H|exact E].
    + change (r_name r) with (r_name (plain_rec r)). apply apath_sub with j; [now rewrite plain_at, H|exact E|exact IH].
Qed.

Lemma plain_dir r f n : r_payload (plain_rec r) = RDir f n <-> r_payload r = RDir f n.
Proof. cbn [plain_rec r_payload]. destruct (r_payload r); split; intros H; try discriminate H; auto. Qed.

Lemma plain_length a : length (a_recs (plain a)) = length (a_recs a).
Proof. apply map_length. Qed.

Lemma plain_has a i (P : rec -> Prop) : (forall r, P (plain_rec r) <-> P r) ->
  ((exists r, at_ (a_recs (plain a)) i = Some r /\ P r) <-> (exists r, at_ (a_recs a) i = Some r /\ P r)).
Proof.
  intros HP. split.
  - intros (r & H & Hr). apply plain_at_some in H as (r0 & H & ->). exists r0. split; auto. now apply HP.
  - intros (r & H & Hr). exists (plain_rec r). split; [now rewrite plain_at, H|now apply HP].
Qed.

Lemma plain_wf a : wf a -> wf (plain a).
Proof.
  intros W. constructor.
  - rewrite plain_length. apply (wf_size _ W).
  - intros i r H. apply plain_at_some in H as (r0 & H & ->). destruct (wf_parent _ W i r0 H) as [E|(j & rj & f & n & E & Hlt & Hj & Hp)]; auto.
    right. exists j, (plain_rec rj), f, n. split; [exact E|]. split; [exact Hlt|]. split; [now rewrite plain_at, Hj|now apply plain_dir].
  - intros i j ri rj Hlt Hi Hj. apply plain_at_some in Hi as (r0 & Hi & ->). apply plain_at_some in Hj as (r1 & Hj & ->).
    exact (wf_sorted _ W i j r0 r1 Hlt Hi Hj).
  - intros i r f n H Hp. apply plain_at_some in H as (r0 & H & ->). apply (proj1 (plain_dir _ _ _)) in Hp.
    destruct (wf_dir _ W i r0 f n H Hp) as [D1 D2]. rewrite plain_length. split; auto. intros k. rewrite D2.
    symmetry. apply (plain_has a k (fun rk => r_parent rk = i + 1)). easy.
  - destruct (wf_root _ W) as [R1 R2]. rewrite plain_length. split; auto. intros k. cbn [plain a_root]. rewrite R2.
    symmetry. apply (plain_has a k (fun rk => r_parent rk = 0)). easy.
  - intros i r v H. apply plain_at_some in H as (r0 & H & ->). pose proof (wf_variant _ W i r0 v H) as Hv.
    cbn [plain_rec r_payload]. destruct (r_payload r0); easy.
  - cbn [plain a_entries]. rewrite (wf_entries _ W), plain_length. reflexivity.
Qed.

Lemma plain_node_of r : node_of_rec (plain_rec r) = option_map plain_node (node_of_rec r).
Proof. unfold node_of_rec. cbn [plain_rec r_payload]. now destruct (r_payload r). Qed.

Lemma plain_aholds a m : aholds a m -> aholds (plain a) (plain_map m).
Proof.
  intros (H1 & H2 & H3 & H4). repeat split.
  - intros (i & r & Hr & Hp & Hn). apply plain_at_some in Hr as (r0 & Hr & ->). rewrite plain_apath in Hp. rewrite plain_node_of in Hn.
    destruct (node_of_rec r0) as [n0|] eqn:E; [|discriminate Hn]. unfold plain_map.
    assert (E' : m p = Some n0) by (apply H1; exists i, r0; auto). rewrite E'. exact Hn.
  - unfold plain_map. destruct (m p) as [n0|] eqn:E; [|easy]. intros Hn. apply H1 in E as (i & r & Hr & Hp & E).
    exists i, (plain_rec r). split; [now rewrite plain_at, Hr|]. split; [now apply plain_apath|]. now rewrite plain_node_of, E.
  - intros i. rewrite plain_length. intros Hi. destruct (H2 i Hi) as [p Hp]. exists p. now apply plain_apath.
  - intros i p q. rewrite !plain_apath. apply H3.
  - intros i j p. rewrite !plain_apath. apply H4.
Qed.

Lemma plain_in_order a : in_order a -> in_order (plain a).
Proof. intros H i j p q. rewrite !plain_apath. apply H. Qed.

Lemma plain_normal a : normal a -> normal (plain a).
Proof.
  intros [H1 H2]. split; auto. intros r f Hin Hp. cbn [plain a_recs] in Hin. apply in_map_iff in Hin as (r0 & <- & Hin).
  apply (proj1 (plain_dir _ _ _)) in Hp. eauto.
Qed.

Lemma plain_session l1 f1 a1 l2 f2 a2 : small l1 -> archive_of l1 f1 a1 -> small l2 -> archive_of l2 f2 a2 ->
  (forall p n1, has l1 p n1 -> exists n2, has l2 p n2 /\ like_node f1 (plain_node n1) f2 (plain_node n2)) ->
  (forall p n2, has l2 p n2 -> exists n1, has l1 p n1) -> same_table (plain a1) (plain a2).
Proof.
  intros S1 E1 S2 E2 H12 H21. destruct (after_sim l1) as (m1 & I1 & R1 & _). destruct (after_sim l2) as (m2 & I2 & R2 & _).
  destruct (write_archive_ok _ m1 f1 I1 R1 S1) as (b1 & E1' & F1 & W1 & A1 & _ & O1).
  destruct (write_archive_ok _ m2 f2 I2 R2 S2) as (b2 & E2' & F2 & W2 & A2 & _ & O2).
  unfold archive_of, after in E1, E2. rewrite E1 in E1'. injection E1' as <-. rewrite E2 in E2'. injection E2' as <-.
  apply write_normal in E1 as N1. apply write_normal in E2 as N2.
  apply (erased_same_table (plain a1) (plain a2) (plain_map m1) (plain_map m2)); auto using plain_wf, plain_aholds, plain_in_order, plain_normal. intros p. unfold plain_map. cbn [plain a_fetch].
  destruct (m1 p) as [n1|] eqn:M1.
  - apply R1 in M1. destruct (H12 p n1 M1) as (n2 & Hn2 & Hs). apply R2 in Hn2. rewrite Hn2, F1, F2. exact Hs.
  - destruct (m2 p) as [n2|] eqn:M2; [|exact I]. apply R2 in M2. destruct (H21 p n2 M2) as (n1 & Hn1). apply R1 in Hn1. congruence.
Qed.

(** What was converted has the sources of a creation, in any order, and nothing but directories above. *)
Lemma sources_alike w o v inputs a1 l2 f2 a2 : created_archive w o v inputs a1 -> small l2 -> archive_of l2 f2 a2 ->
  (forall p q n, source_at v inputs p q n -> p <> [] -> exists nd2, has l2 p nd2 /\
     forall contents nd1, mirrors_as v q n contents nd1 -> like_node (fetch_of contents) (plain_node nd1) f2 (plain_node nd2)) ->
  (forall p nd2, has l2 p nd2 -> (exists q n, source_at v inputs p q n) \/
     (nd2 = (KDir, mkMeta 1000 1000 493 0) /\ exists x t q n, source_at v inputs (p ++ x :: t) q n)) ->
  same_table (plain a1) (plain a2).
Proof.
  intros K1 S2 E2 C12 C21. pose proof K1 as (P1 & _). destruct (created_session _ _ _ _ _ K1) as (l1 & c1 & S1 & E1 & A1).
  apply (plain_session l1 (fetch_of c1) a1 l2 f2 a2); auto.
  - intros p nd1 Hh. pose proof (has_nonempty _ _ _ Hh) as Hne. destruct (stored_source _ _ _ _ A1 _ _ Hh) as [(q & n & Hs & Hm)|[-> Hmade]].
    + destruct (C12 p q n Hs Hne) as (nd2 & Hh2 & Hl). exists nd2. split; [exact Hh2|]. now apply Hl.
    + pose proof Hmade as (_ & x & y & t & Hx & Ex).
      assert (Hs : source_at v inputs (in_path x) (in_root x) (in_node x)).
      { exists x, []. rewrite !app_nil_r. cbn [at_input]. auto. }
      assert (Hnx : in_path x <> []) by (rewrite Ex; now destruct p).
      destruct (C12 _ _ _ Hs Hnx) as (nd2 & Hh2 & _). rewrite Ex in Hh2. destruct (has_ancestor _ _ _ _ _ Hh2 Hne) as (mt & Hd). exists (KDir, mt). split; [exact Hd|].
      destruct (C21 _ _ Hd) as [(q3 & n3 & Hs3)|[E _]].
      * exfalso. eapply not_source_and_made; [apply (pr_apart _ _ _ _ P1)|exact Hs3|exact Hmade].
      * injection E as ->. split; reflexivity.
  - intros p nd2 Hh. pose proof (has_nonempty _ _ _ Hh) as Hne. destruct (C21 p nd2 Hh) as [(q & n & Hs)|(_ & x & t & q & n & Hs)].
    + destruct (source_stored _ _ _ _ A1 _ _ _ Hs Hne) as (nd & Hn & _). eauto.
    + assert (Hn' : p ++ x :: t <> []) by (now destruct p). destruct (source_stored _ _ _ _ A1 _ _ _ Hs Hn') as (nd & Hn & _).
      destruct (has_ancestor _ _ _ _ _ Hn Hne) as (mt & Hd). eauto.
Qed.
End Modes.

Lemma plain_alike a1 a2 : same_table (plain (fun m => m mod 4096) a1) (plain (fun m => m mod 4096) a2) -> alike_table a1 a2.
Proof.
  intros (H1 & H2 & H3). split; [exact H1|]. split; [exact H2|]. cbn [plain a_recs a_fetch] in H3. revert H3. generalize (a_fetch a1) (a_fetch a2) (a_recs a2). intros f1 f2.
  induction (a_recs a1) as [|r1 l1 IH]; intros [|r2 l2] H; inversion H as [|? ? ? ? Hr Hl]; subst; constructor; [exact Hr|apply IH, Hl].
Qed.
Lemma plain_id a : plain (fun m => m) a = a.
Proof.
  destruct a as [recs root entries fetch]. unfold plain. cbn [a_recs a_root a_entries a_fetch]. f_equal. induction recs as [|r l IH]; [reflexivity|]. cbn [map]. rewrite IH. now destruct r.
Qed.

(** One source at a path. *)
Lemma source_unique w inputs p q n q' n' : apart inputs -> source_at w inputs p q n -> source_at w inputs p q' n' -> q = q' /\ n = n'.
Proof.
  intros Ha (x & t & Hx & -> & -> & Ht) (y & u & Hy & E & -> & Hu).
  assert (Ep : (exists z, in_path y = in_path x ++ z) \/ exists z, in_path x = in_path y ++ z).
  { clear - E. revert E. generalize (in_path x) as p1. intros p1. generalize (in_path y) as p2. induction p1 as [|k p IH]; intros p2 E; [left; exists p2; reflexivity|]. destruct p2 as [|k2 p2]; [right; exists (k :: p); reflexivity|].
    cbn [app] in E. injection E as <- E. destruct (IH p2 E) as [[z ->]|[z ->]]; [left|right]; exists z; reflexivity. }
  assert (x = y) as ->.
  { destruct (ForallOrdPairs_In Ha x y Hx Hy) as [<-|[[H H']|[H H']]]; [reflexivity|exfalso..]; destruct Ep as [[z Ez]|[z Ez]]; first [now apply H in Ez|now apply H' in Ez]. }
  apply app_inv_head in E. subst u. split; [reflexivity|]. destruct t as [|z t]; cbn [at_input] in *; [congruence|]. destruct Ht as [_ Ht], Hu as [_ Hu]. congruence.
Qed.
