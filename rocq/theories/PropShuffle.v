(** C106: the order of the members of a tar or zip, and the options, do not matter. *)
From Verif Require Export SpecShuffle PropTools.
From Coq Require Import Permutation.

(** ** The common part: two sessions that keep the same things *)
Section Shuffle.
  Variables (X1 X2 : Type) (at1 : X1 -> path -> Prop) (at2 : X2 -> path -> Prop) (items1 : list X1) (items2 : list X2).
  Variables (b1 : X1 -> node -> Prop) (b2 : X2 -> node -> Prop).
  Variables (l1 l2 : list entry) (a1 a2 : archive).
  Hypothesis S1 : small l1. Hypothesis A1 : archive_of l1 (a_fetch a1) a1.
  Hypothesis S2 : small l2. Hypothesis A2 : archive_of l2 (a_fetch a2) a2.
  Hypothesis K1 : forall u x v p, items1 = u ++ x :: v -> at1 x p -> p <> [] /\ exists nd, has l1 p nd /\
    (b1 x nd \/ exists y q, In y u /\ at1 y q /\ ((q = p /\ b1 y nd) \/ proper_prefix p q)).
  Hypothesis K2 : forall u x v p, items2 = u ++ x :: v -> at2 x p -> p <> [] /\ exists nd, has l2 p nd /\
    (b2 x nd \/ exists y q, In y u /\ at2 y q /\ ((q = p /\ b2 y nd) \/ proper_prefix p q)).
  Hypothesis N1 : forall p nd, has l1 p nd -> exists x q, In x items1 /\ at1 x q /\ ((q = p /\ b1 x nd) \/ (proper_prefix p q /\ nd = (KDir, mkMeta 1000 1000 493 0))).
  Hypothesis N2 : forall p nd, has l2 p nd -> exists x q, In x items2 /\ at2 x q /\ ((q = p /\ b2 x nd) \/ (proper_prefix p q /\ nd = (KDir, mkMeta 1000 1000 493 0))).
  Hypothesis D1 : dirs_first at1 items1. Hypothesis D2 : dirs_first at2 items2.
  Hypothesis P : forall p, (exists x, In x items1 /\ at1 x p) <-> (exists x, In x items2 /\ at2 x p).
  Hypothesis L : forall x y p n1 n2, In x items1 -> In y items2 -> at1 x p -> at2 y p -> b1 x n1 -> b2 y n2 -> like_node (a_fetch a1) n1 (a_fetch a2) n2.

  Lemma member1 x p : In x items1 -> at1 x p -> p <> [] /\ exists nd y, has l1 p nd /\ In y items1 /\ at1 y p /\ b1 y nd.
  Proof.
    intros Hx Hp. pose proof Hx as Hi. apply in_split in Hx as (u & v & E). destruct (K1 u x v p E Hp) as (Hne & nd & Hh & Hb). split; [exact Hne|].
    destruct Hb as [Hb|(y & q & Hy & Hq & [[-> Hb]|Hpp])]; [exists nd, x; auto|exists nd, y; split; [exact Hh|split; [rewrite E; apply in_or_app; now left|auto]]|].
    exfalso. exact (D1 u x v y p q E Hy Hp Hq Hpp).
  Qed.
  Lemma member2 x p : In x items2 -> at2 x p -> p <> [] /\ exists nd y, has l2 p nd /\ In y items2 /\ at2 y p /\ b2 y nd.
  Proof.
    intros Hx Hp. pose proof Hx as Hi. apply in_split in Hx as (u & v & E). destruct (K2 u x v p E Hp) as (Hne & nd & Hh & Hb). split; [exact Hne|].
    destruct Hb as [Hb|(y & q & Hy & Hq & [[-> Hb]|Hpp])]; [exists nd, x; auto|exists nd, y; split; [exact Hh|split; [rewrite E; apply in_or_app; now left|auto]]|].
    exfalso. exact (D2 u x v y p q E Hy Hp Hq Hpp).
  Qed.
  Lemma not_empty1 p nd : has l1 p nd -> p <> [].
  Proof. intros H. apply (archive_has l1 (a_fetch a1) a1 _ _ S1 A1) in H as (i & r & _ & Hi & _). now apply apath_nonempty in Hi. Qed.
  Lemma not_empty2 p nd : has l2 p nd -> p <> [].
  Proof. intros H. apply (archive_has l2 (a_fetch a2) a2 _ _ S2 A2) in H as (i & r & _ & Hi & _). now apply apath_nonempty in Hi. Qed.

  (** A path above a member is there, on both sides. *)
  Lemma above1 x p q : In x items1 -> at1 x q -> proper_prefix p q -> p <> [] -> exists mt, has l1 p (KDir, mt).
  Proof. intros Hx Hq (y & t & E) Hp. destruct (member1 x q Hx Hq) as (_ & nd & _ & Hh & _). rewrite E in Hh. exact (has_ancestor l1 p y t nd Hh Hp). Qed.
  Lemma above2 x p q : In x items2 -> at2 x q -> proper_prefix p q -> p <> [] -> exists mt, has l2 p (KDir, mt).
  Proof. intros Hx Hq (y & t & E) Hp. destruct (member2 x q Hx Hq) as (_ & nd & _ & Hh & _). rewrite E in Hh. exact (has_ancestor l2 p y t nd Hh Hp). Qed.

  Lemma at_both p n1 n2 x : In x items1 -> at1 x p -> has l1 p n1 -> has l2 p n2 -> like_node (a_fetch a1) n1 (a_fetch a2) n2.
  Proof.
    intros Hx Hp H1 H2. destruct (member1 x p Hx Hp) as (_ & m1 & y1 & G1 & I1 & T1 & B1).
    destruct (proj1 (P p) (ex_intro _ x (conj Hx Hp))) as (z & Hz & Hzp). destruct (member2 z p Hz Hzp) as (_ & m2 & y2 & G2 & I2 & T2 & B2).
    rewrite (has_unique l1 (a_fetch a1) a1 p n1 m1 S1 A1 H1 G1), (has_unique l2 (a_fetch a2) a2 p n2 m2 S2 A2 H2 G2).
    exact (L y1 y2 p m1 m2 I1 I2 T1 T2 B1 B2).
  Qed.

  Theorem shuffled : same_table a1 a2.
  Proof.
    apply (same_session l1 (a_fetch a1) a1 l2 (a_fetch a2) a2 S1 A1 S2 A2).
    - intros p n1 H1.
      assert (He : exists n2, has l2 p n2).
      { destruct (N1 p n1 H1) as (x & q & Hx & Hq & [[-> _]|[Hpp _]]).
        - destruct (proj1 (P p) (ex_intro _ x (conj Hx Hq))) as (z & Hz & Hzp). destruct (member2 z p Hz Hzp) as (_ & m2 & _ & G2 & _). eauto.
        - destruct (proj1 (P q) (ex_intro _ x (conj Hx Hq))) as (z & Hz & Hzp). destruct (above2 z p q Hz Hzp Hpp (not_empty1 p n1 H1)) as [mt G2]. eauto. }
      destruct He as [n2 H2]. exists n2. split; [exact H2|].
      destruct (N1 p n1 H1) as (x & q & Hx & Hq & [[-> _]|[_ E1]]); [exact (at_both p n1 n2 x Hx Hq H1 H2)|].
      destruct (N2 p n2 H2) as (y & q2 & Hy & Hq2 & [[-> _]|[_ E2]]).
      + destruct (proj2 (P p) (ex_intro _ y (conj Hy Hq2))) as (z & Hz & Hzp). exact (at_both p n1 n2 z Hz Hzp H1 H2).
      + rewrite E1, E2. split; reflexivity.
    - intros p n2 H2. destruct (N2 p n2 H2) as (x & q & Hx & Hq & [[-> _]|[Hpp _]]).
      + destruct (proj2 (P p) (ex_intro _ x (conj Hx Hq))) as (z & Hz & Hzp). destruct (member1 z p Hz Hzp) as (_ & m1 & _ & G1 & _). eauto.
      + destruct (proj2 (P q) (ex_intro _ x (conj Hx Hq))) as (z & Hz & Hzp). destruct (above1 z p q Hz Hzp Hpp (not_empty2 p n2 H2)) as [mt G1]. eauto.
  Qed.
End Shuffle.

(** ** tar *)
Lemma tar_becomes_like m1 m2 f1 n1 f2 n2 : like_tar m1 m2 -> tar_becomes m1 f1 n1 -> tar_becomes m2 f2 n2 -> like_node f1 n1 f2 n2.
Proof.
  intros (U & G & M & T & Lk & Da & Hd & Hl) ((U1 & G1 & M1 & T1) & B1) ((U2 & G2 & M2 & T2) & B2).
  destruct n1 as [k1 [u1 g1 o1 t1]], n2 as [k2 [u2 g2 o2 t2]]. cbn [fst snd m_uid m_gid m_mode m_mtime] in *.
  split; cbn [fst snd]; [congruence|].
  destruct B1 as [[D1 ->]|[(K1 & x1 & X1 & ->)|((F1 & F1' & F1'') & d1 & ad1 & E1 & -> & Fd1)]],
    B2 as [[D2 ->]|[(K2 & x2 & X2 & ->)|((F2 & F2' & F2'') & d2 & ad2 & E2 & -> & Fd2)]]; try tauto.
  - exfalso. apply Hl in K2. now apply tar_dir_not_link in D1.
  - exfalso. apply Hd in D2. now apply tar_dir_not_link in D2.
  - congruence.
  - assert (d1 = d2) as -> by congruence. split; [reflexivity|congruence].
Qed.

Lemma tar_side : forall o items evs out a can, tar_main o (Ok (Some (Ok items))) can = (evs, Ok tt) -> In (CWritten out a) evs -> N.of_nat (length (a_recs a)) < 2^32 ->
    exists l, small l /\ archive_of l (a_fetch a) a /\
      (forall u x v p, items = u ++ x :: v -> tar_at x p -> p <> [] /\ exists nd, has l p nd /\
        ((exists m, x = Ok m /\ tar_becomes m (a_fetch a) nd) \/ exists y q, In y u /\ tar_at y q /\ ((q = p /\ exists m, y = Ok m /\ tar_becomes m (a_fetch a) nd) \/ proper_prefix p q))) /\
      (forall p nd, has l p nd -> exists x q, In x items /\ tar_at x q /\ ((q = p /\ exists m, x = Ok m /\ tar_becomes m (a_fetch a) nd) \/ (proper_prefix p q /\ nd = (KDir, mkMeta 1000 1000 493 0)))).
Proof.
  intros o items evs out a can H Hin Hsm. destruct (tar_session _ _ _ _ _ _ H Hin Hsm) as (l & Hs & Ha). exists l. split; [exact Hs|]. split; [exact Ha|].
    assert (Hst : forall p nd, has l p nd <-> exists i, astored a i p nd) by (intros p nd; apply (archive_has l (a_fetch a) a); auto). split.
    - intros u x v p E (m & -> & Hext & Hp).
      destruct (C49_members_are_kept _ _ _ _ _ _ H Hin Hsm u (Ok m) v E) as (m0 & Em & [He|(p' & i & nd & Hp' & (dd & nn & Hlast & _) & Hi & Hb)]); [congruence|].
      injection Em as <-. assert (Hne : p' <> []) by (rewrite Hlast; destruct dd; intros HH; discriminate HH). assert (E' : p' = p) by (eapply tar_path_fun; eauto). clear Hlast. rewrite E' in *. clear E'. split; [exact Hne|].
      exists nd. split; [apply Hst; eauto|]. destruct Hb as [Hb|(_ & _ & m' & q' & Hm' & Hext' & Hq' & [[-> Hb]|[Hpp _]])].
      + left. eauto.
      + right. exists (Ok m'), p. split; [exact Hm'|]. split; [exists m'; auto|]. left. split; [reflexivity|]. eauto.
      + right. exists (Ok m'), q'. split; [exact Hm'|]. split; [exists m'; auto|]. now right.
    - intros p nd Hh. apply Hst in Hh as (i & Hi). destruct (C49_nothing_else _ _ _ _ _ _ H Hin Hsm i p nd Hi) as (m & q & Hm & Hext & Hp & Hc).
      exists (Ok m), q. split; [exact Hm|]. split; [exists m; auto|]. destruct Hc as [[-> Hb]|Hc]; [left; split; [reflexivity|eauto]|now right].
Qed.

(** Two conversions that succeed, with any options, of tars with the same members in any order, no
    directory after something in it, write the same archive, but for where the contents are. *)
Theorem C106_tar : forall o1 items1 evs1 out1 a1 o2 items2 evs2 out2 a2 can1 can2,
  tar_main o1 (Ok (Some (Ok items1))) can1 = (evs1, Ok tt) -> In (CWritten out1 a1) evs1 -> N.of_nat (length (a_recs a1)) < 2^32 ->
  tar_main o2 (Ok (Some (Ok items2))) can2 = (evs2, Ok tt) -> In (CWritten out2 a2) evs2 -> N.of_nat (length (a_recs a2)) < 2^32 ->
  same_tars items1 items2 -> dirs_first tar_at items1 -> dirs_first tar_at items2 -> same_table a1 a2.
Proof.
  intros o1 items1 evs1 out1 a1 o2 items2 evs2 out2 a2 can1 can2 R1 W1 Z1 R2 W2 Z2 [P L] D1 D2.
  destruct (tar_side _ _ _ _ _ _ R1 W1 Z1) as (l1 & S1 & A1 & K1 & N1). destruct (tar_side _ _ _ _ _ _ R2 W2 Z2) as (l2 & S2 & A2 & K2 & N2).
  apply (shuffled _ _ tar_at tar_at items1 items2 _ _ l1 l2 a1 a2 S1 A1 S2 A2 K1 K2 N1 N2 D1 D2).
  - intros p. specialize (P p). split; intros (x & Hx & m & -> & He & Hp).
    + destruct (proj1 P) as (m' & H1 & H2 & H3); [exists m; split; auto|]. exists (Ok m'). split; [exact H1|]. exists m'. auto.
    + destruct (proj2 P) as (m' & H1 & H2 & H3); [exists m; split; auto|]. exists (Ok m'). split; [exact H1|]. exists m'. auto.
  - intros x y p n1 n2 Hx Hy (m1 & -> & E1 & Q1) (m2 & -> & E2 & Q2) (m1' & Em1 & B1) (m2' & Em2 & B2). injection Em1 as <-. injection Em2 as <-.
    eapply tar_becomes_like; eauto. apply (L m1 m2 p); split; auto.
Qed.
Print Assumptions C106_tar.

(** In particular for a permutation of members that are each for another path. *)
Theorem C106_tar_order : forall o1 items1 evs1 out1 a1 o2 items2 evs2 out2 a2 can1 can2,
  tar_main o1 (Ok (Some (Ok items1))) can1 = (evs1, Ok tt) -> In (CWritten out1 a1) evs1 -> N.of_nat (length (a_recs a1)) < 2^32 ->
  tar_main o2 (Ok (Some (Ok items2))) can2 = (evs2, Ok tt) -> In (CWritten out2 a2) evs2 -> N.of_nat (length (a_recs a2)) < 2^32 ->
  Permutation items1 items2 -> (forall m m' p, tar_has_member items1 m p -> tar_has_member items1 m' p -> m = m') ->
  dirs_first tar_at items1 -> dirs_first tar_at items2 -> same_table a1 a2.
Proof.
  intros o1 items1 evs1 out1 a1 o2 items2 evs2 out2 a2 can1 can2 R1 W1 Z1 R2 W2 Z2 Hp Hu D1 D2.
  apply (C106_tar _ _ _ _ _ _ _ _ _ _ _ _ R1 W1 Z1 R2 W2 Z2); auto. split.
  - intros p. split; intros (m & Hi & He); exists m; split; auto; [exact (Permutation_in _ Hp Hi)|exact (Permutation_in _ (Permutation_sym Hp) Hi)].
  - intros m1 m2 p H1 [Hi He]. assert (m1 = m2) as <-; [|unfold like_tar; tauto].
    apply (Hu m1 m2 p H1). split; auto. eapply Permutation_in; [apply Permutation_sym; exact Hp|exact Hi].
Qed.
Print Assumptions C106_tar_order.

(** ** zip *)
Lemma zip_becomes_like file1 m1 file2 m2 f1 n1 f2 n2 : like_zip file1 m1 file2 m2 -> zip_becomes file1 m1 f1 n1 -> zip_becomes file2 m2 f2 n2 -> like_node f1 n1 f2 n2.
Proof.
  intros (M & Z & T & Hd & Da) (U1 & G1 & M1 & T1 & B1) (U2 & G2 & M2 & T2 & B2).
  apply T in T1. pose proof (zip_time_fun _ _ _ T1 T2) as ET.
  destruct n1 as [k1 [u1 g1 o1 t1]], n2 as [k2 [u2 g2 o2 t2]]. cbn [fst snd m_uid m_gid m_mode m_mtime] in *.
  split; cbn [fst snd].
  - assert (o1 = o2) as -> by (destruct M1 as [M1|[M1 ->]], M2 as [M2|[M2 ->]]; congruence). congruence.
  - destruct B1 as [[D1 ->]|(D1 & d1 & ad1 & E1 & -> & Fd1)], B2 as [[D2 ->]|(D2 & d2 & ad2 & E2 & -> & Fd2)]; try tauto.
    apply Da in E1. assert (d1 = d2) as -> by (eapply zip_bytes_fun; eauto). split; [exact Z|congruence].
Qed.

Lemma zip_side : forall o items file evs out a can, zip_main o (Ok (Some items)) (Ok file) can = (evs, Ok tt) -> In (CWritten out a) evs ->
    (forall m, In (Some m) items -> zip_fitting file m) -> N.of_nat (length (a_recs a)) < 2^32 ->
    exists l, small l /\ archive_of l (a_fetch a) a /\
      (forall u x v p, items = u ++ x :: v -> zip_at x p -> p <> [] /\ exists nd, has l p nd /\
        ((exists m, x = Some m /\ zip_becomes file m (a_fetch a) nd) \/ exists y q, In y u /\ zip_at y q /\ ((q = p /\ exists m, y = Some m /\ zip_becomes file m (a_fetch a) nd) \/ proper_prefix p q))) /\
      (forall p nd, has l p nd -> exists x q, In x items /\ zip_at x q /\ ((q = p /\ exists m, x = Some m /\ zip_becomes file m (a_fetch a) nd) \/ (proper_prefix p q /\ nd = (KDir, mkMeta 1000 1000 493 0)))).
Proof.
  assert (Hpt : forall s p q, stands_for s p -> stands_for s q -> p = q) by (intros s p q [_ <-] [_ <-]; reflexivity).
  intros o items file evs out a can H Hin Hfit Hsm. destruct (zip_session _ _ _ _ _ _ _ H Hin Hfit Hsm) as (l & Hs & Ha). exists l. split; [exact Hs|]. split; [exact Ha|].
    assert (Hst : forall p nd, has l p nd <-> exists i, astored a i p nd) by (intros p nd; apply (archive_has l (a_fetch a) a); auto). split.
    - intros u x v p E (m & -> & Hp).
      destruct (C50_members_are_kept _ _ _ _ _ _ _ H Hin Hfit Hsm u (Some m) v E) as (m0 & p' & i & nd & Em & _ & Hp' & (dd & nn & Hlast & _) & Hi & Hb).
      injection Em as <-. assert (Hne : p' <> []) by (rewrite Hlast; destruct dd; intros HH; discriminate HH). assert (E' : p' = p) by (eapply Hpt; eauto). clear Hlast. rewrite E' in *. clear E'. split; [exact Hne|].
      exists nd. split; [apply Hst; eauto|]. destruct Hb as [Hb|(_ & _ & m' & q' & Hm' & Hq' & [[-> Hb]|[Hpp _]])].
      + left. eauto.
      + right. exists (Some m'), p. split; [exact Hm'|]. split; [exists m'; auto|]. left. split; [reflexivity|]. eauto.
      + right. exists (Some m'), q'. split; [exact Hm'|]. split; [exists m'; auto|]. now right.
    - intros p nd Hh. apply Hst in Hh as (i & Hi). destruct (C50_nothing_else _ _ _ _ _ _ _ H Hin Hfit Hsm i p nd Hi) as (m & q & Hm & Hp & Hc).
      exists (Some m), q. split; [exact Hm|]. split; [exists m; auto|]. destruct Hc as [[-> Hb]|Hc]; [left; split; [reflexivity|eauto]|now right].
Qed.

Theorem C106_zip : forall o1 items1 file1 evs1 out1 a1 o2 items2 file2 evs2 out2 a2 can1 can2,
  zip_main o1 (Ok (Some items1)) (Ok file1) can1 = (evs1, Ok tt) -> In (CWritten out1 a1) evs1 ->
  (forall m, In (Some m) items1 -> zip_fitting file1 m) -> N.of_nat (length (a_recs a1)) < 2^32 ->
  zip_main o2 (Ok (Some items2)) (Ok file2) can2 = (evs2, Ok tt) -> In (CWritten out2 a2) evs2 ->
  (forall m, In (Some m) items2 -> zip_fitting file2 m) -> N.of_nat (length (a_recs a2)) < 2^32 ->
  same_zips file1 items1 file2 items2 -> dirs_first zip_at items1 -> dirs_first zip_at items2 -> same_table a1 a2.
Proof.
  intros o1 items1 file1 evs1 out1 a1 o2 items2 file2 evs2 out2 a2 can1 can2 R1 W1 F1 Z1 R2 W2 F2 Z2 [P L] D1 D2.
  destruct (zip_side _ _ _ _ _ _ _ R1 W1 F1 Z1) as (l1 & S1 & A1 & K1 & N1). destruct (zip_side _ _ _ _ _ _ _ R2 W2 F2 Z2) as (l2 & S2 & A2 & K2 & N2).
  apply (shuffled _ _ zip_at zip_at items1 items2 _ _ l1 l2 a1 a2 S1 A1 S2 A2 K1 K2 N1 N2 D1 D2).
  - intros p. specialize (P p). split; intros (x & Hx & m & -> & Hp).
    + destruct (proj1 P) as (m' & H1 & H2); [exists m; split; auto|]. exists (Some m'). split; [exact H1|]. exists m'. auto.
    + destruct (proj2 P) as (m' & H1 & H2); [exists m; split; auto|]. exists (Some m'). split; [exact H1|]. exists m'. auto.
  - intros x y p n1 n2 Hx Hy (m1 & -> & Q1) (m2 & -> & Q2) (m1' & Em1 & B1) (m2' & Em2 & B2). injection Em1 as <-. injection Em2 as <-.
    eapply zip_becomes_like; eauto. apply (L m1 m2 p); split; auto.
Qed.
Print Assumptions C106_zip.

Lemma tar_zip_like m1 file m2 f1 n1 f2 n2 : like_tar_zip m1 file m2 -> tar_becomes m1 f1 n1 -> zip_becomes file m2 f2 n2 -> like_node f1 n1 f2 n2.
Proof.
  intros (U & G & M & T & Hd & Hl & Da) ((U1 & G1 & M1 & T1) & B1) (U2 & G2 & M2 & T2 & B2).
  destruct T as (t & Tt & Tz). pose proof (zip_time_fun _ _ _ Tz T2) as ET.
  destruct n1 as [k1 [u1 g1 o1 t1]], n2 as [k2 [u2 g2 o2 t2]]. cbn [fst snd m_uid m_gid m_mode m_mtime] in *.
  split; cbn [fst snd].
  - assert (Em : o1 = o2). { destruct M as (o & Mo & Mz). destruct M2 as [M2|[M2 ->]], Mz as [Mz|[Mz ->]]; congruence. } congruence.
  - destruct B1 as [[D1 ->]|[(K1 & _)|((F1 & F1' & F1'') & d1 & ad1 & E1 & -> & Fd1)]]; [|contradiction|];
      destruct B2 as [[D2 ->]|(D2 & d2 & ad2 & E2 & -> & Fd2)]; try tauto.
    destruct (Da F1') as (d & Ed & Zd & Sz). assert (d = d1) as -> by congruence. assert (d1 = d2) as <- by (eapply zip_bytes_fun; eauto).
    split; [now symmetry|congruence].
Qed.

(** ** a tar and a zip *)
(** A tar and a zip with the same members, in any order, all of the tar's owned by user 0 and group 0 (a zip
    keeps no owner), without links: the same archive again. *)
Theorem C106_tar_zip : forall o1 items1 evs1 out1 a1 o2 items2 file evs2 out2 a2 can1 can2,
  tar_main o1 (Ok (Some (Ok items1))) can1 = (evs1, Ok tt) -> In (CWritten out1 a1) evs1 -> N.of_nat (length (a_recs a1)) < 2^32 ->
  zip_main o2 (Ok (Some items2)) (Ok file) can2 = (evs2, Ok tt) -> In (CWritten out2 a2) evs2 ->
  (forall m, In (Some m) items2 -> zip_fitting file m) -> N.of_nat (length (a_recs a2)) < 2^32 ->
  tar_and_zip items1 file items2 -> dirs_first tar_at items1 -> dirs_first zip_at items2 -> same_table a1 a2.
Proof.
  intros o1 items1 evs1 out1 a1 o2 items2 file evs2 out2 a2 can1 can2 R1 W1 Z1 R2 W2 F2 Z2 [P L] D1 D2.
  destruct (tar_side _ _ _ _ _ _ R1 W1 Z1) as (l1 & S1 & A1 & K1 & N1). destruct (zip_side _ _ _ _ _ _ _ R2 W2 F2 Z2) as (l2 & S2 & A2 & K2 & N2).
  apply (shuffled _ _ tar_at zip_at items1 items2 _ _ l1 l2 a1 a2 S1 A1 S2 A2 K1 K2 N1 N2 D1 D2).
  - intros p. specialize (P p). split.
    + intros (x & Hx & m & -> & He & Hp). destruct (proj1 P) as (m' & H1 & H2); [exists m; split; auto|]. exists (Some m'). split; [exact H1|]. exists m'. auto.
    + intros (x & Hx & m & -> & Hp). destruct (proj2 P) as (m' & H1 & H2 & H3); [exists m; split; auto|]. exists (Ok m'). split; [exact H1|]. exists m'. auto.
  - intros x y p n1 n2 Hx Hy (m1 & -> & E1 & Q1) (m2 & -> & Q2) (m1' & Em1 & B1) (m2' & Em2 & B2). injection Em1 as <-. injection Em2 as <-.
    eapply tar_zip_like; eauto. apply (L m1 m2 p); split; auto.
Qed.
Print Assumptions C106_tar_zip.

(** A tar, its members in another order, and with the directory last. *)
Definition s_dir : res tar_member := Ok (c_member TDirectory (b "d/") 493 None []).
Definition s_file : res tar_member := Ok (c_member TRegular (b "d/f") 420 None (b "hello")).
Definition s_link : res tar_member := Ok (c_member TSymlink (b "a") 511 (Some (b "d/f")) []).
Definition s_pax : res tar_member := Ok (c_member TXHeader (b "PaxHeaders/d") 420 None []).
Definition s_one : list (res tar_member) := [s_pax; s_dir; s_file; s_link].
Definition s_two : list (res tar_member) := [s_link; s_dir; s_pax; s_file].
Definition s_late : list (res tar_member) := [s_pax; s_file; s_link; s_dir].

Lemma s_unique m m' p : tar_has_member s_one m p -> tar_has_member s_one m' p -> m = m'.
Proof.
  intros (Hi & He & Hp) (Hi' & He' & Hp'). unfold s_one in Hi, Hi'. cbn [In] in Hi, Hi'.
  repeat (destruct Hi as [E|Hi]; [injection E as <-|]); try contradiction; try (exfalso; apply He; right; right; now left);
    repeat (destruct Hi' as [E|Hi']; [injection E as <-|]); try contradiction; try (exfalso; apply He'; right; right; now left); try reflexivity;
    apply c_member_path in Hp, Hp'; exfalso; rewrite <- Hp in Hp'; vm_compute in Hp'; discriminate Hp'.
Qed.
Lemma s_first items : items = s_one \/ items = s_two -> dirs_first tar_at items.
Proof.
  intros H. apply first_pairs. destruct H as [-> | ->]; [unfold s_one|unfold s_two]; repeat constructor.
  all: intros p p' (m & E & Hx & Hp) (m' & E' & Hx' & Hp'); injection E as <-; injection E' as <-.
  all: try (exfalso; apply Hx; right; right; now left); try (exfalso; apply Hx'; right; right; now left).
  all: apply c_member_path in Hp, Hp'; subst p p'; intros (x & t & E); vm_compute in E; discriminate E.
Qed.
Lemma s_ran items : snd (tar_main t_opts (Ok (Some (Ok items))) true) = Ok tt ->
  tar_main t_opts (Ok (Some (Ok items))) true = (fst (tar_main t_opts (Ok (Some (Ok items))) true), Ok tt).
Proof. intros H. destruct (tar_main t_opts (Ok (Some (Ok items))) true) as [e r]. cbn [fst snd] in *. now subst r. Qed.

Example C106_meets_hypotheses : exists evs1 evs2 a1 a2,
  tar_main t_opts (Ok (Some (Ok s_one))) true = (evs1, Ok tt) /\ In (CWritten (b "x.arx") a1) evs1 /\
  tar_main t_opts (Ok (Some (Ok s_two))) true = (evs2, Ok tt) /\ In (CWritten (b "x.arx") a2) evs2 /\
  Permutation s_one s_two /\ s_one <> s_two /\ length (a_recs a1) = 3%nat /\ same_table a1 a2.
Proof.
  exists (fst (tar_main t_opts (Ok (Some (Ok s_one))) true)), (fst (tar_main t_opts (Ok (Some (Ok s_two))) true)), (c_tar s_one), (c_tar s_two).
  assert (R1 : tar_main t_opts (Ok (Some (Ok s_one))) true = (fst (tar_main t_opts (Ok (Some (Ok s_one))) true), Ok tt)) by (apply s_ran; vm_compute; reflexivity).
  assert (R2 : tar_main t_opts (Ok (Some (Ok s_two))) true = (fst (tar_main t_opts (Ok (Some (Ok s_two))) true), Ok tt)) by (apply s_ran; vm_compute; reflexivity).
  assert (W1 : In (CWritten (b "x.arx") (c_tar s_one)) (fst (tar_main t_opts (Ok (Some (Ok s_one))) true))) by (vm_compute; right; left; reflexivity).
  assert (W2 : In (CWritten (b "x.arx") (c_tar s_two)) (fst (tar_main t_opts (Ok (Some (Ok s_two))) true))) by (vm_compute; right; left; reflexivity).
  assert (Hp : Permutation s_one s_two).
  { unfold s_one, s_two. apply Permutation_trans with [s_link; s_pax; s_dir; s_file]; [|apply perm_skip, perm_swap].
    exact (Permutation_sym (Permutation_cons_append [s_pax; s_dir; s_file] s_link)). }
  split; [exact R1|]. split; [exact W1|]. split; [exact R2|]. split; [exact W2|]. split; [exact Hp|]. split; [intros HH; injection HH as HH; discriminate HH|].
  split; [vm_compute; reflexivity|].
  apply (C106_tar_order _ _ _ _ _ _ _ _ _ _ _ _ R1 W1 ltac:(vm_compute; reflexivity) R2 W2 ltac:(vm_compute; reflexivity) Hp s_unique); apply s_first; auto.
Qed.

(** Refuted when a directory comes after something in it. *)
Theorem C106_late_refuted : exists o items1 evs1 out1 a1 items2 evs2 out2 a2,
  tar_main o (Ok (Some (Ok items1))) true = (evs1, Ok tt) /\ In (CWritten out1 a1) evs1 /\ N.of_nat (length (a_recs a1)) < 2^32 /\
  tar_main o (Ok (Some (Ok items2))) true = (evs2, Ok tt) /\ In (CWritten out2 a2) evs2 /\ N.of_nat (length (a_recs a2)) < 2^32 /\
  Permutation items1 items2 /\ (forall m m' p, tar_has_member items1 m p -> tar_has_member items1 m' p -> m = m') /\
  dirs_first tar_at items1 /\ ~ same_table a1 a2.
Proof.
  exists t_opts, s_one, (fst (tar_main t_opts (Ok (Some (Ok s_one))) true)), (b "x.arx"), (c_tar s_one), s_late, (fst (tar_main t_opts (Ok (Some (Ok s_late))) true)), (b "x.arx"), (c_tar s_late).
  split; [apply s_ran; vm_compute; reflexivity|]. split; [vm_compute; right; left; reflexivity|]. split; [vm_compute; reflexivity|].
  split; [apply s_ran; vm_compute; reflexivity|]. split; [vm_compute; right; left; reflexivity|]. split; [vm_compute; reflexivity|].
  split; [unfold s_one, s_late; apply perm_skip; exact (Permutation_cons_append [s_file; s_link] s_dir)|].
  split; [exact s_unique|]. split; [apply s_first; now left|].
  intros (_ & _ & H). assert (E : map r_owner (a_recs (c_tar s_one)) = map r_owner (a_recs (c_tar s_late))).
  { clear - H. revert H. generalize (a_fetch (c_tar s_one)) (a_fetch (c_tar s_late)). intros f1 f2 H. induction H as [|r1 r2 l1 l2 (_ & _ & E & _) _ IH]; [reflexivity|]. cbn [map]. now rewrite E, IH. }
  vm_compute in E. discriminate E.
Qed.
Print Assumptions C106_late_refuted.

(** Any permutation of the members of a zip, each for another path. *)
Theorem C106_zip_order : forall o1 items1 file evs1 out1 a1 o2 items2 evs2 out2 a2 can1 can2,
  zip_main o1 (Ok (Some items1)) (Ok file) can1 = (evs1, Ok tt) -> In (CWritten out1 a1) evs1 -> N.of_nat (length (a_recs a1)) < 2^32 ->
  zip_main o2 (Ok (Some items2)) (Ok file) can2 = (evs2, Ok tt) -> In (CWritten out2 a2) evs2 -> N.of_nat (length (a_recs a2)) < 2^32 ->
  (forall m, In (Some m) items1 -> zip_fitting file m) ->
  Permutation items1 items2 -> (forall m m' p, zip_has_member items1 m p -> zip_has_member items1 m' p -> m = m') ->
  dirs_first zip_at items1 -> dirs_first zip_at items2 -> same_table a1 a2.
Proof.
  intros o1 items1 file evs1 out1 a1 o2 items2 evs2 out2 a2 can1 can2 R1 W1 Z1 R2 W2 Z2 F Hp Hu D1 D2.
  assert (F2 : forall m, In (Some m) items2 -> zip_fitting file m) by (intros m Hi; apply F; exact (Permutation_in _ (Permutation_sym Hp) Hi)).
  apply (C106_zip _ _ _ _ _ _ _ _ _ _ _ _ _ _ R1 W1 F Z1 R2 W2 F2 Z2); auto. split.
  - intros p. split; intros (m & Hi & He); exists m; split; auto; [exact (Permutation_in _ Hp Hi)|exact (Permutation_in _ (Permutation_sym Hp) Hi)].
  - intros m1 m2 p H1 [Hi He]. assert (m1 = m2) as <-; [|unfold like_zip; tauto].
    apply (Hu m1 m2 p H1). split; auto. exact (Permutation_in _ (Permutation_sym Hp) Hi).
Qed.
Print Assumptions C106_zip_order.

(** The demonstration zip, its directory in the middle of the others. *)
Definition z_dir : option zip_member := Some (mkZip [] None (Some 16877) (b "d/") true 0 0 (Ok [])).
Definition z_f : option zip_member := Some (mkZip [Some 5; Some 7] (Some (Some 315532800%Z)) None (b "d/f") true 5 6 (Err EUtf8)).
Definition z_l : option zip_member := Some (mkZip [None] (Some (Some 315532800%Z)) (Some 41471) (b "./l") false 3 11 (Ok (b "d/f"))).
Definition z_two : list (option zip_member) := [z_l; z_dir; z_f].
Lemma z_first items : items = z_items \/ items = z_two -> dirs_first zip_at items.
Proof.
  intros H. apply first_pairs. destruct H as [-> | ->]; [unfold z_items|unfold z_two, z_dir, z_f, z_l]; repeat constructor.
  all: intros p p' (m & E & _ & Hp) (m' & E' & _ & Hp'); injection E as <-; injection E' as <-; vm_compute in Hp, Hp'; subst p p'; intros (x & t & E); discriminate E.
Qed.
Example C106_zip_meets : exists evs1 evs2 a1 a2,
  zip_main (z_opts CNone) (Ok (Some z_items)) (Ok z_file) true = (evs1, Ok tt) /\ In (CWritten (b "x.arx") a1) evs1 /\
  zip_main (z_opts (CZstd 5)) (Ok (Some z_two)) (Ok z_file) true = (evs2, Ok tt) /\ In (CWritten (b "x.arx") a2) evs2 /\
  Permutation z_items z_two /\ z_items <> z_two /\ length (a_recs a1) = 3%nat /\ same_table a1 a2.
Proof.
  exists (fst (zip_main (z_opts CNone) (Ok (Some z_items)) (Ok z_file) true)), (fst (zip_main (z_opts (CZstd 5)) (Ok (Some z_two)) (Ok z_file) true)),
    (match zip_main (z_opts CNone) (Ok (Some z_items)) (Ok z_file) true with ([_; CWritten _ a], _) => a | _ => demo_arx end),
    (match zip_main (z_opts (CZstd 5)) (Ok (Some z_two)) (Ok z_file) true with ([_; CWritten _ a], _) => a | _ => demo_arx end).
  match goal with |- ?A /\ ?B /\ ?C /\ ?D /\ _ => assert (R1 : A) by (vm_compute; reflexivity); assert (W1 : B) by (vm_compute; right; left; reflexivity);
    assert (R2 : C) by (vm_compute; reflexivity); assert (W2 : D) by (vm_compute; right; left; reflexivity) end.
  assert (Hp : Permutation z_items z_two) by exact (Permutation_sym (Permutation_cons_append [z_dir; z_f] z_l)).
  split; [exact R1|]. split; [exact W1|]. split; [exact R2|]. split; [exact W2|]. split; [exact Hp|]. split; [intros HH; injection HH as HH; discriminate HH|].
  split; [vm_compute; reflexivity|].
  refine (C106_zip_order _ _ _ _ _ _ _ _ _ _ _ _ _ R1 W1 _ R2 W2 _ _ Hp _ (z_first _ (or_introl eq_refl)) (z_first _ (or_intror eq_refl))).
  1,2: vm_compute; reflexivity.
  - exact (proj2 (proj2 C50_meets_hypotheses)).
  - intros m m' p [Hi [_ Hq]] [Hi' [_ Hq']]. unfold z_items in Hi, Hi'. cbn [In] in Hi, Hi'.
    repeat (destruct Hi as [E|Hi]; [injection E as <-|]); try contradiction; repeat (destruct Hi' as [E|Hi']; [injection E as <-|]); try contradiction; try reflexivity;
      exfalso; rewrite <- Hq in Hq'; vm_compute in Hq'; discriminate Hq'.
Qed.

(** A tar of user 0 and a zip with the same members in another order. *)
Definition tz_dir : tar_member := mkTar (Ok 0) (Ok 0) (Ok 0) (Ok 493) (Ok (b "d/")) TDirectory (Ok None) true (b "d/") (Ok []).
Definition tz_file : tar_member := mkTar (Ok 0) (Ok 0) (Ok 7) (Ok 420) (Ok (b "d/f")) TRegular (Ok None) true (b "d/f") (Ok (b "hello")).
Definition tz_top : tar_member := mkTar (Ok 0) (Ok 0) (Ok 7) (Ok 384) (Ok (b "t")) TRegular (Ok None) true (b "t") (Ok (b "top")).
Definition zt_dir : zip_member := mkZip [] None (Some 493) (b "d/") true 0 0 (Ok []).
Definition zt_file : zip_member := mkZip [Some 5; Some 7] (Some (Some 315532800%Z)) None (b "./d/f") true 5 6 (Err EUtf8).
Definition zt_top : zip_member := mkZip [Some 7] None (Some 384) (b "t") false 3 11 (Ok (b "top")).
Definition tz_tar : list (res tar_member) := [Ok tz_dir; Ok tz_file; Ok tz_top].
Definition tz_zip : list (option zip_member) := [Some zt_top; Some zt_dir; Some zt_file].
Lemma tz_at m p : In m [tz_dir; tz_file; tz_top] -> tar_path m p -> p = filter not_dot (pieces (match tm_path m with Ok s => s | _ => [] end)).
Proof. intros [<-|[<-|[<-|[]]]] (s & E & [_ <-] & _); cbn [tm_path tz_dir tz_file tz_top] in E; injection E as <-; reflexivity. Qed.
Lemma tz_member m p : tar_has_member tz_tar m p -> (m = tz_dir /\ p = [b "d"]) \/ (m = tz_file /\ p = [b "d"; b "f"]) \/ (m = tz_top /\ p = [b "t"]).
Proof.
  intros (Hi & _ & Hp). assert (H : In m [tz_dir; tz_file; tz_top]) by (destruct Hi as [E|[E|[E|[]]]]; injection E as <-; [now left|right; now left|right; right; now left]).
  apply tz_at in Hp; [|exact H]. subst p. destruct H as [<-|[<-|[<-|[]]]]; [left|right; left|right; right]; (split; [reflexivity|vm_compute; reflexivity]).
Qed.
Lemma zt_member m p : zip_has_member tz_zip m p -> (m = zt_dir /\ p = [b "d"]) \/ (m = zt_file /\ p = [b "d"; b "f"]) \/ (m = zt_top /\ p = [b "t"]).
Proof.
  intros ([E|[E|[E|[]]]] & _ & <-); injection E as <-; [right; right|left|right; left]; (split; [reflexivity|vm_compute; reflexivity]).
Qed.
Lemma tz_has : tar_has_member tz_tar tz_dir [b "d"] /\ tar_has_member tz_tar tz_file [b "d"; b "f"] /\ tar_has_member tz_tar tz_top [b "t"].
Proof.
  split; [|split]; (split; [unfold tz_tar; cbn [In]; tauto|split; [intros [H|[H|[H|H]]]; discriminate H|]]); eexists; (split; [reflexivity|]); (split; [split; vm_compute; reflexivity|repeat constructor; vm_compute; reflexivity]).
Qed.
Lemma zt_has : zip_has_member tz_zip zt_dir [b "d"] /\ zip_has_member tz_zip zt_file [b "d"; b "f"] /\ zip_has_member tz_zip zt_top [b "t"].
Proof. split; [|split]; (split; [unfold tz_zip; cbn [In]; tauto|split; vm_compute; reflexivity]). Qed.
Lemma not_slash s c : forall x, last s 0 = c -> c <> 47 -> s <> x ++ b "/".
Proof. intros x E H ->. change (b "/") with [47] in E. rewrite last_last in E. now apply H. Qed.
Lemma not_backslash s c : forall x, last s 0 = c -> c <> 92 -> s <> x ++ b "\".
Proof. intros x E H ->. change (b "\") with [92] in E. rewrite last_last in E. now apply H. Qed.

Definition tz_zipfile : bytes := b "......hello..................".
Lemma tz_both : tar_and_zip tz_tar tz_zipfile tz_zip.
Proof.
  destruct tz_has as (T1 & T2 & T3), zt_has as (Z1 & Z2 & Z3). split.
  - intros p. split; intros (m & H); [apply tz_member in H|apply zt_member in H]; destruct H as [[_ ->]|[[_ ->]|[_ ->]]]; eauto.
  - intros m1 m2 p H1 H2. apply tz_member in H1. apply zt_member in H2.
    destruct H1 as [[-> ->]|[[-> ->]|[-> ->]]], H2 as [[-> E]|[[-> E]|[-> E]]]; try discriminate E; clear E; split; try reflexivity; (split; [reflexivity|]).
    + split; [exists 493; split; [reflexivity|now left]|]. split; [exists 0; split; [reflexivity|right; split; [now left|left; split; reflexivity]]|].
      split; [split; intros _; [exists (b "d"); now left|now left]|]. split; [intros H; discriminate H|]. intros H. exfalso. apply H. now left.
    + split; [exists 420; split; [reflexivity|right; split; reflexivity]|]. split; [exists 7; split; [reflexivity|left; exists [Some 5]; reflexivity]|].
      split; [split; [intros [H|(_ & _ & H & _)]; discriminate H|intros (x & [H|H]); exfalso; revert H; [apply (not_slash _ 102)|apply (not_backslash _ 102)]; [vm_compute; reflexivity|discriminate|vm_compute; reflexivity|discriminate]]|].
      split; [intros H; discriminate H|]. intros _. exists (b "hello"). split; [reflexivity|]. split; [|reflexivity]. exists (b "......"), (b ".................."). repeat split.
    + split; [exists 384; split; [reflexivity|now left]|]. split; [exists 7; split; [reflexivity|left; exists []; reflexivity]|].
      split; [split; [intros [H|(_ & _ & H & _)]; discriminate H|intros (x & [H|H]); exfalso; revert H; [apply (not_slash _ 116)|apply (not_backslash _ 116)]; [vm_compute; reflexivity|discriminate|vm_compute; reflexivity|discriminate]]|].
      split; [intros H; discriminate H|]. intros _. exists (b "top"). split; [reflexivity|]. split; [reflexivity|reflexivity].
Qed.
Lemma tz_first : dirs_first tar_at tz_tar.
Proof.
  intros u x v y p p' E Hy (m & -> & Hx & Hp) (m' & -> & Hx' & Hp') (c & t & Epp).
  destruct (tz_member m p) as [[-> ->]|[[-> ->]|[-> ->]]]; [split; [rewrite E; apply in_or_app; right; now left|auto]|..];
    (destruct (tz_member m' p') as [[-> ->]|[[-> ->]|[-> ->]]]; [split; [rewrite E; apply in_or_app; now left|auto]|..]); try discriminate Epp.
  unfold tz_tar in E. destruct u as [|e u]; [destruct Hy|]. cbn [app] in E. injection E as _ E. destruct u as [|e' u]; [injection E as E; discriminate E|].
  injection E as _ E. destruct u as [|e'' u]; [discriminate E|]. injection E as _ E. destruct u; discriminate E.
Qed.
Lemma zt_first : dirs_first zip_at tz_zip.
Proof.
  intros u x v y p p' E Hy (m & -> & Hp) (m' & -> & Hp') (c & t & Epp).
  destruct (zt_member m p) as [[-> ->]|[[-> ->]|[-> ->]]]; [split; [rewrite E; apply in_or_app; right; now left|auto]|..];
    (destruct (zt_member m' p') as [[-> ->]|[[-> ->]|[-> ->]]]; [split; [rewrite E; apply in_or_app; now left|auto]|..]); try discriminate Epp.
  unfold tz_zip in E. destruct u as [|e u]; [discriminate E|]. cbn [app] in E. injection E as <- E. destruct u as [|e' u]; [destruct Hy as [Hy|[]]; discriminate Hy|].
  cbn [app] in E. injection E as _ E. destruct u as [|e'' u]; [discriminate E|]. injection E as _ E. destruct u; discriminate E.
Qed.
Example C106_tar_zip_meets : exists evs1 evs2 a1 a2,
  tar_main t_opts (Ok (Some (Ok tz_tar))) true = (evs1, Ok tt) /\ In (CWritten (b "x.arx") a1) evs1 /\
  zip_main (z_opts CNone) (Ok (Some tz_zip)) (Ok tz_zipfile) true = (evs2, Ok tt) /\ In (CWritten (b "x.arx") a2) evs2 /\
  length (a_recs a1) = 3%nat /\ same_table a1 a2.
Proof.
  exists (fst (tar_main t_opts (Ok (Some (Ok tz_tar))) true)), (fst (zip_main (z_opts CNone) (Ok (Some tz_zip)) (Ok tz_zipfile) true)), (c_tar tz_tar),
    (match zip_main (z_opts CNone) (Ok (Some tz_zip)) (Ok tz_zipfile) true with ([_; CWritten _ a], _) => a | _ => demo_arx end).
  match goal with |- ?A /\ ?B /\ ?C /\ ?D /\ _ => assert (R1 : A) by (vm_compute; reflexivity); assert (W1 : B) by (vm_compute; right; left; reflexivity);
    assert (R2 : C) by (vm_compute; reflexivity); assert (W2 : D) by (vm_compute; right; left; reflexivity) end.
  split; [exact R1|]. split; [exact W1|]. split; [exact R2|]. split; [exact W2|]. split; [vm_compute; reflexivity|].
  refine (C106_tar_zip _ _ _ _ _ _ _ _ _ _ _ _ _ R1 W1 _ R2 W2 _ _ tz_both tz_first zt_first).
  1,3: vm_compute; reflexivity.
  intros m [E|[E|[E|[]]]]; injection E as <-; intros H; [discriminate H|vm_compute; discriminate|vm_compute; discriminate].
Qed.
