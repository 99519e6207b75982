(** C65: what is archived decides the archive. *)
From Verif Require Export TableFacts SameReaders PropCreated.
From Coq Require Import Sorting.Permutation.

Lemma same_session l1 f1 a1 l2 f2 a2 : small l1 -> archive_of l1 f1 a1 -> small l2 -> archive_of l2 f2 a2 ->
  (forall p n1, has l1 p n1 -> exists n2, has l2 p n2 /\ like_node f1 n1 f2 n2) ->
  (forall p n2, has l2 p n2 -> exists n1, has l1 p n1) -> same_table a1 a2.
Proof.
  intros S1 E1 S2 E2 H12 H21. destruct (after_sim l1) as (m1 & I1 & R1 & _). destruct (after_sim l2) as (m2 & I2 & R2 & _).
  destruct (write_archive_ok _ m1 f1 I1 R1 S1) as (b1 & E1' & F1 & W1 & A1 & _ & O1).
  destruct (write_archive_ok _ m2 f2 I2 R2 S2) as (b2 & E2' & F2 & W2 & A2 & _ & O2).
  unfold archive_of, after in E1, E2. rewrite E1 in E1'. injection E1' as <-. rewrite E2 in E2'. injection E2' as <-.
  apply write_normal in E1 as N1. apply write_normal in E2 as N2.
  apply (erased_same_table a1 a2 m1 m2); auto. intros p.
  destruct (m1 p) as [n1|] eqn:M1.
  - apply R1 in M1. destruct (H12 p n1 M1) as (n2 & Hn2 & Hs). apply R2 in Hn2. rewrite Hn2, F1, F2. exact Hs.
  - destruct (m2 p) as [n2|] eqn:M2; auto. apply R2 in M2. destruct (H21 p n2 M2) as (n1 & Hn1). apply R1 in Hn1. congruence.
Qed.

(** Everything of the first sources is in the second ones, under the same archive path. *)
Definition covered (w1 : world) (in1 : list input) (w2 : world) (in2 : list input) : Prop :=
  forall p q1 n1, source_at w1 in1 p q1 n1 -> p <> [] ->
  exists q2 n2, source_at w2 in2 p q2 n2 /\ same_source w1 q1 n1 w2 q2 n2.

Lemma same_mirrors w1 q1 n1 c1 nd1 w2 q2 n2 c2 nd2 : same_source w1 q1 n1 w2 q2 n2 ->
  mirrors_as w1 q1 n1 c1 nd1 -> mirrors_as w2 q2 n2 c2 nd2 -> like_node (fetch_of c1) nd1 (fetch_of c2) nd2.
Proof.
  intros (E1 & E2 & E3 & E4 & Hn) (U1 & G1 & M1 & T1 & K1) (U2 & G2 & M2 & T2 & K2). destruct nd1 as [k1 [u1 g1 m1 t1]], nd2 as [k2 [u2 g2 m2 t2]].
  cbn [fst snd m_uid m_gid m_mode m_mtime] in *. split; cbn [fst snd]; [congruence|].
  destruct n1, n2; try easy; subst.
  - reflexivity.
  - destruct K1 as (ad1 & -> & F1), K2 as (ad2 & -> & F2). rewrite Hn in *. split; [reflexivity|congruence].
  - reflexivity.
Qed.

Lemma not_source_and_made inputs w p q n : apart inputs -> source_at w inputs p q n -> ~ made_above inputs p.
Proof.
  intros Ha (x & t & Hx & -> & _ & _) (Hne & y & z & u & Hy & E). rewrite <- app_assoc in E.
  destruct (ForallOrdPairs_In Ha x y Hx Hy) as [<-|[H|H]].
  - apply (f_equal (@length _)) in E. rewrite !app_length in E. cbn [length] in E. lia.
  - destruct H as [H _]. now apply (H (t ++ z :: u)).
  - destruct H as [_ H]. now apply (H (t ++ z :: u)).
Qed.

Lemma covered_entries w1 o1 v1 in1 a1 w2 o2 v2 in2 a2 l1 c1 l2 c2 : created_archive w1 o1 v1 in1 a1 -> created_archive w2 o2 v2 in2 a2 ->
  archives v1 in1 l1 c1 -> archives v2 in2 l2 c2 -> covered v1 in1 v2 in2 -> covered v2 in2 v1 in1 ->
  forall p nd1, has l1 p nd1 -> exists nd2, has l2 p nd2 /\ like_node (fetch_of c1) nd1 (fetch_of c2) nd2.
Proof.
  intros (P1 & _) (P2 & _) A1 A2 C12 C21 p nd1 Hh. pose proof (has_nonempty _ _ _ Hh) as Hne.
  destruct (stored_source _ _ _ _ A1 _ _ Hh) as [(q & n & Hs & Hm)|[-> Hmade]].
  - destruct (C12 p q n Hs Hne) as (q2 & n2 & Hs2 & Hsame). destruct (source_stored _ _ _ _ A2 _ _ _ Hs2 Hne) as (nd2 & Hh2 & Hm2).
    exists nd2. split; auto. eapply same_mirrors; eauto.
  - pose proof Hmade as (_ & x & y & t & Hx & Ex).
    assert (Hs : source_at v1 in1 (in_path x) (in_root x) (in_node x)).
    { exists x, []. rewrite !app_nil_r. cbn [at_input]. auto. }
    assert (Hnx : in_path x <> []) by (rewrite Ex; now destruct p).
    destruct (C12 _ _ _ Hs Hnx) as (q2 & n2 & Hs2 & _). destruct (source_stored _ _ _ _ A2 _ _ _ Hs2 Hnx) as (nd2 & Hh2 & _).
    rewrite Ex in Hh2. destruct (exists_last (l := y :: t)) as (t' & z & Et); [easy|]. rewrite Et in Hh2.
    destruct (has_closed _ _ _ _ _ Hh2 Hne) as (mt & Hd). exists (KDir, mt). split; auto.
    destruct (stored_source _ _ _ _ A2 _ _ Hd) as [(q3 & n3 & Hs3 & _)|[E _]].
    + destruct (C21 _ _ _ Hs3 Hne) as (q4 & n4 & Hs4 & _). exfalso. eapply not_source_and_made; [apply (pr_apart _ _ _ _ P1)|exact Hs4|exact Hmade].
    + injection E as ->. split; reflexivity.
Qed.

(** Two runs of [arx create], on any hosts, with any options and any inputs in any order, that are given
    the same things under the same archive paths write the same table (records, order, metadata,
    directories, root) with the same contents. *)
Theorem C65_same_sources : forall w1 o1 v1 in1 a1 w2 o2 v2 in2 a2,
  created_archive w1 o1 v1 in1 a1 -> created_archive w2 o2 v2 in2 a2 ->
  covered v1 in1 v2 in2 -> covered v2 in2 v1 in1 -> same_table a1 a2.
Proof.
  intros w1 o1 v1 in1 a1 w2 o2 v2 in2 a2 K1 K2 C12 C21.
  destruct (created_session _ _ _ _ _ K1) as (l1 & c1 & S1 & E1 & A1). destruct (created_session _ _ _ _ _ K2) as (l2 & c2 & S2 & E2 & A2).
  apply (same_session l1 (fetch_of c1) a1 l2 (fetch_of c2) a2); auto.
  - exact (covered_entries w1 o1 v1 in1 a1 w2 o2 v2 in2 a2 l1 c1 l2 c2 K1 K2 A1 A2 C12 C21).
  - intros p n2 H. destruct (covered_entries w2 o2 v2 in2 a2 w1 o1 v1 in1 a1 l2 c2 l1 c1 K2 K1 A2 A1 C21 C12 p n2 H) as (n1 & Hn1 & _). eauto.
Qed.
Print Assumptions C65_same_sources.

(** In particular the order of the inputs, the order in which the host lists directories, the output file and the
    concatenation mode do not count. *)
Theorem C65_order_irrelevant : forall w1 o1 v1 in1 a1 w2 o2 v2 in2 a2,
  created_archive w1 o1 v1 in1 a1 -> created_archive w2 o2 v2 in2 a2 ->
  w_fs v1 = w_fs v2 -> (forall q, w_attr v1 q = w_attr v2 q) -> Permutation in1 in2 -> same_table a1 a2.
Proof.
  intros w1 o1 v1 in1 a1 w2 o2 v2 in2 a2 K1 K2 Ef Ea Hp.
  assert (G : forall u1 u2 i1 i2, w_fs u1 = w_fs u2 -> (forall q, w_attr u1 q = w_attr u2 q) -> Permutation i1 i2 -> covered u1 i1 u2 i2).
  { intros u1 u2 i1 i2 E1 E2 Hp' p q n (x & t & Hx & -> & -> & Hat) _. exists (in_root x ++ t), n. split.
    - exists x, t. split; [eapply Permutation_in; eauto|]. split; auto. split; auto. destruct t; cbn [at_input] in *; auto. now rewrite <- E1.
    - unfold same_source. rewrite E1, E2. repeat split; auto. now destruct n. }
  eapply C65_same_sources; eauto. apply G; auto using Permutation_sym; symmetry; auto.
Qed.
Print Assumptions C65_order_irrelevant.

(** Nothing a reader does depends on where the contents are stored: two archives with the same table (created or
    not) give the same listings, dumps, extractions and mounts, on every input. *)
Theorem C65_readers_agree : forall a1 a2, same_table a1 a2 ->
  (forall s, list_cmd a1 s = list_cmd a2 s) /\
  (forall w p out, dump w a1 p out = dump w a2 p out) /\
  (forall w od files fl root rc pol sched last,
     extract_cmd w a1 od files fl root rc pol sched last = extract_cmd w a2 od files fl root rc pol sched last) /\
  (forall d, Fuse.mount_range a1 d = Fuse.mount_range a2 d) /\
  (forall root l, snd (Fuse.serve a1 root Fuse.fs_new l) = snd (Fuse.serve a2 root Fuse.fs_new l)).
Proof.
  intros a1 a2 H. split; [now apply list_same|]. split; [now apply dump_same|]. split; [now apply extract_same|]. split; [now apply mount_same|].
  intros root l. f_equal. now apply serve_same.
Qed.
Print Assumptions C65_readers_agree.

(** The listing order of the host. *)
Lemma tree_relisted w l root depth : source_tree w root depth -> (forall q names, w_list w q = Some names -> exists names', l q = Some names' /\ Permutation names names') ->
  source_tree (mkWorld (w_fs w) (w_attr w) l (w_cwd w)) root depth.
Proof.
  intros [H1 H2 H3 H4 H5 H6] Hl. constructor; cbn [w_fs w_attr w_list]; auto.
  intros p Hp. destruct (H2 p Hp) as (names & E & Hnd & Hn). destruct (Hl _ _ E) as (names' & E' & HP). exists names'. split; auto.
  split; [eapply Permutation_NoDup; eauto|]. intros n. rewrite <- Hn. split; apply Permutation_in; auto using Permutation_sym.
Qed.

Definition turned_list (q : path) : option (list bytes) := option_map (@rev bytes) (src_list q).
Definition turned_world : world := mkWorld src_fs src_attr turned_list [b "h"].
Definition o_turned : create_opts := mkOpts false (b "other.arx") None (Some (b "src/..")) [b "./ln/"; b "src/a/f.txt"] None true None false false.

Example C65_proper : proper turned_world o_two turned_world two_inputs /\ proper src_world o_turned src_world (rev two_inputs).
Proof.
  assert (Ho : forall l, forallb ordinaryb l = true -> Forall ordinary l).
  { intros l H. apply Forall_forall. intros x Hx. apply ordinaryb_spec. rewrite forallb_forall in H. auto. }
  split; constructor; try reflexivity.
  - exists []. reflexivity.
  - exists [b "h"], (b "out.arx"). split; [reflexivity|]. split; [eexists; vm_compute; reflexivity|].
    intros (q & n & H). vm_compute in H. discriminate H.
  - split; [vm_compute; reflexivity|reflexivity].
  - constructor; [|constructor; [|constructor]].
    + split; [vm_compute; auto|]. split; [reflexivity|]. split; [now apply Ho|]. split; [reflexivity|]. split; [discriminate|]. split; reflexivity.
    + split; [vm_compute; auto|]. split; [reflexivity|]. split; [now apply Ho|]. split; [reflexivity|].
      apply (tree_relisted src_world turned_list src_root 2 src_tree). intros q names E. unfold turned_list. cbn [src_world w_list] in E. rewrite E.
      eexists. split; [reflexivity|apply Permutation_rev].
  - constructor; [constructor; [|constructor]|constructor; [constructor|constructor]]. split; intros t H; discriminate H.
  - exists []. reflexivity.
  - exists [b "h"], (b "other.arx"). split; [reflexivity|]. split; [eexists; vm_compute; reflexivity|].
    intros (q & n & H). vm_compute in H. discriminate H.
  - split; [vm_compute; reflexivity|reflexivity].
  - constructor; [|constructor; [|constructor]].
    + split; [vm_compute; auto|]. split; [reflexivity|]. split; [now apply Ho|]. split; [reflexivity|]. exact src_tree.
    + split; [vm_compute; auto|]. split; [reflexivity|]. split; [now apply Ho|]. split; [reflexivity|]. split; [discriminate|]. split; reflexivity.
  - constructor; [constructor; [|constructor]|constructor; [constructor|constructor]]. split; intros t H; discriminate H.
Qed.

(** The two archives of the same sources are not equal: the contents are stored at other addresses. *)
Example C65_meets_hypotheses : exists a1 a2, created_archive turned_world o_two turned_world two_inputs a1 /\
  created_archive src_world o_turned src_world (rev two_inputs) a2 /\
  w_fs turned_world = w_fs src_world /\ (forall q, w_attr turned_world q = w_attr src_world q) /\ Permutation two_inputs (rev two_inputs) /\
  a_recs a1 <> a_recs a2.
Proof.
  eexists. eexists. split.
  { split; [apply C65_proper|]. split; [|exists 3%nat; eexists; split; [repeat constructor|]; split; [vm_compute; reflexivity|right; left; reflexivity]].
    vm_compute. reflexivity. }
  split.
  { split; [apply C65_proper|]. split; [|exists 3%nat; eexists; split; [repeat constructor|]; split; [vm_compute; reflexivity|right; left; reflexivity]].
    vm_compute. reflexivity. }
  split; [reflexivity|]. split; [reflexivity|]. split; [apply Permutation_rev|]. vm_compute. discriminate.
Qed.
