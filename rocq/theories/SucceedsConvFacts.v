(** When a sequence of members is accepted. *)
From Verif Require Export SpecSucceedsConv SucceedsFacts ConvertSession.

Local Ltac bad := let H := fresh in intros H; discriminate H.

(** The map after members at the paths [t]. *)
Record tinv (t : list (path * bool)) (m : pmap) : Prop := {
  ti_root : m [] = None;
  ti_named : forall p d, In (p, d) t -> p <> [];
  ti_here : forall p d, In (p, d) t -> exists nd, m p = Some nd /\ is_dir_node nd = d;
  ti_above : forall p d q, In (p, d) t -> q <> [] -> proper_prefix q p -> exists nd, m q = Some nd /\ is_dir_node nd = true;
  ti_from : forall p nd, m p = Some nd -> In (p, is_dir_node nd) t \/ (is_dir_node nd = true /\ exists q d, In (q, d) t /\ proper_prefix p q) }.

Definition entry_is (e : entry) (p : path) (d : bool) : Prop :=
  pieces (e_path e) = p /\ dotless p /\ exists k, e_kind e = Ok (Some k) /\ is_kdir k = d.
Definition goes_with (t : list (path * bool)) (p : path) (d : bool) : Prop :=
  has_last_name p /\ forall q d', In (q, d') t -> (q = p -> d = true /\ d' = true) /\ (proper_prefix q p -> d' = true) /\ (proper_prefix p q -> d = true).

Lemma take_one st m t e p d : cinv st -> represents st m -> tinv t m -> entry_is e p d ->
  let (st', o) := add_entry st e in
  (o = Ok tt <-> goes_with t p d) /\
  (o = Ok tt -> exists m', cinv st' /\ represents st' m' /\ tinv (t ++ [(p, d)]) m').
Proof.
  intros Hci Hre [I0 IN I1 I2 I3] (Hep & Hdot & k & Hk & Hkd).
  pose proof (add_entry_sim st m e Hci Hre) as Hsim. destruct (add_entry st e) as [st' o].
  destruct (rev p) as [|x d'] eqn:Erev.
  { assert (p = []) as Hp by (rewrite <- (rev_involutive p), Erev; reflexivity). subst p.
    assert (o <> Ok tt).
    { intros ->. unfold spec_add_entry, spec_add in Hsim. rewrite Hk in Hsim. unfold last_of in Hsim. rewrite Hp in Hsim. cbn [drop_dots filter rev] in Hsim.
      destruct (blocked m (dir_of (e_path e))); destruct Hsim as (_ & _ & Hsim); discriminate Hsim. }
    split; [split; [contradiction|]|contradiction]. intros [(d0 & n & E & _) _]. rewrite Hp in E. now destruct d0. }
  assert (Epd : p = rev d' ++ [x]) by (rewrite <- (rev_involutive p), Erev; reflexivity). set (dir := rev d') in *. clearbody dir. clear Erev d'.
  assert (Hp : p <> []) by (rewrite Epd; now destruct dir).
  destruct (dotless_split (e_path e) dir x) as [Hd Hlast]; [congruence|congruence|].
  assert (Hlast2 : x = b ".." -> last_of (e_path e) = None).
  { intros ->. unfold last_of. rewrite Hep, drop_dots_dotless, Epd, rev_app_distr by exact Hdot. reflexivity. }
  pose proof (SucceedsFacts.step m e dir x (Some k) (represents_closed _ _ Hci Hre) Hd Hk (conj Hlast Hlast2)) as Hstep.
  destruct (spec_add_entry m e) as [m' o']. destruct Hsim as (Hci' & Hre' & <-). destruct Hstep as [Hiff Hok]. rewrite <- Epd in *.
  split.
  - rewrite Hiff. split.
    + intros [Hb Hk0]. destruct (Hk0 k eq_refl) as [Hx Hold]. rewrite blocked_false in Hb. split; [exists dir, x; auto|]. intros q dq Hin. split; [|split].
      * intros ->. destruct (I1 p dq Hin) as (nd & Hm & <-). destruct (Hold nd Hm). split; congruence.
      * intros (y & r & E). destruct (I1 q dq Hin) as (nd & Hm & <-). apply (Hb q nd (IN q _ Hin)); [|exact Hm]. apply is_prefix_iff.
        destruct (exists_last (l := y :: r)) as (r1 & z & Er); [discriminate|]. rewrite Er, app_assoc, Epd in E. apply app_inj_tail in E as [E _]. eauto.
      * intros Hpq. destruct (I2 q dq p Hin Hp Hpq) as (nd & Hm & Hnd). destruct (Hold nd Hm). congruence.
    + intros [Hl Hall]. split.
      * destruct (blocked m dir) eqn:Eb; [|reflexivity]. exfalso. apply blocked_true in Eb as (q0 & nd & Hq0 & Hpre & Hm & Hnd). apply is_prefix_iff in Hpre as [r0 Hr0].
        destruct (I3 q0 nd Hm) as [J|[J _]]; [|congruence]. destruct (Hall _ _ J) as (_ & H & _). rewrite Hnd in H. assert (false = true); [|discriminate]. apply H.
        destruct r0 as [|y r0]; [exists x, []|exists y, (r0 ++ [x])]; rewrite Epd, Hr0; [now rewrite app_nil_r|now rewrite <- app_assoc].
      * intros k0 E. injection E as <-. split.
        -- destruct Hl as (d0 & n & E & Hn). rewrite Epd in E. apply app_inj_tail in E as [_ ->]. exact Hn.
        -- intros old Hold. destruct (I3 p old Hold) as [J|(J1 & q & dq & J2 & J3)].
           ++ destruct (Hall _ _ J) as (H & _). destruct (H eq_refl). split; congruence.
           ++ destruct (Hall _ _ J2) as (_ & _ & H). split; [rewrite Hkd; now apply H|exact J1].
  - intros Hot. destruct (Hok Hot) as (M1 & M2 & M3 & M4). exists m'. split; [exact Hci'|]. split; [exact Hre'|]. split.
    + destruct (m' []) as [nd|] eqn:E0; [|reflexivity]. exfalso. destruct (M4 [] nd E0) as [H0|[[H0 _]|[H0 _]]]; [congruence|now apply Hp|now destruct H0].
    + intros q dq Hin. apply in_app_iff in Hin as [Hin|[Hin|[]]]; [exact (IN q dq Hin)|]. injection Hin as <- <-. exact Hp.
    + intros q dq Hin. apply in_app_iff in Hin as [Hin|[Hin|[]]].
      * destruct (I1 q dq Hin) as (nd & Hm & Hnd). exists nd. auto.
      * injection Hin as <- <-. destruct (M3 k eq_refl) as (nd & Hm & Hnd). exists nd. split; [exact Hm|congruence].
    + intros q dq q0 Hin Hq0 Hpre. apply in_app_iff in Hin as [Hin|[Hin|[]]].
      * destruct (I2 q dq q0 Hin Hq0 Hpre) as (nd & Hm & Hnd). exists nd. auto.
      * injection Hin as <- <-. destruct Hpre as (y & r & E). apply M2; [exact Hq0|].
        destruct (exists_last (l := y :: r)) as (r1 & z & Er); [discriminate|]. rewrite Er, app_assoc, Epd in E. apply app_inj_tail in E as [E _]. eauto.
    + intros q nd H0. destruct (M4 q nd H0) as [H1|[(-> & k0 & E & Hnd)|(Hq & (r0 & Hr0) & Hnd)]].
      * destruct (I3 q nd H1) as [J|(J1 & q1 & dq & J2 & J3)]; [left; apply in_app_iff; now left|]. right. split; [exact J1|]. exists q1, dq. split; [apply in_app_iff; now left|exact J3].
      * injection E as <-. left. apply in_app_iff. right. left. congruence.
      * right. split; [exact Hnd|]. exists p, d. split; [apply in_app_iff; right; now left|].
        destruct r0 as [|y r0]; [exists x, []|exists y, (r0 ++ [x])]; rewrite Epd, Hr0; [now rewrite app_nil_r|now rewrite <- app_assoc].
Qed.

Lemma tinv_nil : tinv [] empty_map.
Proof. split; [reflexivity|intros p d []|intros p d []|intros p d q []|intros p nd H; discriminate H]. Qed.

Section Members.
  Variable M : Type.
  Variable conv : M -> list bytes -> res (list bytes * option entry).
  Variable skipped : M -> Prop.
  Variable one : M -> path -> bool -> Prop.
  Inductive members : list M -> list (path * bool) -> Prop :=
  | ms_nil : members [] []
  | ms_skip l t x : members l t -> skipped x -> members (l ++ [x]) t
  | ms_one l t x p d : members l t -> one x p d -> members (l ++ [x]) (t ++ [(p, d)]).

  Lemma members_accepted :
    (forall x, skipped x -> forall l, exists l', conv x l = Ok (l', None)) ->
    (forall x p d, one x p d -> forall l, exists l' e, conv x l = Ok (l', Some e) /\ entry_is e p d) ->
    forall items t, members items t -> no_clash t -> exists c m, loop M conv items creator_empty = (c, Ok tt) /\ cinv (cr_entries c) /\ represents (cr_entries c) m /\ tinv t m.
  Proof.
    intros Hskip Hone items t H. induction H as [|l t x H IH Hx|l t x p d H IH Hx]; intros Hnc.
    - exists creator_empty, empty_map. split; [reflexivity|]. split; [exact cinv_new|]. split; [exact represents_new|exact tinv_nil].
    - destruct (IH Hnc) as (c & m & E & H1 & H2 & H3). rewrite loop_app, E. cbn [loop]. destruct (Hskip x Hx (cr_contents c)) as [l' ->].
      exists (mkCreator (cr_entries c) l'), m. auto.
    - inversion Hnc as [E0|t0 p0 d0 Hnc0 Hl Hall E0]; [destruct t; discriminate E0|]. apply app_inj_tail in E0 as [-> E0]. injection E0 as -> ->.
      destruct (IH Hnc0) as (c & m & E & H1 & H2 & H3). rewrite loop_app, E. cbn [loop]. destruct (Hone x p d Hx (cr_contents c)) as (l' & e & -> & He).
      pose proof (take_one (cr_entries c) m t e p d H1 H2 H3 He) as Ht. destruct (add_entry (cr_entries c) e) as [st o]. destruct Ht as [Hiff Hnext].
      assert (o = Ok tt) as ->. { apply Hiff. split; assumption. }
      destruct (Hnext eq_refl) as (m' & G1 & G2 & G3). exists (mkCreator st l'), m'. auto.
  Qed.

  Lemma accepted_members :
    (forall x l l', conv x l = Ok (l', None) -> skipped x) ->
    (forall x l l' e, conv x l = Ok (l', Some e) -> exists p d, one x p d /\ entry_is e p d) ->
    forall items c, loop M conv items creator_empty = (c, Ok tt) -> exists t m, members items t /\ no_clash t /\ cinv (cr_entries c) /\ represents (cr_entries c) m /\ tinv t m.
  Proof.
    intros Hskip Hone. induction items as [|x items IH] using rev_ind; intros c H.
    - injection H as <-. exists [], empty_map. split; [constructor|]. split; [constructor|]. split; [exact cinv_new|]. split; [exact represents_new|exact tinv_nil].
    - rewrite loop_app in H. destruct (loop M conv items creator_empty) as [c1 r1]. destruct r1 as [[]| | |]; try discriminate H. destruct (IH c1 eq_refl) as (t & m & H1 & H2 & H3 & H4 & H5).
      cbn [loop] in H. destruct (conv x (cr_contents c1)) as [[l' [e|]]| | |] eqn:Ec; try discriminate H.
      + destruct (Hone x _ _ _ Ec) as (p & d & Hx & He). pose proof (take_one (cr_entries c1) m t e p d H3 H4 H5 He) as Ht. destruct (add_entry (cr_entries c1) e) as [st o]. destruct Ht as [Hiff Hnext].
        destruct o as [[]| | |]; try discriminate H. injection H as <-. destruct (Hnext eq_refl) as (m' & G1 & G2 & G3). destruct (proj1 Hiff eq_refl) as [Hl Hall].
        exists (t ++ [(p, d)]), m'. split; [now constructor|]. split; [now constructor|]. auto.
      + injection H as <-. exists t, m. split; [constructor; [exact H1|eapply Hskip; exact Ec]|]. auto.
  Qed.
End Members.

Lemma finalize_inv c : cinv (cr_entries c) -> exists a, finalize c = Some a.
Proof. intros H. unfold finalize, write_archive. destruct (layout_ok (cr_entries c) H) as (ord & -> & _). eauto. Qed.

(** ** tar *)
Definition tar_skipped (x : res tar_member) : Prop := exists m, x = Ok m /\ tar_readable m /\ tar_extension m.
Definition tar_one (x : res tar_member) (p : path) (d : bool) : Prop :=
  exists m, x = Ok m /\ tar_readable m /\ ~ tar_extension m /\ tar_path m p /\ (d = true <-> tar_directory m).

Lemma tar_lists_iff items t : tar_lists items t <-> members _ tar_skipped tar_one items t.
Proof.
  split.
  - induction 1 as [|l t m H IH Hr He|l t m p d H IH Hr He Hp Hd]; [constructor|constructor; [exact IH|exists m; auto]|constructor; [exact IH|exists m; auto]].
  - induction 1 as [|l t x H IH (m & -> & Hr & He)|l t x p d H IH (m & -> & Hr & He & Hp & Hd)]; [constructor|now constructor|now constructor].
Qed.

Lemma tar_conv_reads x l l' oe : tar_conv x l = Ok (l', oe) -> exists m, x = Ok m /\ (exists p, tar_path m p) /\ exists mt, tar_meta m mt.
Proof.
  unfold tar_conv. destruct x as [m| | |]; cbn [bind]; try bad. unfold tar_entry.
  destruct (tm_uid m) as [uid| | |] eqn:E1; cbn [bind]; try bad.
  destruct (tm_gid m) as [gid| | |] eqn:E2; cbn [bind]; try bad.
  destruct (tm_mtime m) as [mtime| | |] eqn:E3; cbn [bind]; try bad.
  destruct (tm_mode m) as [mode| | |] eqn:E4; cbn [bind]; try bad.
  destruct (tm_path m) as [raw| | |] eqn:E5; cbn [bind]; try bad.
  destruct (from_path raw) as [p| | |] eqn:E6; cbn [bind unwrap]; try bad. intros _.
  destruct (from_path_means raw p E6) as (P1 & P2 & P3). exists m. split; [reflexivity|]. split; [exists (pieces p), raw; auto|]. exists (mkMeta uid gid mode mtime). repeat split; assumption.
Qed.

Lemma kdir_iff k : is_kdir k = true <-> k = KDir.
Proof. destruct k; split; try bad; reflexivity. Qed.
Lemma same_bool (x y : bool) P : (x = true <-> P) -> (y = true <-> P) -> x = y.
Proof. intros H1 H2. destruct x, y; try reflexivity; [symmetry; apply H2, H1|apply H1, H2]; reflexivity. Qed.

Lemma tar_loop_iff items c r : tar_members items creator_empty = (c, r) -> (r = Ok tt <-> exists t, tar_lists items t /\ no_clash t) /\ (r = Ok tt -> exists a, finalize c = Some a).
Proof.
  rewrite tar_loop. intros H.
  assert (G : r = Ok tt -> (exists t, tar_lists items t /\ no_clash t) /\ exists a, finalize c = Some a).
  - intros ->. destruct (accepted_members _ tar_conv tar_skipped tar_one) with (items := items) (c := c) as (t & m & H1 & H2 & Hci & _); [| |exact H|].
    + intros x l l' E. destruct (tar_made x l l' None E) as [_ (m & -> & He)]. destruct (tar_conv_reads _ _ _ _ E) as (m' & Em & Hp & Hm). injection Em as <-.
      exists m. split; [reflexivity|]. split; [|exact He]. split; [exact Hp|]. split; [exact Hm|]. split.
      * intros Hl. unfold tar_link in Hl. unfold tar_extension in He. rewrite Hl in He. destruct He as [He|[He|[He|He]]]; discriminate He.
      * intros [Hf _]. contradiction.
    + intros x l l' e E. destruct (tar_made x l l' (Some e) E) as [_ (k & Hk & Hdot & m & -> & He & Hp & Hb)]. pose proof (tar_kind_dir m _ _ Hb) as Hkd. cbn [fst] in Hkd.
      exists (pieces (e_path e)), (is_kdir k). split; [|split; [reflexivity|split; [exact Hdot|exists k; auto]]].
      exists m. split; [reflexivity|]. split; [|split; [exact He|split; [exact Hp|]]].
      * destruct Hb as [Hm Hb]. split; [eauto|]. split; [eauto|]. split.
        -- intros Hl. destruct Hb as [[Hd _]|[(_ & t & Ht & _)|((_ & _ & Hn) & _)]]; [|eauto|contradiction]. exfalso. unfold tar_link in Hl. destruct Hd as [Hd|(_ & Hd & _)]; congruence.
        -- intros (_ & Hf1 & Hf2). destruct Hb as [[Hd _]|[(Hl & _)|(_ & data & addr & Hd & _)]]; [contradiction|contradiction|eauto].
      * rewrite kdir_iff. exact Hkd.
    + split; [|now apply finalize_inv]. exists t. split; [now apply tar_lists_iff|exact H2].
  - split; [split; [intros H0; exact (proj1 (G H0))|]|intros H0; exact (proj2 (G H0))]. intros (t & Ht & Hnc). apply tar_lists_iff in Ht. destruct (members_accepted _ tar_conv tar_skipped tar_one) with (items := items) (t := t) as (c' & m & E & _); [| |exact Ht|exact Hnc|].
    + intros x (m & -> & Hr & He) l. exists l. unfold tar_conv. cbn [bind]. now apply tar_entry_total.
    + intros x p d (m & -> & Hr & He & Hp & Hd) l. destruct (tar_entry_total m l Hr) as [_ Gt]. destruct (Gt p He Hp) as (l' & e & E1 & E2).
      exists l', e. split; [exact E1|]. destruct (tar_made (Ok m) l l' (Some e) E1) as [_ (k & Hk & Hdot & m' & Em & He' & Hp' & Hb)]. injection Em as <-.
      split; [exact E2|]. split; [congruence|]. exists k. split; [exact Hk|]. apply (same_bool _ _ (tar_directory m)); [|exact Hd]. rewrite kdir_iff. exact (tar_kind_dir m _ _ Hb).
    + congruence.
Qed.

(** ** zip *)
Definition zip_one (x : option zip_member) (p : path) (d : bool) : Prop :=
  exists m, x = Some m /\ zip_usable m /\ stands_for (zm_name m) p /\ (d = true <-> zip_directory m).

Lemma zip_contains_iff items t : zip_contains items t <-> members _ (fun _ => False) zip_one items t.
Proof.
  split.
  - induction 1 as [|l t m p d H IH Hr Hp Hd]; [constructor|constructor; [exact IH|exists m; auto]].
  - induction 1 as [|l t x H IH []|l t x p d H IH (m & -> & Hr & Hp & Hd)]; [constructor|now constructor].
Qed.

Lemma zip_conv_usable file x l l' oe : zip_conv (Ok file) x l = Ok (l', oe) -> exists m e p, x = Some m /\ oe = Some e /\ zip_usable m /\ stands_for (zm_name m) p /\ entry_is e p (zip_is_dir (zm_name m)).
Proof.
  unfold zip_conv. destruct x as [m|]; [|bad]. unfold zip_entry.
  destruct (zip_mtime m) as [mtime| | |] eqn:E1; cbn [bind]; try bad.
  destruct (enclosed_spec (zm_name m)) as [S1 S2]. destruct (enclosed_name (zm_name m)) as [raw|] eqn:E2; [|bad].
  assert (raw = zm_name m) as ->.
  { unfold enclosed_name in E2. destruct (existsb _ (zm_name m)); [discriminate E2|]. destruct (stays_inside 0 _); congruence. }
  assert (Hsafe : safe_name (zm_name m)) by (now apply S1).
  destruct (from_path (zm_name m)) as [p| | |] eqn:E3; cbn [bind unwrap]; try bad.
  destruct (from_path_means _ p E3) as (P1 & P2 & P3).
  assert (Ht : zip_time m mtime) by (now apply zip_mtime_spec).
  pose proof (zip_is_dir_spec m) as Hd. destruct (zip_is_dir (zm_name m)) eqn:Ed.
  - intros H. injection H as <- <-. do 2 eexists. exists (pieces p). split; [reflexivity|]. split; [reflexivity|]. split; [|split; [exact P1|split; [reflexivity|split; [exact P2|exists KDir; split; [reflexivity|now rewrite Ed]]]]].
    split; [exact Hsafe|]. split; [eauto|]. intros Hn. exfalso. apply Hn. now apply Hd.
  - destruct (zm_stored m) eqn:Es; cbn [bind].
    + destruct (add_content l _) as [l1 addr]. intros H. injection H as <- <-. do 2 eexists. exists (pieces p). split; [reflexivity|]. split; [reflexivity|].
      split; [|split; [exact P1|split; [reflexivity|split; [exact P2|eexists; split; [reflexivity|now rewrite Ed]]]]]. split; [exact Hsafe|]. split; [eauto|]. intros _ H. congruence.
    + destruct (zm_data m) as [data| | |] eqn:Edata; cbn [bind]; try bad. destruct (add_content l data) as [l1 addr]. intros H. injection H as <- <-. do 2 eexists. exists (pieces p). split; [reflexivity|]. split; [reflexivity|].
      split; [|split; [exact P1|split; [reflexivity|split; [exact P2|eexists; split; [reflexivity|now rewrite Ed]]]]]. split; [exact Hsafe|]. split; [eauto|]. intros _ _. eauto.
Qed.

Lemma zip_usable_conv file m l p : utf8 (zm_name m) = true -> zip_usable m -> stands_for (zm_name m) p ->
  exists l' e, zip_conv (Ok file) (Some m) l = Ok (l', Some e) /\ entry_is e p (zip_is_dir (zm_name m)).
Proof.
  intros Hu (Hs & [t Ht] & Hd) Hst.
  assert (Hok : exists l' e, zip_conv (Ok file) (Some m) l = Ok (l', Some e)).
  { unfold zip_conv, zip_entry. apply zip_mtime_spec in Ht. rewrite Ht. cbn [bind]. destruct (enclosed_spec (zm_name m)) as [S _]. rewrite (proj2 S Hs).
    destruct (from_path_total (zm_name m) p Hst) as (q & Hq & Hqp).
    { destruct Hst as [_ <-]. apply Forall_forall. intros x Hx. apply filter_In in Hx as [Hx _]. pose proof (utf8_pieces _ Hu) as Hf. rewrite Forall_forall in Hf. auto. }
    rewrite Hq. cbn [unwrap bind]. pose proof (zip_is_dir_spec m) as Hz. destruct (zip_is_dir (zm_name m)) eqn:Ez; [do 2 eexists; reflexivity|].
    destruct (zm_stored m) eqn:Es; cbn [bind].
    - destruct (add_content l _) as [l' addr]. do 2 eexists. reflexivity.
    - destruct (Hd) as [data ->]; [intros Gd; apply Hz in Gd; discriminate Gd|reflexivity|]. cbn [bind]. destruct (add_content l data) as [l' addr]. do 2 eexists. reflexivity. }
  destruct Hok as (l' & e & E). exists l', e. split; [exact E|]. destruct (zip_conv_usable _ _ _ _ _ E) as (m' & e' & p' & Em & Ee & _ & Hp' & He). injection Em as <-. injection Ee as <-.
  assert (p' = p) as -> by (now apply (stands_inj (zm_name m))). exact He.
Qed.

Definition zip_one_utf8 (x : option zip_member) (p : path) (d : bool) : Prop := zip_one x p d /\ forall m, x = Some m -> utf8 (zm_name m) = true.

Lemma zip_loop_iff file items c r : (forall m, In (Some m) items -> utf8 (zm_name m) = true) -> zip_members (Ok file) items creator_empty = (c, r) ->
  (r = Ok tt <-> exists t, zip_contains items t /\ no_clash t) /\ (r = Ok tt -> exists a, finalize c = Some a).
Proof.
  intros Hutf. rewrite zip_loop. intros H.
  assert (G : r = Ok tt -> (exists t, zip_contains items t /\ no_clash t) /\ exists a, finalize c = Some a).
  - intros ->. destruct (accepted_members _ (zip_conv (Ok file)) (fun _ => False) zip_one) with (items := items) (c := c) as (t & m & H1 & H2 & Hci & _); [| |exact H|].
    + intros x l l' E. destruct (zip_conv_usable _ _ _ _ _ E) as (m & e & p & _ & Ee & _). discriminate Ee.
    + intros x l l' e E. destruct (zip_conv_usable _ _ _ _ _ E) as (m & e' & p & -> & Ee & Hu & Hp & He). injection Ee as <-. exists p, (zip_is_dir (zm_name m)). split; [|exact He].
      exists m. split; [reflexivity|]. split; [exact Hu|]. split; [exact Hp|]. apply zip_is_dir_spec.
    + split; [|now apply finalize_inv]. exists t. split; [now apply zip_contains_iff|exact H2].
  - split; [split; [intros H0; exact (proj1 (G H0))|]|intros H0; exact (proj2 (G H0))]. intros (t & Ht & Hnc). apply zip_contains_iff in Ht.
    assert (Ht' : members _ (fun _ => False) zip_one_utf8 items t).
    { clear H Hnc G. induction Ht as [|l t x H IH []|l t x p d H IH Hx]; [constructor|]. constructor; [apply IH; intros m Hm; apply Hutf, in_app_iff; now left|].
      split; [exact Hx|]. intros m ->. apply Hutf, in_app_iff. right. now left. }
    destruct (members_accepted _ (zip_conv (Ok file)) (fun _ => False) zip_one_utf8) with (items := items) (t := t) as (c' & m & E & _); [intros x []| |exact Ht'|exact Hnc|congruence].
    intros x p d [(m & -> & Hu & Hp & Hd) Hut] l. destruct (zip_usable_conv file m l p (Hut m eq_refl) Hu Hp) as (l' & e & E1 & E2). exists l', e. split; [exact E1|].
    assert (d = zip_is_dir (zm_name m)) as ->; [|exact E2]. apply (same_bool _ _ (zip_directory m)); [exact Hd|]. apply zip_is_dir_spec.
Qed.

(** ** Permutations *)
Definition friends (x y : path * bool) : Prop :=
  (fst x = fst y -> snd x = true /\ snd y = true) /\ (proper_prefix (fst x) (fst y) -> snd x = true) /\ (proper_prefix (fst y) (fst x) -> snd y = true).
Lemma friends_sym x y : friends x y -> friends y x.
Proof. intros (H1 & H2 & H3). split; [intros E; symmetry in E; destruct (H1 E); auto|auto]. Qed.

Lemma no_clash_pairs t : no_clash t <-> Forall (fun x => has_last_name (fst x)) t /\ ForallOrdPairs friends t.
Proof.
  split.
  - induction 1 as [|l p d H [IH1 IH2] Hp Hall]; [split; constructor|]. split; [apply Forall_app; split; [exact IH1|repeat constructor; exact Hp]|].
    apply pairs_app. split; [exact IH2|]. split; [repeat constructor|]. intros [q d'] y Hq [<-|[]]. destruct (Hall q d' Hq) as (A & B & C). split; cbn [fst snd]; [intros E; destruct (A E); auto|auto].
  - induction t as [|[p d] t IH] using rev_ind; [constructor|]. intros [H1 H2]. apply Forall_app in H1 as [H1 H3]. apply pairs_app in H2 as (H2 & _ & H4).
    constructor; [apply IH; split; assumption|exact (Forall_inv H3)|]. intros q d' Hq. destruct (H4 (q, d') (p, d) Hq (or_introl eq_refl)) as (A & B & C). cbn [fst snd] in *.
    split; [intros E; destruct (A E); auto|auto].
Qed.
Lemma pairs_perm {A} (R : A -> A -> Prop) : (forall x y, R x y -> R y x) -> forall l l', Permutation l l' -> ForallOrdPairs R l -> ForallOrdPairs R l'.
Proof.
  intros Hs l l' H. induction H as [|x l l' H IH|x y l|l l' l'' H1 IH1 H2 IH2]; intros Hl; [exact Hl| | |auto].
  - inversion Hl as [|? ? A1 A2]; subst. constructor; [|auto]. rewrite Forall_forall in *. intros z Hz. apply A1. eapply Permutation_in; [apply Permutation_sym; exact H|exact Hz].
  - inversion Hl as [|? ? A1 A2]; subst. inversion A2 as [|? ? A3 A4]; subst. constructor; [constructor; [apply Hs; exact (Forall_inv A1)|exact A3]|]. constructor; [exact (Forall_inv_tail A1)|exact A4].
Qed.
Lemma no_clash_perm t t' : Permutation t t' -> no_clash t -> no_clash t'.
Proof.
  intros H. rewrite !no_clash_pairs. intros [H1 H2]. split; [|eapply pairs_perm; eauto; apply friends_sym].
  rewrite Forall_forall in *. intros x Hx. apply H1. eapply Permutation_in; [apply Permutation_sym; exact H|exact Hx].
Qed.

Section MembersPerm.
  Variable M : Type.
  Variable skipped : M -> Prop.
  Variable one : M -> path -> bool -> Prop.
  Notation members := (members M skipped one).
  Definition gives (x : M) (u : list (path * bool)) : Prop := (u = [] /\ skipped x) \/ exists p d, u = [(p, d)] /\ one x p d.
  Lemma members_concat items t : members items t <-> exists us, Forall2 gives items us /\ t = concat us.
  Proof.
    split.
    - induction 1 as [|l t x H (us & IH & ->) Hx|l t x p d H (us & IH & ->) Hx].
      + exists []. split; [constructor|reflexivity].
      + exists (us ++ [[]]). split; [apply Forall2_app; [exact IH|constructor; [left; auto|constructor]]|]. rewrite concat_app. cbn. now rewrite app_nil_r.
      + exists (us ++ [[(p, d)]]). split; [apply Forall2_app; [exact IH|constructor; [right; eauto|constructor]]|]. rewrite concat_app. reflexivity.
    - revert t. induction items as [|x items IH] using rev_ind; intros t (us & H & ->).
      + inversion H. constructor.
      + apply Forall2_app_inv_l in H as (us1 & us2 & H1 & H2 & ->). inversion H2 as [|? u ? ? H3 H4]; subst. inversion H4; subst. rewrite concat_app. cbn [concat]. rewrite app_nil_r.
        assert (Hm : members items (concat us1)) by (apply IH; exists us1; auto).
        destruct H3 as [[-> H3]|(p & d & -> & H3)]; [rewrite app_nil_r; apply ms_skip; assumption|apply ms_one; assumption].
  Qed.
  Lemma members_perm items items' t : Permutation items items' -> members items t -> exists t', Permutation t t' /\ members items' t'.
  Proof.
    intros Hp Hm. apply members_concat in Hm as (us & Hm & ->).
    assert (H : exists us', Permutation us us' /\ Forall2 gives items' us').
    { revert us Hm. induction Hp as [|x l l' H IH|x y l|l l' l'' H1 IH1 H2 IH2]; intros us Hm.
      - inversion Hm. exists []. auto.
      - inversion Hm as [|? u ? us0 A1 A2]; subst. destruct (IH us0 A2) as (us' & B1 & B2). exists (u :: us'). auto.
      - inversion Hm as [|? u ? us0 A1 A2]; subst. inversion A2 as [|? u' ? us1 A3 A4]; subst. exists (u' :: u :: us1). split; [apply perm_swap|auto].
      - destruct (IH1 us Hm) as (us1 & B1 & B2). destruct (IH2 us1 B2) as (us2 & C1 & C2). exists us2. split; [eapply perm_trans; eauto|exact C2]. }
    destruct H as (us' & H1 & H2). exists (concat us'). split; [|apply members_concat; eauto].
    clear Hm H2. induction H1 as [|x l l' H IH|x y l|l l' l'' H1 IH1 H2 IH2]; cbn [concat]; [constructor|now apply Permutation_app_head| |eapply perm_trans; eauto].
    rewrite !app_assoc. apply Permutation_app_tail, Permutation_app_comm.
  Qed.
End MembersPerm.
