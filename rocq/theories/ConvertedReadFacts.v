(** From the things an archive was made of to what the readers show. *)
From Verif Require Export SpecConvertedRead PropConverted PropCreated.

Section Read.
  Variables (l : list entry) (a : archive) (have : path -> thing -> Prop) (about : path -> meta -> Prop).
  Hypothesis Hs : small l.
  Hypothesis Ha : archive_of l (a_fetch a) a.
  Hypothesis Hkept : forall p t, have p t -> p <> [] /\ exists nd, has l p nd /\ is_thing (a_fetch a) nd t.
  Hypothesis Honly : forall p nd, has l p nd -> (exists t, have p t /\ is_thing (a_fetch a) nd t) \/
    (nd = (KDir, mkMeta 1000 1000 493 0) /\ p <> [] /\ exists q t, have q t /\ proper_prefix p q).
  Hypothesis Habout : forall p m, about p m -> exists nd, has l p nd /\ snd nd = m.

  Lemma occupied_has p : p <> [] -> (occupied have p <-> exists nd, has l p nd).
  Proof.
    intros Hp. split.
    - intros (q & t & Hq & [->|(x & u & E)]).
      + destruct (Hkept p t Hq) as (_ & nd & Hh & _). eauto.
      + destruct (Hkept q t Hq) as (_ & nd & Hh & _). rewrite E in Hh. destruct (has_ancestor l p x u nd Hh Hp) as [mt H]. eauto.
    - intros (nd & Hh). destruct (Honly p nd Hh) as [(t & Ht & _)|(_ & _ & q & t & Ht & Hpp)]; [exists p, t; auto|exists q, t; auto].
  Qed.

  Theorem things_listed : list_gives have a.
  Proof.
    destruct (C42_plain_listing l _ a Hs Ha) as (ps & H1 & H2 & H3). exists (map fst ps). rewrite map_map. split; [exact H3|]. split; [exact H1|].
    intros p. split.
    - intros H. apply in_map_iff in H as ([p' nd] & <- & H). apply H2 in H. cbn [fst].
      assert (Hne : p' <> []) by (eapply has_nonempty; eauto). split; [exact Hne|]. apply occupied_has; eauto.
    - intros [Hne H]. apply occupied_has in H as [nd Hh]; [|exact Hne]. apply in_map_iff. exists (p, nd). split; auto. now apply H2.
  Qed.

  Theorem things_dumped : dump_gives have a.
  Proof.
    intros w s output Hne Hout. split.
    - intros data H. destruct (Hkept _ _ H) as (_ & [k mt] & Hh & size & addr & Ek & Hf). cbn [fst] in Ek. subst k.
      eapply C44_dump_file; eauto.
    - intros Hno. destruct (C44_dump_refused w l _ a s output Hs Ha Hne) as (e & E & _); [|eauto].
      intros n addr m Hh. destruct (Honly _ _ Hh) as [(t & Ht & Hi)|(E & _)]; [|discriminate E].
      destruct t as [|data|x]; cbn in Hi; [discriminate Hi|now apply Hno in Ht|discriminate Hi].
  Qed.

  Theorem things_mounted : showable l -> mount_gives have about a.
  Proof.
    intros Hsh h s p out Hr Hne.
    assert (HM : mount_of l (a_fetch a) a (a_root a) []) by (split; [exact Hs|]; split; [exact Ha|]; now left).
    pose proof (C63_resolution _ _ _ _ _ _ _ _ _ HM Hsh Hr) as HR.
    destruct out as [ino k|e].
    2: { assert (Hno : forall nd, ~ has l ([] ++ p) nd) by (destruct e; try contradiction; apply HR).
      intros H. apply occupied_has in H as [nd Hh]; [|exact Hne]. exact (Hno nd Hh). }
    destruct HR as [(E & _)|(_ & _ & nd & Hh & Ek)]; [easy|]. cbn [app] in Hh.
    destruct (C63_contents _ _ _ _ _ _ _ _ _ _ nd HM Hsh Hr Hne Hh) as (_ & (x & i & Hx & At) & Hcont).
    split; [apply occupied_has; eauto|]. split; [|split].
    - intros q t Hq (y & u & E). destruct (Hkept q t Hq) as (_ & nd' & Hh' & _). rewrite E in Hh'.
      destruct (has_ancestor l p y u nd' Hh' Hne) as [mt H]. rewrite (has_fun _ _ _ _ Hh H) in Ek. exact Ek.
    - intros t Ht. destruct (Hkept p t Ht) as (_ & nd' & Hh' & Hi). rewrite <- (has_fun _ _ _ _ Hh Hh') in Hi. clear nd' Hh'.
      destruct t as [|data|y]; cbn [is_thing] in Hi.
      + rewrite Hi in Ek. exact Ek.
      + destruct Hi as (size & addr & E & Hf). rewrite E in *. split; [exact Ek|]. destruct (Hcont _ Hf) as [C1 C2]. split; [exact C1|].
        intros Hop. apply (C2 Hop).
      + rewrite Hi in *. split; [exact Ek|exact Hcont].
    - intros m Hm. destruct (Habout p m Hm) as (nd' & Hh' & Em). rewrite <- (has_fun _ _ _ _ Hh Hh') in Em. clear nd' Hh'. subst m.
      exists x. destruct At as (_ & B1 & B2 & B3 & B4 & _ & _ & B5 & _). split; [exact Hx|]. rewrite B1. auto.
  Qed.

  Hypothesis Hutf : forall p t n, have p t -> In n p -> utf8 n = true.
  Theorem things_in_python : python_gives have about a.
  Proof.
    intros s p Hst Hne. destruct (forallb utf8 p) eqn:Hu.
    - assert (Hu' : Forall (fun n => utf8 n = true) p) by (apply Forall_forall; now apply forallb_forall).
      destruct (C58_get_entry l _ a s p Hs Ha Hst Hne Hu') as [G1 G2]. split; [|split].
      + intros t Ht. destruct (Hkept p t Ht) as (_ & nd & Hh & Hi).
        destruct (G1 nd Hh) as (i & e & E1 & E2 & E3). exists e. split; [exact E1|].
        destruct (C58_attributes l _ a i p nd e Hs Ha E2 E3) as (_ & _ & _ & _ & _ & _ & K).
        destruct t as [|data|x]; cbn [is_thing] in Hi.
        * rewrite Hi in K. tauto.
        * destruct nd as [k mt]. cbn [fst] in *. destruct Hi as (size & addr & -> & Hf). split; [tauto|].
          pose proof (C58_content l _ a i p _ addr mt e Hs Ha E2 E3) as C. rewrite Hf in C. destruct C as (st & C1 & _ & C2). eauto.
        * rewrite Hi in K. tauto.
      + intros m Hm. destruct (Habout p m Hm) as (nd & Hh & <-). destruct (G1 nd Hh) as (i & e & E1 & E2 & E3). exists e. split; [exact E1|].
        destruct (C58_attributes l _ a i p nd e Hs Ha E2 E3) as (_ & _ & K1 & K2 & K3 & K4 & _). auto.
      + intros H. apply G2. intros nd Hh. apply H. apply occupied_has; eauto.
    - assert (Hbad : exists n, In n p /\ utf8 n = false).
      { clear -Hu. induction p as [|x p IH]; [discriminate Hu|]. cbn in Hu. destruct (utf8 x) eqn:Ex; [|exists x; split; auto; now left].
        destruct (IH Hu) as (n & H1 & H2). exists n. split; auto. now right. }
      destruct Hbad as (n & Hn & Hbad).
      assert (Hno : forall nd, ~ has l p nd).
      { intros nd Hh. destruct (Honly p nd Hh) as [(t & Ht & _)|(_ & _ & q & t & Ht & x & u & E)].
        - rewrite (Hutf p t n Ht Hn) in Hbad. discriminate Hbad.
        - rewrite (Hutf q t n Ht) in Hbad; [discriminate Hbad|]. rewrite E. apply in_or_app. now left. }
      split; [|split].
      + intros t Ht. destruct (Hkept p t Ht) as (_ & nd & Hh & _). now apply Hno in Hh.
      + intros m Hm. destruct (Habout p m Hm) as (nd & Hh & _). now apply Hno in Hh.
      + intros _. apply C58_bad_path. right. destruct Hst as [Hr Hst]. split; [exact Hr|]. exists n. rewrite <- Hst in Hn. apply filter_In in Hn as [Hn Hd].
        split; [exact Hn|]. split; [|exact Hbad]. intros ->. discriminate Hd.
  Qed.
End Read.

(** ** A tar *)
Section Tar.
  Variables (o : tar_opts) (items : list (res tar_member)) (can_open : bool) (evs : list conv_event) (out : bytes) (a : archive).
  Hypothesis H : tar_main o (Ok (Some (Ok items))) can_open = (evs, Ok tt).
  Hypothesis Hin : In (CWritten out a) evs.
  Hypothesis Hsm : N.of_nat (length (a_recs a)) < 2^32.

  Lemma tar_path_fun m p q : tar_path m p -> tar_path m q -> p = q.
  Proof. intros (s & E & [_ <-] & _) (s' & E' & [_ <-] & _). congruence. Qed.

  Lemma tar_kept l : small l -> archive_of l (a_fetch a) a ->
    forall p t, tar_has items p t -> p <> [] /\ exists nd, has l p nd /\ is_thing (a_fetch a) nd t.
  Proof.
    intros Hs Ha p t (m & Hm & Hne & Hp & Ht). apply in_split in Hm as (l1 & l2 & E).
    destruct (C49_members_are_kept _ _ _ _ _ _ H Hin Hsm l1 (Ok m) l2 E) as (m' & Em & [He|(q & i & nd & Hq' & Hln & Hi & Hb)]); [congruence|].
    injection Em as <-. rewrite (tar_path_fun m p q Hp Hq') in *. split; [now apply last_name_nonempty|]. exists nd.
    split; [apply (archive_has l (a_fetch a) a); eauto|].
    destruct Hb as [Hb|(Hdir & Hk & _)]; [eapply tar_becomes_thing; eauto|].
    destruct t as [|data|x]; cbn [tar_thing is_thing] in *; auto.
    - destruct Ht as [(_ & Ht & _) _]. easy.
    - destruct Ht as [Ht _]. now apply tar_dir_not_link in Hdir.
  Qed.

  Lemma tar_only l : small l -> archive_of l (a_fetch a) a ->
    forall p nd, has l p nd -> (exists t, tar_has items p t /\ is_thing (a_fetch a) nd t) \/
      (nd = (KDir, mkMeta 1000 1000 493 0) /\ p <> [] /\ exists q t, tar_has items q t /\ proper_prefix p q).
  Proof.
    intros Hs Ha p nd Hh. pose proof (has_nonempty _ _ _ Hh) as Hne0. apply (archive_has l (a_fetch a) a) in Hh as (i & Hi); auto.
    destruct (C49_nothing_else _ _ _ _ _ _ H Hin Hsm i p nd Hi) as (m & q & Hm & Hne & Hp & [[-> Hb]|[Hpp ->]]).
    - left. destruct (becomes_tar_thing _ _ _ Hb) as (t & Ht & Hk). exists t. split; auto. exists m. auto.
    - right. split; auto. split; [exact Hne0|]. apply in_split in Hm as (l1 & l2 & E).
      destruct (C49_members_are_kept _ _ _ _ _ _ H Hin Hsm l1 (Ok m) l2 E) as (m' & Em & [He|(q' & i' & nd' & Hq' & _ & Hi' & Hb)]); [congruence|].
      injection Em as <-. exists q.
      assert (Ht : exists t, tar_thing m t).
      { destruct Hb as [Hb|(Hb & _)]; [destruct (becomes_tar_thing _ _ _ Hb) as (t & Ht & _); eauto|now exists GotDir]. }
      destruct Ht as (t & Ht). exists t. split; auto. exists m. split; auto. rewrite E. apply in_or_app. right. now left.
  Qed.

  Lemma tar_meta_fun m x y : tar_meta m x -> tar_meta m y -> x = y.
  Proof. destruct x as [x1 x2 x3 x4], y as [y1 y2 y3 y4]. unfold tar_meta. cbn [m_uid m_gid m_mode m_mtime]. intuition congruence. Qed.
  Lemma tar_tells l : small l -> archive_of l (a_fetch a) a ->
    forall p m, tar_about items p m -> exists nd, has l p nd /\ snd nd = m.
  Proof.
    intros Hs Ha p mt (l1 & m & l2 & E & Hne & Hp & Hmt & Hfirst).
    destruct (C49_members_are_kept _ _ _ _ _ _ H Hin Hsm l1 (Ok m) l2 E) as (m' & Em & [He|(q & i & nd & Hq' & Hln & Hi & Hb)]); [congruence|].
    injection Em as <-. rewrite (tar_path_fun m p q Hp Hq') in *. exists nd. split; [apply (archive_has l (a_fetch a) a); eauto|].
    destruct Hb as [[Hb _]|(Hdir & _ & m' & q' & Hm' & Hne' & Hp' & Hc)]; [eapply tar_meta_fun; eauto|].
    destruct (Hfirst Hdir m' q' Hm' Hne' Hp') as [F1 F2]. destruct Hc as [[Hc _]|[Hc _]]; [easy|now apply F2 in Hc].
  Qed.

  Lemma tar_shows l : small l -> archive_of l (a_fetch a) a -> tar_showable items -> showable l.
  Proof.
    intros Hs Ha Hsh p nd Hh. apply (archive_has l (a_fetch a) a) in Hh as (i & Hi); auto.
    destruct (C49_nothing_else _ _ _ _ _ _ H Hin Hsm i p nd Hi) as (m & q & Hm & Hne & Hp & [[-> Hb]|[Hpp ->]]); [|split; [reflexivity|exact I]].
    destruct (Hsh m Hm Hne) as (S1 & S2 & S3). destruct Hb as [(_ & _ & _ & Hb) Hc]. split; [now apply S1|].
    destruct Hc as [[_ Hc]|[(_ & t & T1 & Hc)|(_ & d & addr & T1 & Hc & _)]]; rewrite Hc; auto.
  Qed.
End Tar.

(** ** A zip *)
Lemma zip_loop_utf8 file items : forall c c', zip_members (Ok file) items c = (c', Ok tt) ->
  forall m n, In (Some m) items -> In n (filter not_dot (pieces (zm_name m))) -> utf8 n = true.
Proof.
  induction items as [|x items IH]; [easy|]. intros c c' E m n Hm Hn. cbn [zip_members] in E. destruct x as [y|]; [|discriminate E].
  destruct (zip_entry (Ok file) y (cr_contents c)) as [[l e]| | |] eqn:Ey; try discriminate E.
  destruct (add_entry (cr_entries c) e) as [st [[]| | |]]; try discriminate E.
  destruct Hm as [Hm|Hm]; [injection Hm as ->|eapply IH; eauto].
  unfold zip_entry in Ey. destruct (zip_mtime m); cbn [bind] in Ey; try discriminate Ey.
  destruct (enclosed_name (zm_name m)) as [raw|] eqn:E2; [|discriminate Ey].
  assert (raw = zm_name m) as ->.
  { unfold enclosed_name in E2. destruct (existsb _ (zm_name m)); [discriminate E2|]. destruct (stays_inside 0 _); congruence. }
  unfold from_path in Ey. destruct (zm_name m) as [|ch s] eqn:Es; [destruct Hn|]. destruct (is_sep ch); [discriminate Ey|].
  rewrite <- Es in *. change (fun p : bytes => negb (bytes_eqb p (b "."))) with not_dot in Ey.
  destruct (forallb utf8 (filter not_dot (pieces (zm_name m)))) eqn:Ef; [|discriminate Ey]. rewrite forallb_forall in Ef. auto.
Qed.

Section Zip.
  Variables (o : zip_opts) (items : list (option zip_member)) (file : bytes) (can_open : bool) (evs : list conv_event) (out : bytes) (a : archive).
  Hypothesis H : zip_main o (Ok (Some items)) (Ok file) can_open = (evs, Ok tt).
  Hypothesis Hin : In (CWritten out a) evs.
  Hypothesis Hfit : forall m, In (Some m) items -> zip_fitting file m.
  Hypothesis Hsm : N.of_nat (length (a_recs a)) < 2^32.

  Lemma stands_fun s p q : stands_for s p -> stands_for s q -> p = q.
  Proof. intros [_ <-] [_ <-]. reflexivity. Qed.

  Lemma zip_utf8 p t n : zip_has file items p t -> In n p -> utf8 n = true.
  Proof.
    intros (m & Hm & [_ <-] & _) Hn.
    destruct (zip_main_shape _ _ _ _ _ _ H) as [(H' & _)|(_ & x & items' & c & a' & _ & E1 & E2 & E3 & _)]; [easy|].
    injection E1 as <-. eapply zip_loop_utf8; eauto.
  Qed.

  Lemma zip_kept l : small l -> archive_of l (a_fetch a) a ->
    forall p t, zip_has file items p t -> p <> [] /\ exists nd, has l p nd /\ is_thing (a_fetch a) nd t.
  Proof.
    intros Hs Ha p t (m & Hm & Hp & Ht). apply in_split in Hm as (l1 & l2 & E).
    destruct (C50_members_are_kept _ _ _ _ _ _ _ H Hin Hfit Hsm l1 (Some m) l2 E) as (m' & q & i & nd & Em & _ & Hq' & Hln & Hi & Hb).
    injection Em as <-. rewrite (stands_fun _ p q Hp Hq') in *. split; [now apply last_name_nonempty|]. exists nd.
    split; [apply (archive_has l (a_fetch a) a); eauto|].
    destruct Hb as [Hb|(Hdir & Hk & _)]; [eapply zip_becomes_thing; eauto|].
    destruct t as [|data|x]; cbn [zip_thing is_thing] in *; auto; easy.
  Qed.

  Lemma zip_only l : small l -> archive_of l (a_fetch a) a ->
    forall p nd, has l p nd -> (exists t, zip_has file items p t /\ is_thing (a_fetch a) nd t) \/
      (nd = (KDir, mkMeta 1000 1000 493 0) /\ p <> [] /\ exists q t, zip_has file items q t /\ proper_prefix p q).
  Proof.
    intros Hs Ha p nd Hh. pose proof (has_nonempty _ _ _ Hh) as Hne0. apply (archive_has l (a_fetch a) a) in Hh as (i & Hi); auto.
    destruct (C50_nothing_else _ _ _ _ _ _ _ H Hin Hfit Hsm i p nd Hi) as (m & q & Hm & Hp & [[-> Hb]|[Hpp ->]]).
    - left. destruct (becomes_zip_thing _ _ _ _ Hb) as (t & Ht & Hk). exists t. split; auto. exists m. auto.
    - right. split; auto. split; [exact Hne0|]. apply in_split in Hm as (l1 & l2 & E).
      destruct (C50_members_are_kept _ _ _ _ _ _ _ H Hin Hfit Hsm l1 (Some m) l2 E) as (m' & q' & i' & nd' & Em & _ & Hq' & _ & Hi' & Hb).
      injection Em as <-. exists q.
      assert (Ht : exists t, zip_thing file m t).
      { destruct Hb as [Hb|(Hb & _)]; [destruct (becomes_zip_thing _ _ _ _ Hb) as (t & Ht & _); eauto|now exists GotDir]. }
      destruct Ht as (t & Ht). exists t. split; auto. exists m. split; auto. rewrite E. apply in_or_app. right. now left.
  Qed.

  Lemma last_snoc {A} (l l' : list A) x y : l ++ [x] = l' ++ [y] -> x = y.
  Proof. intros E. now apply app_inj_tail in E as [_ E]. Qed.
  Lemma zip_time_fun m x y : zip_time m x -> zip_time m y -> x = y.
  Proof.
    intros [(l1 & E1)|([E1|(l1 & E1)] & D1)] [(l2 & E2)|([E2|(l2 & E2)] & D2)].
    all: try (rewrite E1 in E2; apply last_snoc in E2; congruence).
    all: try (rewrite E1 in E2; exfalso; (now destruct l1) || (now destruct l2)).
    all: destruct D1 as [[A1 ->]|(z & A1 & ->)], D2 as [[A2 ->]|(z' & A2 & ->)]; congruence.
  Qed.
  Lemma zip_tells l : small l -> archive_of l (a_fetch a) a ->
    forall p m, zip_about items p m -> exists nd, has l p nd /\ snd nd = m.
  Proof.
    intros Hs Ha p mt (l1 & m & l2 & E & Hp & U & G & M & T & Hfirst).
    destruct (C50_members_are_kept _ _ _ _ _ _ _ H Hin Hfit Hsm l1 (Some m) l2 E) as (m' & q & i & nd & Em & _ & Hq' & Hln & Hi & Hb).
    injection Em as <-. rewrite (stands_fun _ p q Hp Hq') in *. exists nd. split; [apply (archive_has l (a_fetch a) a); eauto|].
    destruct Hb as [(B1 & B2 & B3 & B4 & _)|(Hdir & _ & m' & q' & Hm' & Hp' & Hc)].
    - pose proof (zip_time_fun m _ _ T B4) as ET. destruct (snd nd) as [u g k t], mt as [u' g' k' t']. cbn [m_uid m_gid m_mode m_mtime] in *.
      assert (k = k') by (destruct M as [M|[M ->]], B3 as [B3|[B3 ->]]; congruence). congruence.
    - destruct (Hfirst Hdir m' q' Hm' Hp') as [F1 F2]. destruct Hc as [[Hc _]|[Hc _]]; [easy|now apply F2 in Hc].
  Qed.

  Lemma zip_shows l : small l -> archive_of l (a_fetch a) a -> zip_showable items -> showable l.
  Proof.
    intros Hs Ha Hsh p nd Hh. apply (archive_has l (a_fetch a) a) in Hh as (i & Hi); auto.
    destruct (C50_nothing_else _ _ _ _ _ _ _ H Hin Hfit Hsm i p nd Hi) as (m & q & Hm & Hp & [[-> Hb]|[Hpp ->]]); [|split; [reflexivity|exact I]].
    destruct (Hsh m Hm) as (S1 & S2). destruct Hb as (_ & _ & _ & Hb & Hc). split; [now apply S1|].
    destruct Hc as [[_ Hc]|(_ & d & addr & _ & Hc & _)]; rewrite Hc; auto.
  Qed.
End Zip.
