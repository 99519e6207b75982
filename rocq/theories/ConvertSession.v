(** Whole conversions. *)
From Verif Require Export ConvertMembers ConvertUtf8 WriteFacts.

Local Ltac bad := let H := fresh in intros H; discriminate H.

(** The shape of a conversion. *)
Lemma convert_shape out m x can_open filled evs r : convert out m x can_open filled = (evs, r) ->
  (r <> Ok tt /\ (evs = [] \/ evs = [COpened out m x])) \/
  (r = Ok tt /\ exists c a, filled = (c, Ok tt) /\ finalize c = Some a /\ evs = [COpened out m x; CWritten out a]).
Proof.
  unfold convert. destruct can_open; [|intros H; injection H as <- <-; left; split; [easy|auto]].
  destruct filled as [c r0]. destruct r0 as [[]| | |]; try (intros H; injection H as <- <-; left; split; [easy|auto]).
  destruct (finalize c) as [a|] eqn:E; intros H; injection H as <- <-; [right; split; auto; exists c, a; auto|left; split; [easy|auto]].
Qed.

Lemma tar_main_shape o input can_open evs r : tar_main o input can_open = (evs, r) ->
  (r <> Ok tt /\ (evs = [] \/ exists out m, tar_outfile (to_out o) (to_file o) = Ok out /\ evs = [COpened out m (to_comp o)])) \/
  (r = Ok tt /\ exists out m items c a, tar_outfile (to_out o) (to_file o) = Ok out /\ create_concat (to_concat o) = Ok m /\
     input = Ok (Some (Ok items)) /\ tar_members items creator_empty = (c, Ok tt) /\ finalize c = Some a /\
     evs = [COpened out m (to_comp o); CWritten out a]).
Proof.
  unfold tar_main. assert (Hnil : forall x, x <> Ok tt -> (@nil conv_event, x) = (evs, r) -> r <> Ok tt /\ evs = []).
  { intros x Hx H. injection H as <- <-. auto. }
  destruct (tar_outfile (to_out o) (to_file o)) as [out| | |]; try (intros H; left; apply Hnil in H as [? ?]; [auto|easy]).
  destruct input as [[stream|]| | |]; try (intros H; left; apply Hnil in H as [? ?]; [auto|easy]).
  destruct (create_concat (to_concat o)) as [m| | |]; try (intros H; left; apply Hnil in H as [? ?]; [auto|easy]).
  intros H. destruct (convert_shape _ _ _ _ _ _ _ H) as [(H1 & [H2|H2])|(-> & c & a & H1 & H2 & H3)]; [left; auto|left; split; [exact H1|right; eauto]|].
  destruct stream as [items| | |]; try discriminate H1. right. split; auto. exists out, m, items, c, a. auto 10.
Qed.

Lemma zip_main_shape o input reopen can_open evs r : zip_main o input reopen can_open = (evs, r) ->
  (r <> Ok tt /\ (evs = [] \/ exists m, evs = [COpened (zo_out o) m (CZstd 5)])) \/
  (r = Ok tt /\ exists m items c a, create_concat (zo_concat o) = Ok m /\ input = Ok (Some items) /\
     zip_members reopen items creator_empty = (c, Ok tt) /\ finalize c = Some a /\
     evs = [COpened (zo_out o) m (CZstd 5); CWritten (zo_out o) a]).
Proof.
  unfold zip_main. assert (Hnil : forall x, x <> Ok tt -> (@nil conv_event, x) = (evs, r) -> r <> Ok tt /\ evs = []).
  { intros x Hx H. injection H as <- <-. auto. }
  destruct input as [[items|]| | |]; try (intros H; left; apply Hnil in H as [? ?]; [auto|easy]).
  destruct (create_concat (zo_concat o)) as [m| | |]; try (intros H; left; apply Hnil in H as [? ?]; [auto|easy]).
  intros H. destruct (convert_shape _ _ _ _ _ _ _ H) as [(H1 & [H2|H2])|(-> & c & a & H1 & H2 & H3)]; [left; auto|left; split; [exact H1|right; eauto]|].
  right. split; auto. exists m, items, c, a. auto 10.
Qed.

(** The archive written holds what the creator was given. *)
Lemma finalized c a l : cr_entries c = after l -> finalize c = Some a -> N.of_nat (length (a_recs a)) < 2^32 ->
  a_fetch a = fetch_of (cr_contents c) /\ (forall p nd, has l p nd <-> exists i, astored a i p nd).
Proof.
  intros H1 H2 H3. unfold finalize in H2. rewrite H1 in H2. split.
  - unfold write_archive in H2. destruct (layout_of (cs_store (after l))); [|discriminate H2]. now injection H2 as <-.
  - intros p nd. apply (archive_has l (fetch_of (cr_contents c))); auto. eapply archive_small; eauto.
Qed.

Lemma finalize_some c l : cr_entries c = after l -> exists a, finalize c = Some a.
Proof.
  intros H. unfold finalize. rewrite H. unfold write_archive. destruct (layout_ok (after l) (run_adds_inv l)) as (ord & -> & _). eauto.
Qed.

(** ** Readable members convert *)
Lemma tar_entry_total m l : tar_readable m -> (tar_extension m -> tar_entry m l = Ok (l, None)) /\
  (forall p, ~ tar_extension m -> tar_path m p -> exists l' e, tar_entry m l = Ok (l', Some e) /\ pieces (e_path e) = p).
Proof.
  intros ((p0 & s & Hs & Hst & Hu) & (mt & M1 & M2 & M3 & M4) & Hl & Hf).
  destruct (from_path_total s p0 Hst Hu) as (q & Hq & Hqp). unfold tar_entry. rewrite M1, M2, M3, M4, Hs. cbn [bind]. rewrite Hq. cbn [unwrap bind].
  split.
  - intros [E|[E|[E|E]]]; rewrite E; reflexivity.
  - intros p Hne (s' & Hs' & [_ Hst'] & _). assert (s' = s) as -> by congruence. destruct Hst as [_ Hst].
    assert (Hqp' : pieces q = p) by congruence.
    assert (Hother : tm_type m <> TSymlink -> tm_type m <> TDirectory ->
      exists l' e, (if negb (tm_ustar m) && ends_with_sep (tm_header_path m)
     then Ok (l, Some (mkEntry q (Ok (Some KDir)) (mkMeta (m_uid mt) (m_gid mt) (m_mode mt) (m_mtime mt))))
     else bind (tm_data m) (fun data => let (l', addr) := add_content l data in Ok (l', Some (mkEntry q (Ok (Some (KFile (N.of_nat (length data)) addr))) (mkMeta (m_uid mt) (m_gid mt) (m_mode mt) (m_mtime mt)))))) = Ok (l', Some e) /\ pieces (e_path e) = p).
    { intros H1 H2. pose proof (tar_directory_type m Hne H1 H2) as Ht. destruct (negb (tm_ustar m) && ends_with_sep (tm_header_path m)).
      - do 2 eexists. split; [reflexivity|]. exact Hqp'.
      - destruct Hf as [data Hd]. { split; auto. split; auto. intros H. apply Ht in H. discriminate H. }
        rewrite Hd. cbn [bind]. destruct (add_content l data) as [l' addr]. do 2 eexists. split; [reflexivity|]. exact Hqp'. }
    unfold tar_extension in Hne. destruct (tm_type m) eqn:Et; try (apply Hother; congruence); try (exfalso; apply Hne; now auto).
    + destruct (Hl Et) as [t ->]. cbn [bind]. do 2 eexists. split; [reflexivity|]. exact Hqp'.
    + do 2 eexists. split; [reflexivity|]. exact Hqp'.
Qed.

Lemma tar_lists_listed items t : tar_lists items t -> listed _ tar_conv (fun _ => True) (fun x => exists m, x = Ok m /\ tar_directory m) items t.
Proof.
  induction 1 as [|l t m H IH Hr He|l t m p d H IH Hr He Hp Hd].
  - apply listed_nil.
  - apply listed_skip; auto. intros c. exists c. unfold tar_conv. cbn [bind]. now apply tar_entry_total.
  - apply listed_one; auto.
    + intros c. destruct (tar_entry_total m c Hr) as [_ G]. destruct (G p He Hp) as (l' & e & E1 & E2). exists l', e. auto.
    + rewrite Hd. split; [eauto|]. intros (m' & E & H'). now injection E as <-.
Qed.

Lemma zip_entry_total file m l p : zip_readable m -> stands_for (zm_name m) p ->
  exists l' e, zip_entry (Ok file) m l = Ok (l', e) /\ pieces (e_path e) = p.
Proof.
  intros (Hu & Hs & [t Ht] & Hd) Hst. unfold zip_entry. apply zip_mtime_spec in Ht. rewrite Ht. cbn [bind].
  destruct (enclosed_spec (zm_name m)) as [S _]. rewrite (proj2 S Hs).
  destruct (from_path_total (zm_name m) p Hst) as (q & Hq & Hqp).
  { destruct Hst as [_ <-]. apply Forall_forall. intros x Hx. apply filter_In in Hx as [Hx _].
    pose proof (utf8_pieces _ Hu) as Hf. rewrite Forall_forall in Hf. auto. }
  rewrite Hq. cbn [unwrap bind]. destruct (zip_is_dir (zm_name m)); [do 2 eexists; split; [reflexivity|exact Hqp]|].
  destruct (zm_stored m) eqn:Es; cbn [bind].
  - destruct (add_content l _) as [l' addr]. do 2 eexists. split; [reflexivity|exact Hqp].
  - destruct (Hd eq_refl) as [data ->]. cbn [bind]. destruct (add_content l data) as [l' addr]. do 2 eexists. split; [reflexivity|exact Hqp].
Qed.

Lemma zip_lists_listed file items t : (forall m, In (Some m) items -> zip_fitting file m) -> zip_lists items t ->
  listed _ (zip_conv (Ok file)) (zip_fits file) (fun x => exists m, x = Some m /\ zip_directory m) items t.
Proof.
  intros Hfit H. induction H as [|l t m p d H IH Hr Hp Hd].
  - apply listed_nil.
  - apply listed_one.
    + apply IH. intros m' Hm'. apply Hfit. rewrite in_app_iff. auto.
    + cbn. apply Hfit. rewrite in_app_iff. cbn. auto.
    + intros c. destruct (zip_entry_total file m c p Hr Hp) as (l' & e & E1 & E2). exists l', e. unfold zip_conv. rewrite E1. auto.
    + rewrite Hd. split; [eauto|]. intros (m' & E & H'). now injection E as <-.
Qed.

Lemma tar_good_dir x F p nd : tar_good x F p nd -> (fst nd = KDir <-> exists m, x = Ok m /\ tar_directory m).
Proof.
  intros (m & -> & _ & _ & H). rewrite (tar_kind_dir m F nd H). split; [eauto|]. intros (m' & E & H'). now injection E as <-.
Qed.
Lemma zip_good_dir file x F p nd : zip_good file x F p nd -> (fst nd = KDir <-> exists m, x = Some m /\ zip_directory m).
Proof.
  intros (m & -> & _ & _ & _ & _ & _ & _ & [(H & ->)|(H & data & addr & _ & -> & _)]).
  - split; auto. intros _. eauto.
  - split; [easy|]. intros (m' & E & H'). now injection E as <-.
Qed.

Lemma apath_top_eq a i r p : at_ (a_recs a) i = Some r -> r_parent r = 0 -> p = [r_name r] -> apath a i p.
Proof. intros H1 H2 ->. now apply apath_top. Qed.
Lemma apath_sub_eq a i r j p q : at_ (a_recs a) i = Some r -> r_parent r = j + 1 -> apath a j p -> q = p ++ [r_name r] -> apath a i q.
Proof. intros H1 H2 H3 ->. now apply (apath_sub a i r j p). Qed.
