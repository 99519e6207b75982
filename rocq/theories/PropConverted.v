(** C67: converting a tar or a zip, then extracting the archive. *)
From Verif Require Export ConvertedFacts.
From Verif Require Import SpecHostile.

Lemma stands_names s p n : stands_for s p -> In n p -> n <> [] /\ no_sep n /\ n <> b ".".
Proof.
  intros [_ <-] Hn. apply filter_In in Hn as [Hn Hd]. destruct (in_pieces _ _ Hn) as [H1 H2]. split; auto. split; auto.
  intros ->. now rewrite not_dot_dot in Hd.
Qed.
Lemma last_name_nonempty p : has_last_name p -> p <> [].
Proof. intros (d & n & -> & _). now destruct d. Qed.

(** A tar: its members are found on the disk, each under its path, with its bytes or its target; the
    directories on the way to them, and nothing else. *)
Theorem C67_tar : forall o items can_open evs arx a w od out rc pol sched last g res,
  tar_main o (Ok (Some (Ok items))) can_open = (evs, Ok tt) -> In (CWritten arx a) evs -> N.of_nat (length (a_recs a)) < 2^32 ->
  (forall p t, tar_has items p t -> ~ In (b "..") p) ->
  (forall p x, tar_has items p (GotLink x) -> utf8 x = true /\ x <> []) ->
  tidy (w_fs w) -> outdir (w_fs w) (base_of w od) out -> (forall p, p <> [] -> h_names (w_fs w) (out ++ p) = None) ->
  extract_cmd w a od [] None None rc pol sched last = (g, res) ->
  (quiet sched last -> res <> Diverge -> res = Ok tt) /\
  (res = Ok tt ->
   (forall p t, tar_has items p t -> on_disk g (out ++ p) t) /\
   (forall p q t, tar_has items q t -> proper_prefix p q -> p <> [] -> h_names g (out ++ p) = Some HDir) /\
   (forall p, p <> [] -> h_names g (out ++ p) <> None -> exists q t, tar_has items q t /\ (q = p \/ proper_prefix p q))) /\
  only_below (w_fs w) g out.
Proof.
  intros o items can_open evs arx a w od out rc pol sched last g res H Hin Hsm Hup Hlk Htidy Hout Hempty Hrun.
  destruct (tar_session _ _ _ _ _ _ H Hin Hsm) as (l & Hs & Ha).
  assert (Hst : forall p nd, has l p nd <-> exists i, astored a i p nd) by (intros p nd; apply (archive_has l (a_fetch a) a); auto).
  assert (Hpt : forall m p q, tar_path m p -> tar_path m q -> p = q).
  { intros m p q (s & E & [_ <-] & _) (s' & E' & [_ <-] & _). congruence. }
  apply (things_extracted l a (tar_has items) Hs Ha) with (rc := rc) (pol := pol) (sched := sched) (last := last) (od := od); auto.
  - intros p t (m & Hm & Hne & Hp & Ht). apply in_split in Hm as (l1 & l2 & E).
    destruct (C49_members_are_kept _ _ _ _ _ _ H Hin Hsm l1 (Ok m) l2 E) as (m' & Em & [He|(q & i & nd & Hq' & Hln & Hi & Hb)]); [congruence|].
    injection Em as <-. rewrite (Hpt m p q Hp Hq') in *. split; [now apply last_name_nonempty|]. exists nd. split; [apply Hst; eauto|].
    destruct Hb as [Hb|(Hdir & Hk & _)]; [eapply tar_becomes_thing; eauto|].
    destruct t as [|data|x]; cbn [tar_thing is_thing] in *; auto.
    + destruct Ht as [(_ & Ht & _) _]. easy.
    + destruct Ht as [Ht _]. now apply tar_dir_not_link in Hdir.
  - intros p nd Hh. apply Hst in Hh as (i & Hi).
    destruct (C49_nothing_else _ _ _ _ _ _ H Hin Hsm i p nd Hi) as (m & q & Hm & Hne & Hp & [[-> Hb]|[Hpp ->]]).
    + left. destruct (becomes_tar_thing _ _ _ Hb) as (t & Ht & Hk). exists t. split; auto. exists m. auto.
    + right. split; auto. split.
      * destruct Hi as (r & _ & Hap & _). eapply apath_nonempty; eauto.
      * apply in_split in Hm as (l1 & l2 & E).
        destruct (C49_members_are_kept _ _ _ _ _ _ H Hin Hsm l1 (Ok m) l2 E) as (m' & Em & [He|(q' & i' & nd' & Hq' & _ & Hi' & Hb)]); [congruence|].
        injection Em as <-. exists q.
        assert (Ht : exists t, tar_thing m t).
        { destruct Hb as [Hb|(Hb & _)]; [destruct (becomes_tar_thing _ _ _ Hb) as (t & Ht & _); eauto|now exists GotDir]. }
        destruct Ht as (t & Ht). exists t. split; auto. exists m. split; auto. rewrite E. apply in_or_app. right. now left.
  - intros p t n Ht Hn. pose proof (Hup p t Ht) as Hnu. destruct Ht as (m & _ & _ & (s & _ & Hsf & Hu) & _).
    destruct (stands_names s p n Hsf Hn) as (N1 & N2 & N3). rewrite Forall_forall in Hu. split; [|auto].
    repeat split; auto. intros ->. auto.
Qed.
Print Assumptions C67_tar.

(** A zip, the same; there are no links. *)
Theorem C67_zip : forall o items file can_open evs arx a w od out rc pol sched last g res,
  zip_main o (Ok (Some items)) (Ok file) can_open = (evs, Ok tt) -> In (CWritten arx a) evs ->
  (forall m, In (Some m) items -> zip_fitting file m) -> N.of_nat (length (a_recs a)) < 2^32 ->
  (forall m n, In (Some m) items -> In n (pieces (zm_name m)) -> n <> b ".." /\ utf8 n = true) ->
  tidy (w_fs w) -> outdir (w_fs w) (base_of w od) out -> (forall p, p <> [] -> h_names (w_fs w) (out ++ p) = None) ->
  extract_cmd w a od [] None None rc pol sched last = (g, res) ->
  (quiet sched last -> res <> Diverge -> res = Ok tt) /\
  (res = Ok tt ->
   (forall p t, zip_has file items p t -> on_disk g (out ++ p) t) /\
   (forall p q t, zip_has file items q t -> proper_prefix p q -> p <> [] -> h_names g (out ++ p) = Some HDir) /\
   (forall p, p <> [] -> h_names g (out ++ p) <> None -> exists q t, zip_has file items q t /\ (q = p \/ proper_prefix p q))) /\
  only_below (w_fs w) g out.
Proof.
  intros o items file can_open evs arx a w od out rc pol sched last g res H Hin Hfit Hsm Hup Htidy Hout Hempty Hrun.
  destruct (zip_session _ _ _ _ _ _ _ H Hin Hfit Hsm) as (l & Hs & Ha).
  assert (Hst : forall p nd, has l p nd <-> exists i, astored a i p nd) by (intros p nd; apply (archive_has l (a_fetch a) a); auto).
  assert (Hpt : forall s p q, stands_for s p -> stands_for s q -> p = q) by (intros s p q [_ <-] [_ <-]; reflexivity).
  apply (things_extracted l a (zip_has file items) Hs Ha) with (rc := rc) (pol := pol) (sched := sched) (last := last) (od := od); auto.
  - intros p t (m & Hm & Hp & Ht). apply in_split in Hm as (l1 & l2 & E).
    destruct (C50_members_are_kept _ _ _ _ _ _ _ H Hin Hfit Hsm l1 (Some m) l2 E) as (m' & q & i & nd & Em & _ & Hq' & Hln & Hi & Hb).
    injection Em as <-. rewrite (Hpt _ p q Hp Hq') in *. split; [now apply last_name_nonempty|]. exists nd. split; [apply Hst; eauto|].
    destruct Hb as [Hb|(Hdir & Hk & _)]; [eapply zip_becomes_thing; eauto|].
    destruct t as [|data|x]; cbn [zip_thing is_thing] in *; auto; easy.
  - intros p nd Hh. apply Hst in Hh as (i & Hi).
    destruct (C50_nothing_else _ _ _ _ _ _ _ H Hin Hfit Hsm i p nd Hi) as (m & q & Hm & Hp & [[-> Hb]|[Hpp ->]]).
    + left. destruct (becomes_zip_thing _ _ _ _ Hb) as (t & Ht & Hk). exists t. split; auto. exists m. auto.
    + right. split; auto. split.
      * destruct Hi as (r & _ & Hap & _). eapply apath_nonempty; eauto.
      * apply in_split in Hm as (l1 & l2 & E).
        destruct (C50_members_are_kept _ _ _ _ _ _ _ H Hin Hfit Hsm l1 (Some m) l2 E) as (m' & q' & i' & nd' & Em & _ & Hq' & _ & Hi' & Hb).
        injection Em as <-. exists q.
        assert (Ht : exists t, zip_thing file m t).
        { destruct Hb as [Hb|(Hb & _)]; [destruct (becomes_zip_thing _ _ _ _ Hb) as (t & Ht & _); eauto|now exists GotDir]. }
        destruct Ht as (t & Ht). exists t. split; auto. exists m. split; auto. rewrite E. apply in_or_app. right. now left.
  - intros p t n (m & Hm & Hsf & _) Hn. destruct (stands_names _ p n Hsf Hn) as (N1 & N2 & N3).
    destruct (Hup m n Hm) as [U1 U2]; [destruct Hsf as [_ <-]; now apply filter_In in Hn|]. repeat split; auto.
  - intros p x (m & _ & _ & []).
Qed.
Print Assumptions C67_zip.

(** Whatever its names, a zip that was converted is extracted inside the output directory, under every
    policy and selection, also when writes fail. *)
Theorem C67_zip_confined : forall o items file can_open evs arx a w od out files file_list rc pol sched last g res,
  zip_main o (Ok (Some items)) (Ok file) can_open = (evs, Ok tt) -> In (CWritten arx a) evs ->
  (forall m, In (Some m) items -> zip_fitting file m) -> N.of_nat (length (a_recs a)) < 2^32 ->
  plain_dest (w_fs w) out -> outdir (w_fs w) (base_of w od) out ->
  extract_cmd w a od files file_list None rc pol sched last = (g, res) ->
  only_below (w_fs w) g out.
Proof.
  intros o items file can_open evs arx a w od out files file_list rc pol sched last g res H Hin Hfit Hsm Hdest Hout Hrun.
  destruct (zip_session _ _ _ _ _ _ _ H Hin Hfit Hsm) as (l & Hs & Ha).
  assert (Hst : forall p nd, has l p nd <-> exists i, astored a i p nd) by (intros p nd; apply (archive_has l (a_fetch a) a); auto).
  destruct (archive_ok l (a_fetch a) a Hs Ha) as (mm & _ & _ & _ & Hw & _).
  assert (Hrefl : only_below (w_fs w) (w_fs w) out) by (intros q _; left; split; auto).
  unfold extract_cmd in Hrun. destruct (files_to_extract w file_list files) as [fs| | |]; try (injection Hrun as <- _; exact Hrefl).
  cbn [mount_range] in Hrun.
  set (cfg := mkConfig fs _ rc pol) in Hrun.
  assert (Hno : forall x, ~ link_name a x).
  { apply (no_link_names l (a_fetch a) a Hs Ha). intros p t mt Hh. apply Hst in Hh as (i & Hi).
    destruct (C50_nothing_else _ _ _ _ _ _ _ H Hin Hfit Hsm i p _ Hi) as (m & q & Hm & Hp & [[-> Hb]|[_ E]]); [|discriminate E].
    destruct Hb as (_ & _ & _ & _ & [[_ E]|(_ & d & addr & _ & E & _)]); discriminate E. }
  apply (extract_inside a cfg out (w_fs w)) with (sched := sched) (last := last) (rg := a_root a) (d0 := []) (res := res); auto.
  - now left.
  - destruct Hdest as [D1 D2 D3]. constructor; auto. intros q x t m (p & ->) E. exfalso.
    apply (D1 ((out ++ p) ++ [x]) t m); [|exact E]. rewrite <- app_assoc. apply HostileProofs.below_app.
  - intros i p Hap. cbn [app] in Hap.
    assert (Hnd : exists nd, astored a i p nd).
    { destruct (apath_at _ _ _ Hap) as [r Hr]. destruct (r_payload r) as [ad sz|fi nb|t|v] eqn:Ep.
      4: now destruct (wf_variant _ Hw i r v Hr).
      all: eexists; exists r; split; [exact Hr|split; [exact Hap|unfold node_of_rec; rewrite Ep; reflexivity]]. }
    destruct Hnd as [nd Hi].
    destruct (C50_nothing_else _ _ _ _ _ _ _ H Hin Hfit Hsm i p nd Hi) as (m & q & Hm & Hq & Hc).
    assert (Hpre : exists t, q = p ++ t).
    { destruct Hc as [[-> _]|[(x & t & E) _]]; [exists []; now rewrite app_nil_r|eauto]. }
    destruct Hpre as (t & Et). apply in_split in Hm as (l1 & l2 & E).
    destruct (C50_members_are_kept _ _ _ _ _ _ _ H Hin Hfit Hsm l1 (Some m) l2 E) as (m' & q' & i' & nd' & Em & Hsafe & _).
    injection Em as <-. apply (okp_prefix p t). rewrite <- Et. split; [|eapply safe_inside; eauto].
    apply Forall_forall. intros n Hn. exact (stands_names _ _ _ Hq Hn).
Qed.
Print Assumptions C67_zip_confined.

(** The demonstration tar and zip of C49 and C50, extracted in "./out". *)
Example C67_meets_hypotheses : exists evs a g,
  tar_main t_opts (Ok (Some (Ok t_items))) true = (evs, Ok tt) /\ In (CWritten (b "x.arx") a) evs /\ N.of_nat (length (a_recs a)) < 2^32 /\
  (forall p t, tar_has t_items p t -> ~ In (b "..") p) /\
  (forall p x, tar_has t_items p (GotLink x) -> utf8 x = true /\ x <> []) /\
  extract_cmd t_world a (Some (b "./out")) [] None None false Error idle all_turns = (g, Ok tt) /\
  tar_has t_items [b "d"; b "f"] (GotFile (b "hello")) /\ has_file g (at_out ++ [b "d"; b "f"]) (b "hello") /\
  tar_has t_items [b "l"] (GotLink (b "d/f")) /\ has_link g (at_out ++ [b "l"]) (b "d/f").
Proof.
  do 3 eexists. split; [vm_compute; reflexivity|]. split; [right; left; reflexivity|]. split; [vm_compute; reflexivity|].
  assert (Hp : forall p t, tar_has t_items p t -> In p [[b "pax_global_header"]; [b "d"]; [b "d"; b "f"]; [b "l"]; [b "d"; b "h"]] /\
    (forall x, t = GotLink x -> x = b "d/f")).
  { intros p t (m & Hm & _ & (s & E & [_ Hs] & _) & Ht). unfold t_items in Hm. cbn [In] in Hm.
    destruct Hm as [Hm|[Hm|[Hm|[Hm|[Hm|[]]]]]]; injection Hm as <-; injection E as <-; rewrite <- Hs; (split; [vm_compute; tauto|]);
      intros x ->; destruct Ht as [Ht1 Ht2]; try discriminate Ht1; now injection Ht2. }
  split.
  { intros p t H Hin. apply Hp in H as [H _]. cbn [In] in H. repeat (destruct H as [<-|H]; [repeat (destruct Hin as [Hin|Hin]; [discriminate Hin|]); destruct Hin|]). destruct H. }
  split; [intros p x H; apply Hp in H as [_ H]; rewrite (H x eq_refl); now split|].
  split; [vm_compute; reflexivity|].
  assert (Hm : forall ty p link data, In (Ok (t_member ty p link data)) t_items -> ~ tar_extension (t_member ty p link data) ->
    is_abs p = false -> forallb utf8 (filter not_dot (pieces p)) = true -> forall t, tar_thing (t_member ty p link data) t -> tar_has t_items (filter not_dot (pieces p)) t).
  { intros ty p link data H1 H2 H3 H4 t Ht. exists (t_member ty p link data). split; auto. split; auto. split; auto. exists p. repeat split; auto.
    apply Forall_forall. now apply forallb_forall. }
  split; [|split; [exists 0; vm_compute; auto|split; [|eexists; vm_compute; reflexivity]]].
  - apply (Hm TRegular (b "d/f") [] (b "hello")); [unfold t_items; cbn [In]; tauto| | | |]; try reflexivity.
    + unfold tar_extension; cbn; intuition congruence.
    + split; [|reflexivity]. unfold tar_file, tar_extension, tar_directory, tar_link; cbn; intuition congruence.
  - apply (Hm TSymlink (b "./l") (b "d/f") []); [unfold t_items; cbn [In]; tauto| | | |]; try reflexivity.
    + unfold tar_extension; cbn; intuition congruence.
    + split; reflexivity.
Qed.

Example C67_zip_meets : exists evs a g,
  zip_main (z_opts CNone) (Ok (Some z_items)) (Ok z_file) true = (evs, Ok tt) /\ In (CWritten (b "x.arx") a) evs /\
  (forall m, In (Some m) z_items -> zip_fitting z_file m) /\ N.of_nat (length (a_recs a)) < 2^32 /\
  plain_dest (w_fs t_world) at_out /\
  extract_cmd t_world a (Some (b "./out")) [] None None false Error idle all_turns = (g, Ok tt) /\
  has_file g (at_out ++ [b "d"; b "f"]) (b "hello").
Proof.
  do 3 eexists. split; [vm_compute; reflexivity|]. split; [right; left; reflexivity|]. split; [apply C50_meets_hypotheses|].
  split; [vm_compute; reflexivity|]. split; [|split; [vm_compute; reflexivity|exists 0; vm_compute; auto]].
  assert (Hn : forall q n, h_names (w_fs t_world) q = Some n -> n = HDir).
  { intros q n H. cbn [t_world w_fs host0 host_of h_names] in H. apply lookup_in in H. cbn in H. destruct H as [H|[]]. congruence. }
  constructor.
  - intros q t m _ E. apply Hn in E. discriminate E.
  - intros p q i E. apply Hn in E. discriminate E.
  - intros p i E. apply Hn in E. discriminate E.
Qed.

(** A tar whose member is called "../x" is converted, and extracted next to the output directory. *)
Theorem C67_tar_slip_refuted : exists evs a g,
  tar_main t_opts (Ok (Some (Ok [Ok (t_member TRegular (b "../x") [] (b "hello"))]))) true = (evs, Ok tt) /\ In (CWritten (b "x.arx") a) evs /\
  extract_cmd t_world a (Some (b "./out")) [] None None false Error idle all_turns = (g, Ok tt) /\
  outdir (w_fs t_world) (base_of t_world (Some (b "./out"))) at_out /\ ~ below at_out (at_t ++ [b "x"]) /\
  h_names (w_fs t_world) (at_t ++ [b "x"]) = None /\ has_file g (at_t ++ [b "x"]) (b "hello").
Proof.
  do 3 eexists. split; [vm_compute; reflexivity|]. split; [right; left; reflexivity|]. split; [vm_compute; reflexivity|].
  split; [apply C56_meets_hypotheses|]. split; [intros (x & t & E); discriminate E|]. split; [reflexivity|]. exists 0. vm_compute. auto.
Qed.
Print Assumptions C67_tar_slip_refuted.

(** With --root-dir, a zip can escape too: "a/../b" below "a" is "../b". *)
Theorem C67_zip_root_dir_refuted : exists evs a g,
  zip_main (z_opts CNone) (Ok (Some [Some (mkZip [] None None (b "a/../b") true 5 6 (Ok []))])) (Ok z_file) true = (evs, Ok tt) /\
  In (CWritten (b "x.arx") a) evs /\
  extract_cmd t_world a (Some (b "./out")) [] None (Some (b "a")) false Error idle all_turns = (g, Ok tt) /\
  ~ below at_out (at_t ++ [b "b"]) /\ h_names (w_fs t_world) (at_t ++ [b "b"]) = None /\ has_file g (at_t ++ [b "b"]) (b "hello").
Proof.
  do 3 eexists. split; [vm_compute; reflexivity|]. split; [right; left; reflexivity|]. split; [vm_compute; reflexivity|].
  split; [intros (x & t & E); discriminate E|]. split; [reflexivity|]. exists 0. vm_compute. auto.
Qed.
Print Assumptions C67_zip_root_dir_refuted.

(** Two members of a zip, "a/../b" and "b", are one file on the disk: with the policy "error" the
    extraction in an empty directory fails; with "skip" it succeeds and one of them is missing. *)
Definition z_twins : list (option zip_member) :=
  [Some (mkZip [] None None (b "a/../b") true 5 6 (Ok [])); Some (mkZip [] None None (b "b") false 3 11 (Ok (b "xyz")))].
Theorem C67_zip_twins_refuted : exists evs a g g' e,
  zip_main (z_opts CNone) (Ok (Some z_twins)) (Ok z_file) true = (evs, Ok tt) /\ In (CWritten (b "x.arx") a) evs /\
  extract_cmd t_world a (Some (b "./out")) [] None None false Error idle all_turns = (g, Err e) /\
  extract_cmd t_world a (Some (b "./out")) [] None None false Skip idle all_turns = (g', Ok tt) /\
  has_file g' (at_out ++ [b "b"]) (b "hello") /\ zip_has z_file z_twins [b "b"] (GotFile (b "xyz")).
Proof.
  do 5 eexists. split; [vm_compute; reflexivity|]. split; [right; left; reflexivity|]. split; [vm_compute; reflexivity|].
  split; [vm_compute; reflexivity|]. split; [exists 0; vm_compute; auto|].
  eexists. split; [right; left; reflexivity|]. split; [split; reflexivity|]. split; [|reflexivity].
  intros H. apply zip_is_dir_spec in H. discriminate H.
Qed.
Print Assumptions C67_zip_twins_refuted.
