(** C49, C50: what converting a tar or a zip gives. *)
From Verif Require Export ConvertSession Demo.

Local Ltac bad := let H := fresh in intros H; discriminate H.

(** ** C49 *)
(** Every member of a converted tar is in the archive under its path with its content, target, owner,
    group, mode and time; a directory met again keeps what it got first. *)
Theorem C49_members_are_kept : forall o items can_open evs out a,
  tar_main o (Ok (Some (Ok items))) can_open = (evs, Ok tt) -> In (CWritten out a) evs ->
  N.of_nat (length (a_recs a)) < 2^32 ->
  forall l1 x l2, items = l1 ++ x :: l2 -> exists m, x = Ok m /\
    (tar_extension m \/
     exists p i nd, tar_path m p /\ has_last_name p /\ astored a i p nd /\
       (tar_becomes m (a_fetch a) nd \/
        (tar_directory m /\ fst nd = KDir /\
         exists m' q, In (Ok m') l1 /\ ~ tar_extension m' /\ tar_path m' q /\
           ((q = p /\ tar_becomes m' (a_fetch a) nd) \/ (proper_prefix p q /\ nd = (KDir, mkMeta 1000 1000 493 0)))))).
Proof.
  intros o items can_open evs out a H Hin Hsm l1 x l2 E.
  destruct (tar_main_shape _ _ _ _ _ H) as [(H' & _)|(_ & out' & m & items' & c & a' & _ & _ & E1 & E2 & E3 & ->)]; [easy|].
  injection E1 as <-. destruct Hin as [Hin|[Hin|[]]]; [discriminate Hin|]. injection Hin as -> ->.
  rewrite tar_loop in E2. destruct (loop_means _ _ tar_good tar_skip (fun _ => True) (fun x l l' oe _ => tar_made x l l' oe) tar_mono items c) as (l & P1 & P2 & P3 & P4); auto.
  { apply Forall_forall. auto. }
  destruct (finalized c a l P1 E3 Hsm) as [F1 F2]. rewrite F1. destruct (P3 l1 x l2 E) as [(m' & -> & Hx)|(p & nd0 & nd & G1 & G2 & G3 & G4)].
  - exists m'. auto.
  - destruct G1 as (m' & -> & Hne & Hp & Hb). exists m'. split; auto. right. apply F2 in G3 as [i Hi]. exists p, i, nd. split; auto. split; auto. split; auto.
    destruct G4 as [->|(K1 & K2 & K3)]; auto. right. split; [now apply (tar_kind_dir _ _ _ Hb)|]. split; auto.
    destruct K3 as [(y & Hy & m2 & -> & Q1 & Q2 & Q3)|(-> & y & q & nd' & Hy & (m2 & -> & Q1 & Q2 & Q3) & Q4)].
    + exists m2, p. auto 10.
    + exists m2, q. auto 10.
Qed.
Print Assumptions C49_members_are_kept.

(** Nothing else is in the archive: each entry is a member, or a directory on the way to one. *)
Theorem C49_nothing_else : forall o items can_open evs out a,
  tar_main o (Ok (Some (Ok items))) can_open = (evs, Ok tt) -> In (CWritten out a) evs ->
  N.of_nat (length (a_recs a)) < 2^32 ->
  forall i p nd, astored a i p nd -> exists m q, In (Ok m) items /\ ~ tar_extension m /\ tar_path m q /\
    ((q = p /\ tar_becomes m (a_fetch a) nd) \/ (proper_prefix p q /\ nd = (KDir, mkMeta 1000 1000 493 0))).
Proof.
  intros o items can_open evs out a H Hin Hsm i p nd Hst.
  destruct (tar_main_shape _ _ _ _ _ H) as [(H' & _)|(_ & out' & m & items' & c & a' & _ & _ & E1 & E2 & E3 & ->)]; [easy|].
  injection E1 as <-. destruct Hin as [Hin|[Hin|[]]]; [discriminate Hin|]. injection Hin as -> ->.
  rewrite tar_loop in E2. destruct (loop_means _ _ tar_good tar_skip (fun _ => True) (fun x l l' oe _ => tar_made x l l' oe) tar_mono items c) as (l & P1 & P2 & P3 & P4); auto.
  { apply Forall_forall. auto. }
  destruct (finalized c a l P1 E3 Hsm) as [F1 F2]. rewrite F1.
  destruct (P4 p nd) as [(y & Hy & m2 & -> & Q1 & Q2 & Q3)|(-> & y & q & nd' & Hy & (m2 & -> & Q1 & Q2 & Q3) & Q4)].
  - apply F2. eauto.
  - exists m2, p. auto 10.
  - exists m2, q. auto 10.
Qed.
Print Assumptions C49_nothing_else.

(** A tar whose members can be read and do not clash is converted. *)
Theorem C49_converts : forall o items t out m, tar_outfile (to_out o) (to_file o) = Ok out -> create_concat (to_concat o) = Ok m ->
  tar_lists items t -> no_clash t ->
  exists a, tar_main o (Ok (Some (Ok items))) true = ([COpened out m (to_comp o); CWritten out a], Ok tt).
Proof.
  intros o items t out m Ho Hm Ht Hnc.
  destruct (listed_loop _ tar_conv tar_good tar_skip (fun _ => True) (fun x l l' oe _ => tar_made x l l' oe) tar_mono
    (fun x => exists m, x = Ok m /\ tar_directory m) tar_good_dir items t (tar_lists_listed _ _ Ht) Hnc) as (c & E & ps & _ & E2 & _).
  destruct (finalize_some c _ E2) as [a Ha]. exists a. unfold tar_main. rewrite Ho, Hm. unfold convert. rewrite tar_loop, E, Ha. reflexivity.
Qed.
Print Assumptions C49_converts.

(** Whatever the tar, an archive is written only by a conversion that succeeds. *)
Theorem C49_all_or_nothing : forall o input can_open evs r, tar_main o input can_open = (evs, r) ->
  (r = Ok tt <-> exists out a, In (CWritten out a) evs).
Proof.
  intros o input can_open evs r H. destruct (tar_main_shape _ _ _ _ _ H) as [(H' & [->|(out & m & _ & ->)])|(-> & out & m & items & c & a & _ & _ & _ & _ & _ & ->)].
  - split; [easy|]. intros (out & a & []).
  - split; [easy|]. intros (out' & a & [Hx|[]]). discriminate Hx.
  - split; auto. intros _. exists out, a. cbn. auto.
Qed.
Print Assumptions C49_all_or_nothing.

(** A demonstration tar: a global header, a directory, a file, a link, a hard link. *)
Definition t_member (ty : tar_type) (p : bytes) (link data : bytes) : tar_member :=
  mkTar (Ok 10) (Ok 20) (Ok 1000000) (Ok 420) (Ok p) ty (Ok (Some link)) true p (Ok data).
Definition t_opts : tar_opts := mkTarOpts (Some (b "x.tar")) (Some (b "x.arx")) None (CZstd 5).
Definition t_items : list (res tar_member) :=
  [Ok (t_member TXGlobalHeader (b "pax_global_header") [] []); Ok (t_member TDirectory (b "d/") [] []);
   Ok (t_member TRegular (b "d/f") [] (b "hello")); Ok (t_member TSymlink (b "./l") (b "d/f") []);
   Ok (t_member TLink (b "d/h") (b "d/f") [])].

Example C49_meets_hypotheses : tar_lists t_items [([b "d"], true); ([b "d"; b "f"], false); ([b "l"], false); ([b "d"; b "h"], false)] /\
  no_clash [([b "d"], true); ([b "d"; b "f"], false); ([b "l"], false); ([b "d"; b "h"], false)].
Proof.
  assert (Hr : forall ty p link data, is_abs p = false -> forallb utf8 (filter not_dot (pieces p)) = true ->
    tar_readable (t_member ty p link data) /\ tar_path (t_member ty p link data) (filter not_dot (pieces p))).
  { intros ty p link data H1 H2. assert (Hp : tar_path (t_member ty p link data) (filter not_dot (pieces p))).
    { exists p. repeat split; auto. apply Forall_forall. now apply forallb_forall. }
    split; auto. split; [eauto|]. split; [exists (mkMeta 10 20 420 1000000); repeat split|]. split; intros _; cbn; eauto. }
  split.
  - unfold t_items. apply (tl_one [_; _; _; _] [_; _; _]); [| | | |].
    1: apply (tl_one [_; _; _] [_; _]). 1: apply (tl_one [_; _] [_]). 1: apply (tl_one [_] []). 1: apply (tl_ext [] []); [apply tl_nil| |].
    all: try (apply Hr; reflexivity).
    all: unfold tar_extension, tar_directory, t_member; cbn; intuition congruence.
  - apply (nc_snoc [_; _; _]). 1: apply (nc_snoc [_; _]). 1: apply (nc_snoc [_]). 1: apply (nc_snoc []). 1: apply nc_nil.
    1: exists [], (b "d"); split; [auto|discriminate].
    2: exists [b "d"], (b "f"); split; [auto|discriminate].
    3: exists [], (b "l"); split; [auto|discriminate].
    4: exists [b "d"], (b "h"); split; [auto|discriminate].
    all: intros q d' Hq; cbn [In] in Hq; repeat (destruct Hq as [Hq|Hq]); try contradiction; injection Hq as <- <-;
      (split; [try discriminate; auto|split; [try easy; intros (x & t & E); cbn in E; discriminate E|intros (x & t & E); cbn in E; discriminate E]]).
Qed.

(** What does not hold: the content of a hard link is lost (an empty file is archived). *)
Theorem C49_hard_links_refuted : exists items evs out a i j mt mt' addr addr',
  tar_main t_opts (Ok (Some (Ok items))) true = (evs, Ok tt) /\ In (CWritten out a) evs /\
  In (Ok (t_member TRegular (b "d/f") [] (b "hello"))) items /\
  In (Ok (t_member TLink (b "d/h") (b "d/f") [])) items /\
  astored a i [b "d"; b "f"] (KFile 5 addr, mt) /\ a_fetch a addr = Found (b "hello") /\
  astored a j [b "d"; b "h"] (KFile 0 addr', mt') /\ a_fetch a addr' = Found [].
Proof.
  exists t_items, (fst (tar_main t_opts (Ok (Some (Ok t_items))) true)), (b "x.arx").
  destruct (finalize (fst (tar_members t_items creator_empty))) as [a|] eqn:E; [|vm_compute in E; discriminate E].
  exists a, 2, 3, (mkMeta 10 20 420 1000000), (mkMeta 10 20 420 1000000), (mkAddr 1 0), (mkAddr 1 1).
  split; [vm_compute; reflexivity|]. split; [|split; [cbn; auto|split; [cbn; auto 10|]]].
  - unfold tar_main, convert. cbn [t_opts to_out to_file to_concat tar_outfile create_concat].
    destruct (tar_members t_items creator_empty) as [c r] eqn:Er. assert (r = Ok tt) as -> by (vm_compute in Er; congruence).
    cbn [fst] in E. rewrite E. cbn. auto.
  - vm_compute in E. injection E as <-. split; [|split; [reflexivity|split; [|reflexivity]]].
    + eexists. split; [reflexivity|]. split; [|reflexivity].
      eapply (apath_sub_eq _ 2 _ 0 [b "d"]); [reflexivity|reflexivity| |reflexivity]. eapply apath_top_eq; reflexivity.
    + eexists. split; [reflexivity|]. split; [|reflexivity].
      eapply (apath_sub_eq _ 3 _ 0 [b "d"]); [reflexivity|reflexivity| |reflexivity]. eapply apath_top_eq; reflexivity.
Qed.
Print Assumptions C49_hard_links_refuted.

(** ... a tar made with "tar c ." aborts the converter, as does an absolute path, and ".." components are
    archived as directories. *)
Theorem C49_any_tar_refuted :
  snd (tar_main t_opts (Ok (Some (Ok [Ok (t_member TDirectory (b "./") [] [])]))) true) = Panic /\
  snd (tar_main t_opts (Ok (Some (Ok [Ok (t_member TRegular (b "/etc/passwd") [] [])]))) true) = Panic /\
  exists a i nd evs, tar_main t_opts (Ok (Some (Ok [Ok (t_member TRegular (b "../x") [] [])]))) true = (evs, Ok tt) /\
    In (CWritten (b "x.arx") a) evs /\ astored a i [b ".."; b "x"] nd.
Proof.
  split; [vm_compute; reflexivity|]. split; [vm_compute; reflexivity|]. eexists. exists 1. do 2 eexists. split; [vm_compute; reflexivity|].
  split; [right; left; reflexivity|].
  eexists. split; [reflexivity|]. split; [|reflexivity]. eapply (apath_sub_eq _ 1 _ 0 [b ".."]); [reflexivity|reflexivity| |reflexivity].
  eapply apath_top_eq; reflexivity.
Qed.
Print Assumptions C49_any_tar_refuted.

(** ** C50 *)
(** The bytes of the stored members are inside the zip file. *)
Theorem C50_members_are_kept : forall o items file can_open evs out a,
  zip_main o (Ok (Some items)) (Ok file) can_open = (evs, Ok tt) -> In (CWritten out a) evs ->
  (forall m, In (Some m) items -> zip_fitting file m) -> N.of_nat (length (a_recs a)) < 2^32 ->
  forall l1 x l2, items = l1 ++ x :: l2 -> exists m p i nd, x = Some m /\
    safe_name (zm_name m) /\ stands_for (zm_name m) p /\ has_last_name p /\ astored a i p nd /\
    (zip_becomes file m (a_fetch a) nd \/
     (zip_directory m /\ fst nd = KDir /\
      exists m' q, In (Some m') l1 /\ stands_for (zm_name m') q /\
        ((q = p /\ zip_becomes file m' (a_fetch a) nd) \/ (proper_prefix p q /\ nd = (KDir, mkMeta 1000 1000 493 0))))).
Proof.
  intros o items file can_open evs out a H Hin Hfit Hsm l1 x l2 E.
  destruct (zip_main_shape _ _ _ _ _ _ H) as [(H' & _)|(_ & m & items' & c & a' & _ & E1 & E2 & E3 & ->)]; [easy|].
  injection E1 as <-. destruct Hin as [Hin|[Hin|[]]]; [discriminate Hin|]. injection Hin as <- ->.
  rewrite zip_loop in E2. destruct (loop_means _ _ (zip_good file) (fun _ => False) (zip_fits file) (zip_made file) (zip_mono file) items c) as (l & P1 & P2 & P3 & P4); auto.
  { apply Forall_forall. intros [y|] Hy; cbn; auto. }
  destruct (finalized c a l P1 E3 Hsm) as [F1 F2]. rewrite F1. destruct (P3 l1 x l2 E) as [[]|(p & nd0 & nd & G1 & G2 & G3 & G4)].
  destruct G1 as (m' & -> & Hp & Hsf & Hb). apply F2 in G3 as [i Hi]. exists m', p, i, nd. split; auto. split; auto. split; auto. split; auto. split; auto.
  destruct G4 as [->|(K1 & K2 & K3)]; auto. right. split.
  { destruct (zip_good_dir file (Some m') (fetch_of (cr_contents c)) p nd0) as [G _]; [exists m'; auto|].
    destruct (G K1) as (m2 & Em & Hd). now injection Em as <-. }
  split; auto. destruct K3 as [(y & Hy & m2 & -> & Q1 & Q2 & Q3)|(-> & y & q & nd' & Hy & (m2 & -> & Q1 & Q2 & Q3) & Q4)].
  - exists m2, p. auto 10.
  - exists m2, q. auto 10.
Qed.
Print Assumptions C50_members_are_kept.

Theorem C50_nothing_else : forall o items file can_open evs out a,
  zip_main o (Ok (Some items)) (Ok file) can_open = (evs, Ok tt) -> In (CWritten out a) evs ->
  (forall m, In (Some m) items -> zip_fitting file m) -> N.of_nat (length (a_recs a)) < 2^32 ->
  forall i p nd, astored a i p nd -> exists m q, In (Some m) items /\ stands_for (zm_name m) q /\
    ((q = p /\ zip_becomes file m (a_fetch a) nd) \/ (proper_prefix p q /\ nd = (KDir, mkMeta 1000 1000 493 0))).
Proof.
  intros o items file can_open evs out a H Hin Hfit Hsm i p nd Hst.
  destruct (zip_main_shape _ _ _ _ _ _ H) as [(H' & _)|(_ & m & items' & c & a' & _ & E1 & E2 & E3 & ->)]; [easy|].
  injection E1 as <-. destruct Hin as [Hin|[Hin|[]]]; [discriminate Hin|]. injection Hin as <- ->.
  rewrite zip_loop in E2. destruct (loop_means _ _ (zip_good file) (fun _ => False) (zip_fits file) (zip_made file) (zip_mono file) items c) as (l & P1 & P2 & P3 & P4); auto.
  { apply Forall_forall. intros [y|] Hy; cbn; auto. }
  destruct (finalized c a l P1 E3 Hsm) as [F1 F2]. rewrite F1.
  destruct (P4 p nd) as [(y & Hy & m2 & -> & Q1 & Q2 & Q3)|(-> & y & q & nd' & Hy & (m2 & -> & Q1 & Q2 & Q3) & Q4)].
  - apply F2. eauto.
  - exists m2, p. auto 10.
  - exists m2, q. auto 10.
Qed.
Print Assumptions C50_nothing_else.

(** An unsafe name (absolute, with a NUL, or going above its start) makes the conversion fail: no archive
    is written. *)
Theorem C50_unsafe_names_refused : forall o items file can_open evs r m,
  zip_main o (Ok (Some items)) (Ok file) can_open = (evs, r) -> In (Some m) items -> ~ safe_name (zm_name m) ->
  r <> Ok tt /\ forall out a, ~ In (CWritten out a) evs.
Proof.
  intros o items file can_open evs r m H Hin Hs. destruct (zip_main_shape _ _ _ _ _ _ H) as [(H' & [->|(x & ->)])|(-> & x & items' & c & a' & _ & E1 & E2 & E3 & ->)].
  - auto.
  - split; auto. intros out a [Hx|[]]. discriminate Hx.
  - exfalso. injection E1 as <-. revert c E2 E3. clear H. intros c E2 _. generalize dependent creator_empty. induction items as [|y items IH]; [easy|].
    intros c0. cbn [zip_members]. destruct Hin as [->|Hin].
    + unfold zip_entry. destruct (zip_mtime m); cbn [bind]; try bad. destruct (enclosed_spec (zm_name m)) as [_ S]. rewrite (proj2 S Hs). bad.
    + destruct y as [y|]; [|bad]. destruct (zip_entry (Ok file) y (cr_contents c0)) as [[l e]| | |]; try bad.
      destruct (add_entry (cr_entries c0) e) as [st [[]| | |]]; try bad. now apply IH.
Qed.
Print Assumptions C50_unsafe_names_refused.

(** A zip whose members can be read and do not clash is converted. *)
Theorem C50_converts : forall o items file t m, create_concat (zo_concat o) = Ok m ->
  (forall m, In (Some m) items -> zip_fitting file m) -> zip_lists items t -> no_clash t ->
  exists a, zip_main o (Ok (Some items)) (Ok file) true = ([COpened (zo_out o) m (CZstd 5); CWritten (zo_out o) a], Ok tt).
Proof.
  intros o items file t m Hm Hfit Ht Hnc.
  destruct (listed_loop _ (zip_conv (Ok file)) (zip_good file) (fun _ => False) (zip_fits file) (zip_made file) (zip_mono file)
    (fun x => exists m, x = Some m /\ zip_directory m) (zip_good_dir file) items t (zip_lists_listed _ _ _ Hfit Ht) Hnc) as (c & E & ps & _ & E2 & _).
  destruct (finalize_some c _ E2) as [a Ha]. exists a. unfold zip_main. rewrite Hm. unfold convert. rewrite zip_loop, E, Ha. reflexivity.
Qed.
Print Assumptions C50_converts.

(** A demonstration zip of 30 bytes: a directory, a stored file, a deflated one. *)
Definition z_file : bytes := b "......hello..................".
Definition z_items : list (option zip_member) :=
  [Some (mkZip [] None (Some 16877) (b "d/") true 0 0 (Ok [])); (* 040755 *)
   Some (mkZip [Some 5; Some 7] (Some (Some 315532800%Z)) None (b "d/f") true 5 6 (Err EUtf8));
   Some (mkZip [None] (Some (Some 315532800%Z)) (Some 41471) (b "./l") false 3 11 (Ok (b "d/f")))]. (* 0120777 *)
Definition z_opts (x : compression) : zip_opts := mkZipOpts (b "x.arx") None x.

Example C50_meets_hypotheses : zip_lists z_items [([b "d"], true); ([b "d"; b "f"], false); ([b "l"], false)] /\
  no_clash [([b "d"], true); ([b "d"; b "f"], false); ([b "l"], false)] /\
  (forall m, In (Some m) z_items -> zip_fitting z_file m).
Proof.
  assert (Hsafe : forall s, enclosed_name s = Some s -> safe_name s) by (intros s; apply enclosed_spec).
  split; [|split].
  - unfold z_items. apply (zl_one [_; _] [_; _]). 1: apply (zl_one [_] [_]). 1: apply (zl_one [] []). 1: apply zl_nil.
    all: try (split; reflexivity).
    all: try (split; [reflexivity|split; [apply Hsafe; reflexivity|split; [eexists; apply zip_mtime_spec; reflexivity|cbn; eauto; easy]]]).
    + rewrite <- zip_is_dir_spec. cbn. tauto.
    + rewrite <- zip_is_dir_spec. cbn. easy.
    + rewrite <- zip_is_dir_spec. cbn. easy.
  - apply (nc_snoc [_; _]). 1: apply (nc_snoc [_]). 1: apply (nc_snoc []). 1: apply nc_nil.
    1: exists [], (b "d"); split; [auto|discriminate].
    2: exists [b "d"], (b "f"); split; [auto|discriminate].
    3: exists [], (b "l"); split; [auto|discriminate].
    all: intros q d' Hq; cbn [In] in Hq; repeat (destruct Hq as [Hq|Hq]); try contradiction; injection Hq as <- <-;
      (split; [try discriminate; auto|split; [try easy; intros (x & t & E); cbn in E; discriminate E|intros (x & t & E); cbn in E; discriminate E]]).
  - intros m Hm. unfold zip_fitting, z_items in *. cbn [In] in Hm.
    destruct Hm as [Hm|[Hm|[Hm|[]]]]; injection Hm as <-; cbn [zm_stored zm_start zm_size]; intros Hs; try discriminate Hs; vm_compute; discriminate.
Qed.

(** The compression asked for is ignored: zstd at level 5, whatever the option. *)
Theorem C50_compression_refuted : forall o items file evs r out m x,
  zip_main o (Ok (Some items)) (Ok file) true = (evs, r) -> In (COpened out m x) evs -> x = CZstd 5.
Proof.
  intros o items file evs r out m x H Hin. destruct (zip_main_shape _ _ _ _ _ _ H) as [(H' & [->|(y & ->)])|(-> & y & items' & c & a' & _ & E1 & E2 & E3 & ->)]; [easy| |].
  - destruct Hin as [Hin|[]]. congruence.
  - destruct Hin as [Hin|[Hin|[]]]; [congruence|discriminate Hin].
Qed.
Print Assumptions C50_compression_refuted.
Example C50_compression_meets : exists evs, zip_main (z_opts CNone) (Ok (Some z_items)) (Ok z_file) true = (evs, Ok tt) /\
  In (COpened (b "x.arx") OneFile (CZstd 5)) evs.
Proof. eexists. split; [vm_compute; reflexivity|]. cbn. auto. Qed.

(** A symbolic link of a zip (unix mode 0120777) becomes a regular file. *)
Theorem C50_links_refuted : exists evs a i addr mt m,
  zip_main (z_opts CNone) (Ok (Some z_items)) (Ok z_file) true = (evs, Ok tt) /\ In (CWritten (b "x.arx") a) evs /\
  In (Some m) z_items /\ zm_name m = b "./l" /\ zm_mode m = Some 41471 /\
  astored a i [b "l"] (KFile 3 addr, mt) /\ a_fetch a addr = Found (b "d/f").
Proof.
  do 2 eexists. exists 1, (mkAddr 1 1). do 2 eexists. split; [vm_compute; reflexivity|]. split; [right; left; reflexivity|].
  split; [right; right; left; reflexivity|]. split; [reflexivity|]. split; [reflexivity|]. split; [|reflexivity].
  eexists. split; [reflexivity|]. split; [|reflexivity]. eapply apath_top_eq; reflexivity.
Qed.
Print Assumptions C50_links_refuted.

(** "a/../b" is accepted as safe, and archived with a directory called "..". *)
Theorem C50_parent_components_refuted : exists evs a i nd,
  zip_main (z_opts CNone) (Ok (Some [Some (mkZip [] None None (b "a/../b") true 0 0 (Ok []))])) (Ok z_file) true = (evs, Ok tt) /\
  In (CWritten (b "x.arx") a) evs /\ astored a i [b "a"; b ".."; b "b"] nd.
Proof.
  do 2 eexists. exists 2. eexists. split; [vm_compute; reflexivity|]. split; [right; left; reflexivity|].
  eexists. split; [reflexivity|]. split; [|reflexivity]. eapply (apath_sub_eq _ 2 _ 1 [b "a"; b ".."]); [reflexivity|reflexivity| |reflexivity].
  eapply (apath_sub_eq _ 1 _ 0 [b "a"]); [reflexivity|reflexivity| |reflexivity]. eapply apath_top_eq; reflexivity.
Qed.
Print Assumptions C50_parent_components_refuted.
