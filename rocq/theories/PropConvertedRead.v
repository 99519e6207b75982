(** C86: a converted tar or zip, through every way of reading it. *)
From Verif Require Export ConvertedReadFacts.

(** [tar2arx] *)
Theorem C86_tar : forall o items can_open evs out a,
  tar_main o (Ok (Some (Ok items))) can_open = (evs, Ok tt) -> In (CWritten out a) evs -> N.of_nat (length (a_recs a)) < 2^32 ->
  list_gives (tar_has items) a /\ dump_gives (tar_has items) a /\ python_gives (tar_has items) (tar_about items) a /\
  (tar_showable items -> mount_gives (tar_has items) (tar_about items) a).
Proof.
  intros o items can_open evs out a H Hin Hsm. destruct (tar_session _ _ _ _ _ _ H Hin Hsm) as (l & Hs & Ha).
  pose proof (tar_kept _ _ _ _ _ _ H Hin Hsm l Hs Ha) as K1. pose proof (tar_only _ _ _ _ _ _ H Hin Hsm l Hs Ha) as K2.
  pose proof (tar_tells _ _ _ _ _ _ H Hin Hsm l Hs Ha) as K3.
  split; [exact (things_listed l a _ Hs Ha K1 K2)|]. split; [exact (things_dumped l a _ Hs Ha K1 K2)|].
  split.
  - apply (things_in_python l a _ _ Hs Ha K1 K2 K3). intros p t n (m & _ & _ & (s & _ & _ & Hu) & _) Hn. rewrite Forall_forall in Hu. auto.
  - intros Hsh. apply (things_mounted l a _ _ Hs Ha K1 K2 K3). exact (tar_shows _ _ _ _ _ _ H Hin Hsm l Hs Ha Hsh).
Qed.
Print Assumptions C86_tar.

(** [zip2arx] *)
Theorem C86_zip : forall o items file can_open evs out a,
  zip_main o (Ok (Some items)) (Ok file) can_open = (evs, Ok tt) -> In (CWritten out a) evs ->
  (forall m, In (Some m) items -> zip_fitting file m) -> N.of_nat (length (a_recs a)) < 2^32 ->
  list_gives (zip_has file items) a /\ dump_gives (zip_has file items) a /\ python_gives (zip_has file items) (zip_about items) a /\
  (zip_showable items -> mount_gives (zip_has file items) (zip_about items) a).
Proof.
  intros o items file can_open evs out a H Hin Hfit Hsm. destruct (zip_session _ _ _ _ _ _ _ H Hin Hfit Hsm) as (l & Hs & Ha).
  pose proof (zip_kept _ _ _ _ _ _ _ H Hin Hfit Hsm l Hs Ha) as K1. pose proof (zip_only _ _ _ _ _ _ _ H Hin Hfit Hsm l Hs Ha) as K2.
  pose proof (zip_tells _ _ _ _ _ _ _ H Hin Hfit Hsm l Hs Ha) as K3.
  split; [exact (things_listed l a _ Hs Ha K1 K2)|]. split; [exact (things_dumped l a _ Hs Ha K1 K2)|].
  split.
  - apply (things_in_python l a _ _ Hs Ha K1 K2 K3). exact (zip_utf8 _ _ _ _ _ H).
  - intros Hsh. apply (things_mounted l a _ _ Hs Ha K1 K2 K3). exact (zip_shows _ _ _ _ _ _ _ H Hin Hfit Hsm l Hs Ha Hsh).
Qed.
Print Assumptions C86_zip.

(** The demonstration tar of C49: what is asked of it, what it has. *)
Lemma t_has ty p link data t : In (Ok (t_member ty p link data)) t_items -> ~ tar_extension (t_member ty p link data) ->
  is_abs p = false -> forallb utf8 (filter not_dot (pieces p)) = true -> tar_thing (t_member ty p link data) t ->
  tar_has t_items (filter not_dot (pieces p)) t.
Proof.
  intros H1 H2 H3 H4 Ht. exists (t_member ty p link data). split; auto. split; auto. split; auto. exists p. repeat split; auto.
  apply Forall_forall. now apply forallb_forall.
Qed.
Definition t_arx : archive := match fst (tar_main t_opts (Ok (Some (Ok t_items))) true) with [_; CWritten _ a] => a | _ => demo_arx end.
Example C86_meets_hypotheses : exists evs h st e,
  tar_main t_opts (Ok (Some (Ok t_items))) true = (evs, Ok tt) /\ In (CWritten (b "x.arx") t_arx) evs /\ N.of_nat (length (a_recs t_arx)) < 2^32 /\
  tar_showable t_items /\ tar_has t_items [b "d"; b "f"] (GotFile (b "hello")) /\ tar_about t_items [b "d"; b "f"] (mkMeta 10 20 420 1000000) /\
  tar_about t_items [b "d"] (mkMeta 10 20 420 1000000) /\
  list_cmd t_arx None = (text [b "d"; b "d/f"; b "d/h"; b "l"], Ok tt) /\ dump t_world t_arx (b "d/f") None = (b "hello", Ok tt) /\
  resolves t_arx (a_root t_arx) h st [b "d"; b "f"] (Reached 4 FtFile) /\
  py_get_entry t_arx (b "./d/f") = Ok e /\ py_owner e = 10 /\ py_group e = 20.
Proof.
  assert (H0 : resolves t_arx (a_root t_arx) [] fs_new [] (Reached 1 FtDir)) by (apply res_root; constructor).
  serving H0 S1 (Lookup 1 (b "d")). pose proof (res_down _ _ _ _ _ _ _ _ _ H0 S1) as H1.
  serving H1 S2 (Lookup 2 (b "f")). pose proof (res_down _ _ _ _ _ _ _ _ _ H1 S2) as H2.
  do 4 eexists. split; [vm_compute; reflexivity|]. split; [right; left; vm_compute; reflexivity|]. split; [vm_compute; reflexivity|].
  assert (Hfile : ~ tar_extension (t_member TRegular (b "d/f") [] (b "hello")) /\ ~ tar_directory (t_member TRegular (b "d/f") [] (b "hello"))).
  { unfold tar_extension, tar_directory; cbn. intuition congruence. }
  split; [|split; [|split; [|split]]].
  - intros m Hm _. unfold t_items in Hm. cbn [In] in Hm.
    destruct Hm as [Hm|[Hm|[Hm|[Hm|[Hm|[]]]]]]; injection Hm as <-; cbn [t_member tm_mtime tm_link tm_data];
      (split; [intros ? E; injection E as <-; reflexivity|split; intros ? E; injection E as <-; reflexivity]).
  - apply (t_has TRegular (b "d/f") [] (b "hello")); [unfold t_items; cbn [In]; tauto|apply Hfile|reflexivity|reflexivity|].
    split; [|reflexivity]. split; [apply Hfile|]. split; [apply Hfile|]. discriminate.
  - exists [Ok (t_member TXGlobalHeader (b "pax_global_header") [] []); Ok (t_member TDirectory (b "d/") [] [])]. do 2 eexists.
    split; [reflexivity|]. split; [apply Hfile|]. split; [exists (b "d/f"); repeat split; repeat constructor|].
    split; [repeat split|]. intros Hd. now apply Hfile in Hd.
  - exists [Ok (t_member TXGlobalHeader (b "pax_global_header") [] [])]. do 2 eexists.
    split; [reflexivity|]. split; [unfold tar_extension; cbn; intuition congruence|]. split; [exists (b "d/"); repeat split; repeat constructor|].
    split; [repeat split|]. intros _ m' q [Hm|[]] Hne _. injection Hm as <-. exfalso. apply Hne. unfold tar_extension. cbn. auto.
  - split; [vm_compute; reflexivity|]. split; [vm_compute; reflexivity|]. split; [exact H2|].
    split; [vm_compute; reflexivity|]. split; vm_compute; reflexivity.
Qed.

(** The demonstration zip of C50. *)
Definition z_arx : archive := match fst (zip_main (z_opts CNone) (Ok (Some z_items)) (Ok z_file) true) with [_; CWritten _ a] => a | _ => demo_arx end.
Example C86_zip_meets : exists evs h st e,
  zip_main (z_opts CNone) (Ok (Some z_items)) (Ok z_file) true = (evs, Ok tt) /\ In (CWritten (b "x.arx") z_arx) evs /\
  (forall m, In (Some m) z_items -> zip_fitting z_file m) /\ N.of_nat (length (a_recs z_arx)) < 2^32 /\
  zip_showable z_items /\ zip_has z_file z_items [b "d"; b "f"] (GotFile (b "hello")) /\ zip_about z_items [b "d"; b "f"] (mkMeta 0 0 420 7) /\
  list_cmd z_arx None = (text [b "d"; b "d/f"; b "l"], Ok tt) /\ dump t_world z_arx (b "d/f") None = (b "hello", Ok tt) /\
  resolves z_arx (a_root z_arx) h st [b "d"; b "f"] (Reached 4 FtFile) /\
  py_get_entry z_arx (b "./d/f") = Ok e /\ py_rights e = 164 /\ py_mtime e = 7.
Proof.
  assert (H0 : resolves z_arx (a_root z_arx) [] fs_new [] (Reached 1 FtDir)) by (apply res_root; constructor).
  serving H0 S1 (Lookup 1 (b "d")). pose proof (res_down _ _ _ _ _ _ _ _ _ H0 S1) as H1.
  serving H1 S2 (Lookup 2 (b "f")). pose proof (res_down _ _ _ _ _ _ _ _ _ H1 S2) as H2.
  do 4 eexists. split; [vm_compute; reflexivity|]. split; [right; left; vm_compute; reflexivity|]. split; [apply C50_meets_hypotheses|].
  split; [vm_compute; reflexivity|].
  assert (Hfile : ~ zip_directory (mkZip [Some 5; Some 7] (Some (Some 315532800%Z)) None (b "d/f") true 5 6 (Err EUtf8))).
  { intros H. apply zip_is_dir_spec in H. discriminate H. }
  split; [|split; [|split]].
  - intros m Hm. unfold z_items in Hm. cbn [In] in Hm.
    destruct Hm as [Hm|[Hm|[Hm|[]]]]; injection Hm as <-; (split; [|reflexivity]); intros t Ht; apply zip_mtime_spec in Ht; vm_compute in Ht; injection Ht as <-; reflexivity.
  - eexists. split; [right; left; reflexivity|]. split; [split; reflexivity|]. split; [exact Hfile|].
    exists (b "......"), (b ".................."). repeat split.
  - exists [Some (mkZip [] None (Some 16877) (b "d/") true 0 0 (Ok []))]. do 2 eexists. split; [reflexivity|]. split; [split; reflexivity|].
    split; [reflexivity|]. split; [reflexivity|]. split; [right; split; reflexivity|]. split; [left; exists [Some 5]; reflexivity|]. intros Hd. now apply Hfile in Hd.
  - split; [vm_compute; reflexivity|]. split; [vm_compute; reflexivity|]. split; [exact H2|].
    split; [vm_compute; reflexivity|]. split; vm_compute; reflexivity.
Qed.

(** The condition on directories matters: a directory listed after what it holds keeps the default
    attributes (owner and group 1000, no modification time), not its own. *)
Definition t_late : list (res tar_member) :=
  [Ok (t_member TRegular (b "d/f") [] (b "hello")); Ok (t_member TDirectory (b "d") [] [])].
Theorem C86_late_directories_refuted : exists evs a e,
  tar_main t_opts (Ok (Some (Ok t_late))) true = (evs, Ok tt) /\ In (CWritten (b "x.arx") a) evs /\
  tar_has t_late [b "d"] GotDir /\ tm_uid (t_member TDirectory (b "d") [] []) = Ok 10 /\ tm_mtime (t_member TDirectory (b "d") [] []) = Ok 1000000 /\
  py_get_entry a (b "d") = Ok e /\ py_owner e = 1000 /\ py_mtime e = 0.
Proof.
  do 3 eexists. split; [vm_compute; reflexivity|]. split; [right; left; reflexivity|]. split.
  - exists (t_member TDirectory (b "d") [] []). split; [right; left; reflexivity|]. split; [unfold tar_extension; cbn; intuition congruence|].
    split; [exists (b "d"); repeat split; repeat constructor|]. left. reflexivity.
  - split; [reflexivity|]. split; [reflexivity|]. split; [vm_compute; reflexivity|]. split; vm_compute; reflexivity.
Qed.
Print Assumptions C86_late_directories_refuted.
