(** C101: when [tar2arx] and [zip2arx] succeed. *)
From Verif Require Export SucceedsConvFacts PropConvert PropConvert2.

Local Ltac bad := let H := fresh in intros H; discriminate H.

Lemma tar_named_spec o : (exists out, tar_outfile (to_out o) (to_file o) = Ok out) <-> tar_named o.
Proof.
  unfold tar_outfile, tar_named. destruct (to_out o) as [out|]; [split; eauto|]. destruct (to_file o) as [f|].
  2:{ split; [intros [out H]; discriminate H|]. intros [[out H]|(f & H & _)]; discriminate H. }
  destruct (bytes_eqb_spec f (b "-")) as [Hf|Hf].
  { split; [intros [out H]; discriminate H|]. intros [[out H]|(f' & H & H' & _)]; [discriminate H|]. injection H as <-. contradiction. }
  destruct (starts_with_comp f (b "https:") || starts_with_comp f (b "http:")) eqn:Eu.
  - apply like_url_spec in Eu. destruct (split_file_name f) as [[d n]|] eqn:Es.
    + split; [|eauto]. intros _. right. exists f. split; [reflexivity|]. split; [exact Hf|]. intros _. exists d, n. now apply split_file_spec.
    + split; [intros [out H]; discriminate H|]. intros [[out H]|(f' & H & _ & H')]; [discriminate H|]. injection H as <-. destruct (H' Eu) as (d & n & Hin). apply split_file_in in Hin. congruence.
  - split; [|eauto]. intros _. right. exists f. split; [reflexivity|]. split; [exact Hf|]. intros Hu. apply like_url_spec in Hu. congruence.
Qed.

Lemma concat_given given f : parse_concat given = Some f -> exists m, create_concat f = Ok m.
Proof.
  intros Hgiven. pose proof (C46_concat given) as H. destruct given as [|f0 [|]]; [| |congruence]; destruct H as (f' & H1 & H2); rewrite Hgiven in H1; injection H1 as ->; eauto.
Qed.

(** tar2arx succeeds exactly when the archive has a name and can be opened, the tar can be read, and its
    members can be read, have names, and do not clash. *)
Theorem C101_tar_iff : forall o input can_open given, parse_concat given = Some (to_concat o) ->
  (snd (tar_main o input can_open) = Ok tt <->
   tar_named o /\ can_open = true /\ exists items t, input = Ok (Some (Ok items)) /\ tar_lists items t /\ no_clash t).
Proof.
  intros o input can_open given Hgiven. rewrite <- tar_named_spec. destruct (concat_given _ _ Hgiven) as [m Hm]. split.
  - destruct (tar_main o input can_open) as [evs r] eqn:E. cbn [snd]. intros ->.
    destruct (tar_main_shape _ _ _ _ _ E) as [[H _]|(_ & out & m' & items & c & a & H1 & H2 & H3 & H4 & H5 & H6)]; [now destruct H|]. split; [eauto|]. split.
    + destruct can_open; [reflexivity|]. exfalso. unfold tar_main in E. rewrite H1, H2, H3 in E. cbv beta iota in E. unfold convert in E. congruence.
    + exists items. destruct (proj1 (proj1 (tar_loop_iff items c (Ok tt) H4)) eq_refl) as (t & Ht & Hnc). exists t. auto.
  - intros ([out Hout] & -> & items & t & -> & Ht & Hnc). unfold tar_main. rewrite Hout, Hm. unfold convert.
    destruct (tar_members items creator_empty) as [c r] eqn:E. destruct (tar_loop_iff items c r E) as [H1 H2].
    assert (r = Ok tt) as -> by (apply H1; eauto). destruct (H2 eq_refl) as [a ->]. reflexivity.
Qed.
Print Assumptions C101_tar_iff.

(** zip2arx, on a file that is a zip (its names are in UTF-8): when the archive can be opened and the
    members are usable and do not clash. *)
Theorem C101_zip_iff : forall o items file can_open given, parse_concat given = Some (zo_concat o) ->
  (forall m, In (Some m) items -> utf8 (zm_name m) = true) ->
  (snd (zip_main o (Ok (Some items)) (Ok file) can_open) = Ok tt <-> can_open = true /\ exists t, zip_contains items t /\ no_clash t).
Proof.
  intros o items file can_open given Hgiven Hutf. destruct (concat_given _ _ Hgiven) as [m Hm]. unfold zip_main. rewrite Hm. unfold convert.
  destruct can_open; [|split; [bad|intros [H _]; discriminate H]].
  destruct (zip_members (Ok file) items creator_empty) as [c r] eqn:E. destruct (zip_loop_iff file items c r Hutf E) as [H1 H2]. split.
  - intros H. split; [reflexivity|]. apply H1. destruct r as [[]| | |]; [reflexivity|discriminate H..].
  - intros [_ H]. apply H1 in H. subst r. destruct (H2 eq_refl) as [a ->]. reflexivity.
Qed.
Print Assumptions C101_zip_iff.

(** In particular the order of the members makes no difference. *)
Theorem C101_order : forall o oz items items' zitems zitems' file given givenz,
  parse_concat given = Some (to_concat o) -> parse_concat givenz = Some (zo_concat oz) ->
  Permutation items items' -> Permutation zitems zitems' -> (forall m, In (Some m) zitems -> utf8 (zm_name m) = true) ->
  (snd (tar_main o (Ok (Some (Ok items))) true) = Ok tt -> snd (tar_main o (Ok (Some (Ok items'))) true) = Ok tt) /\
  (snd (zip_main oz (Ok (Some zitems)) (Ok file) true) = Ok tt -> snd (zip_main oz (Ok (Some zitems')) (Ok file) true) = Ok tt).
Proof.
  intros o oz items items' zitems zitems' file given givenz Hg Hgz Hp Hpz Hutf. split.
  - rewrite !(C101_tar_iff _ _ _ _ Hg). intros (H1 & _ & items0 & t & E & Ht & Hnc). injection E as <-. split; [exact H1|]. split; [reflexivity|].
    apply tar_lists_iff in Ht. destruct (members_perm _ _ _ _ _ _ Hp Ht) as (t' & Ht1 & Ht2). exists items', t'. split; [reflexivity|]. split; [now apply tar_lists_iff|]. eapply no_clash_perm; eauto.
  - rewrite (C101_zip_iff _ _ _ _ _ Hgz Hutf), (C101_zip_iff _ _ _ _ _ Hgz). 2:{ intros m Hm. apply Hutf. eapply Permutation_in; [apply Permutation_sym; exact Hpz|exact Hm]. }
    intros (_ & t & Ht & Hnc). split; [reflexivity|]. apply zip_contains_iff in Ht. destruct (members_perm _ _ _ _ _ _ Hpz Ht) as (t' & Ht1 & Ht2).
    exists t'. split; [now apply zip_contains_iff|]. eapply no_clash_perm; eauto.
Qed.
Print Assumptions C101_order.

(** A tar with a directory given twice converts; with a file given twice, or something below a file, or
    named "..", it does not. *)
Notation t_mem ty p := (Ok (t_member ty p [] (b "x"))) (only parsing).
Example C101_meets_hypotheses :
  parse_concat [] = Some (to_concat t_opts) /\ tar_named t_opts /\ parse_concat [] = Some (zo_concat (z_opts CNone)) /\
  snd (tar_main t_opts (Ok (Some (Ok t_items))) true) = Ok tt /\
  (exists t, tar_lists t_items t /\ no_clash t) /\
  (forall m, In (Some m) z_items -> utf8 (zm_name m) = true) /\ snd (zip_main (z_opts CNone) (Ok (Some z_items)) (Ok z_file) true) = Ok tt /\
  (exists t, zip_contains z_items t /\ no_clash t) /\
  snd (tar_main t_opts (Ok (Some (Ok [t_mem TDirectory (b "d"); t_mem TDirectory (b "d/")]))) true) = Ok tt /\
  snd (tar_main t_opts (Ok (Some (Ok [t_mem TRegular (b "f"); t_mem TRegular (b "./f")]))) true) = Err EFileClash /\
  snd (tar_main t_opts (Ok (Some (Ok [t_mem TRegular (b "f/x"); t_mem TSymlink (b "f")]))) true) <> Ok tt /\
  snd (tar_main t_opts (Ok (Some (Ok [t_mem TDirectory (b "a/..")]))) true) = Panic.
Proof.
  assert (Ht : snd (tar_main t_opts (Ok (Some (Ok t_items))) true) = Ok tt) by (vm_compute; reflexivity).
  assert (Hz : snd (zip_main (z_opts CNone) (Ok (Some z_items)) (Ok z_file) true) = Ok tt) by (vm_compute; reflexivity).
  assert (Hu : forall m, In (Some m) z_items -> utf8 (zm_name m) = true).
  { intros m Hm. unfold z_items in Hm. cbn [In] in Hm. repeat (destruct Hm as [Hm|Hm]; [injection Hm as <-; vm_compute; reflexivity|]). destruct Hm. }
  split; [reflexivity|]. split; [left; eexists; reflexivity|]. split; [reflexivity|]. split; [exact Ht|]. split.
  { apply (C101_tar_iff t_opts _ true [] eq_refl) in Ht as (_ & _ & items & t & E & H). injection E as <-. eauto. }
  split; [exact Hu|]. split; [exact Hz|]. split.
  { apply (C101_zip_iff (z_opts CNone) _ _ true [] eq_refl Hu) in Hz as (_ & H). exact H. }
  split; [vm_compute; reflexivity|]. split; [vm_compute; reflexivity|]. split; [vm_compute; discriminate|]. vm_compute. reflexivity.
Qed.
