(** C51: the name of the archive made by tar2arx. *)
From Verif Require Export ConvertNames.

Lemma written_at o input ok evs r out a : tar_main o input ok = (evs, r) -> In (CWritten out a) evs -> tar_outfile (to_out o) (to_file o) = Ok out.
Proof.
  unfold tar_main, convert. intros H Hin.
  destruct (tar_outfile (to_out o) (to_file o)) as [o'| | |] eqn:E; [|injection H as <- <-; contradiction..].
  f_equal. destruct input as [[s|]| | |]; try (injection H as <- <-; contradiction).
  destruct (create_concat (to_concat o)) as [m| | |]; try (injection H as <- <-; contradiction).
  destruct ok; [|injection H as <- <-; contradiction].
  destruct s as [items|e| |].
  - destruct (tar_members items creator_empty) as [c x]. destruct x as [u|e| |].
    + destruct (finalize c) as [a'|]; injection H as <- <-.
      * destruct Hin as [Hin|[Hin|[]]]; [discriminate Hin|congruence].
      * destruct Hin as [Hin|[]]; discriminate Hin.
    + injection H as <- <-. destruct Hin as [Hin|[]]; discriminate Hin.
    + injection H as <- <-. destruct Hin as [Hin|[]]; discriminate Hin.
    + injection H as <- <-. destruct Hin as [Hin|[]]; discriminate Hin.
  - injection H as <- <-. destruct Hin as [Hin|[]]; discriminate Hin.
  - injection H as <- <-. destruct Hin as [Hin|[]]; discriminate Hin.
  - injection H as <- <-. destruct Hin as [Hin|[]]; discriminate Hin.
Qed.

(** With --outfile the archive is written there. *)
Theorem C51_outfile_is_used : forall o out input ok evs r p a, to_out o = Some out ->
  tar_main o input ok = (evs, r) -> In (CWritten p a) evs -> p = out.
Proof. intros o out input ok evs r p a Ho H Hin. pose proof (written_at _ _ _ _ _ _ _ H Hin) as E. rewrite Ho in E. cbn in E. congruence. Qed.
Print Assumptions C51_outfile_is_used.

(** Without it: next to the tar, which loses its last two extensions; an URL (or what looks like one)
    gives a name in the current directory. *)
Theorem C51_inferred_name : forall o f d n m1 m2 input ok evs r p a,
  to_out o = None -> to_file o = Some f -> f <> b "-" -> file_in f d n -> without_ext n m1 -> without_ext m1 m2 -> m1 <> b "." -> m1 <> b ".." ->
  tar_main o input ok = (evs, r) -> In (CWritten p a) evs ->
  (~ like_url f -> p = d ++ m2 ++ b ".arx") /\ (like_url f -> p = m2 ++ b ".arx").
Proof.
  intros o f d n m1 m2 input ok evs r p a Ho Hf Hd Hin Hm1 Hm2 N1 N2 H Hw. pose proof (written_at _ _ _ _ _ _ _ H Hw) as E.
  rewrite Ho, Hf in E. cbn [tar_outfile] in E. destruct (bytes_eqb_spec f (b "-")); [easy|].
  destruct (starts_with_comp f (b "https:") || starts_with_comp f (b "http:")) eqn:Eu.
  - apply like_url_spec in Eu. split; [easy|]. intros _. rewrite (split_file_in f d n Hin) in E.
    rewrite (two_extensions n [] n m1 m2) in E by (auto; destruct Hin as (t & _ & _ & _ & ?); exists []; rewrite app_nil_r; repeat split; try tauto; constructor).
    now injection E as <-.
  - split; [|intros Hu; apply like_url_spec in Hu; congruence]. intros _. rewrite (two_extensions f d n m1 m2) in E by auto. now injection E as <-.
Qed.
Print Assumptions C51_inferred_name.

(** Every name has a directory, a file name and two stems, unless it has no file name at all. *)
Theorem C51_every_name : forall f, (exists d n m1 m2, file_in f d n /\ without_ext n m1 /\ without_ext m1 m2) \/ ~ (exists d n, file_in f d n).
Proof.
  intros f. destruct (split_file_name f) as [[d n]|] eqn:E.
  - left. apply split_file_spec in E. exists d, n, (file_stem n), (file_stem (file_stem n)). split; auto.
    destruct E as (t & _ & _ & _ & Hn & Hne & _). pose proof (file_stem_spec n Hne) as H1. split; auto.
    apply file_stem_spec. now destruct (without_ext_name n _ H1 Hn Hne).
  - right. intros (d & n & H). apply split_file_in in H. congruence.
Qed.
Print Assumptions C51_every_name.

(** The parts are determined. *)
Theorem C51_parts_unique : forall f d n d' n' m m', file_in f d n -> file_in f d' n' -> without_ext n m -> without_ext n' m' -> d = d' /\ n = n' /\ m = m'.
Proof.
  intros f d n d' n' m m' H H' Hm Hm'. apply split_file_in in H, H'. rewrite H in H'. injection H' as <- <-. repeat split. eapply without_ext_fun; eauto.
Qed.
Print Assumptions C51_parts_unique.

(** Nothing can be inferred from standard input: refused before anything is read or written. *)
Theorem C51_standard_input_refused : forall o input ok, to_out o = None -> (to_file o = None \/ to_file o = Some (b "-")) ->
  exists e, tar_main o input ok = ([], Err e).
Proof. intros o input ok Ho Hf. unfold tar_main. rewrite Ho. destruct Hf as [-> | ->]; eexists; reflexivity. Qed.
Print Assumptions C51_standard_input_refused.

Definition n_items : list (res tar_member) := [Ok (mkTar (Ok 0) (Ok 0) (Ok 5) (Ok 420) (Ok (b "f")) TRegular (Ok None) true (b "f") (Ok (b "x")))].
Definition n_opts (f : bytes) : tar_opts := mkTarOpts (Some f) None None CNone.
Example C51_meets_hypotheses : exists evs a, let f := b "/srv/data/pkg.tar.gz" in
  file_in f (b "/srv/data/") (b "pkg.tar.gz") /\ without_ext (b "pkg.tar.gz") (b "pkg.tar") /\ without_ext (b "pkg.tar") (b "pkg") /\ ~ like_url f /\
  tar_main (n_opts f) (Ok (Some (Ok n_items))) true = (evs, Ok tt) /\ In (CWritten (b "/srv/data/pkg.arx") a) evs.
Proof.
  do 2 eexists. cbn zeta. split; [apply split_file_spec; reflexivity|].
  split; [left; split; [easy|exists (b "gz"); split; [reflexivity|cbn; intuition lia]]|].
  split; [left; split; [easy|exists (b "tar"); split; [reflexivity|cbn; intuition lia]]|].
  split; [intros H; apply like_url_spec in H; discriminate H|]. split; [vm_compute; reflexivity|]. right. left. reflexivity.
Qed.
Example C51_url_meets : exists evs a, let f := b "https://example.org/pub/pkg.tar.gz" in
  like_url f /\ tar_main (n_opts f) (Ok (Some (Ok n_items))) true = (evs, Ok tt) /\ In (CWritten (b "pkg.arx") a) evs.
Proof.
  do 2 eexists. cbn zeta. split; [apply like_url_spec; reflexivity|]. split; [vm_compute; reflexivity|]. right. left. reflexivity.
Qed.

(** Two extensions are always removed: tars of two versions of a package are converted to the same
    archive, the second conversion replaces the first. *)
Theorem C51_distinct_names_refuted : exists f g evs evs' a a', f <> g /\
  tar_main (n_opts f) (Ok (Some (Ok n_items))) true = (evs, Ok tt) /\ In (CWritten (b "pkg-1.arx") a) evs /\
  tar_main (n_opts g) (Ok (Some (Ok []))) true = (evs', Ok tt) /\ In (CWritten (b "pkg-1.arx") a') evs'.
Proof.
  exists (b "pkg-1.2.tar"), (b "pkg-1.3.tar"). do 4 eexists. split; [discriminate|].
  split; [vm_compute; reflexivity|]. split; [right; left; reflexivity|]. split; [vm_compute; reflexivity|]. right. left. reflexivity.
Qed.
Print Assumptions C51_distinct_names_refuted.

(** More precisely: any two names with the same stem after removing two extensions. *)
Theorem C51_collisions_refuted : forall d m e1 e2 e1' e2', (d = [] \/ exists x, d = x ++ b "/") -> m <> [] ->
  ~ In 47 (m ++ e1 ++ e2 ++ e1' ++ e2') -> ~ In 46 (e1 ++ e2 ++ e1' ++ e2') ->
  ~ like_url (d ++ m ++ b "." ++ e1 ++ b "." ++ e2) -> ~ like_url (d ++ m ++ b "." ++ e1' ++ b "." ++ e2') ->
  m ++ b "." ++ e1 <> b ".." -> m ++ b "." ++ e1' <> b ".." ->
  tar_outfile None (Some (d ++ m ++ b "." ++ e1 ++ b "." ++ e2)) = tar_outfile None (Some (d ++ m ++ b "." ++ e1' ++ b "." ++ e2')).
Proof.
  assert (G : forall d m e1 e2, (d = [] \/ exists x, d = x ++ b "/") -> m <> [] -> ~ In 47 (m ++ e1 ++ e2) -> ~ In 46 (e1 ++ e2) ->
    ~ like_url (d ++ m ++ b "." ++ e1 ++ b "." ++ e2) -> m ++ b "." ++ e1 <> b ".." ->
    tar_outfile None (Some (d ++ m ++ b "." ++ e1 ++ b "." ++ e2)) = Ok (d ++ m ++ b ".arx")).
  { intros d m e1 e2 Hd Hm Hs Hdot Hu Hdd. rewrite !in_app_iff in Hs. rewrite !in_app_iff in Hdot.
    assert (Hf : file_in (d ++ m ++ b "." ++ e1 ++ b "." ++ e2) d (m ++ b "." ++ e1 ++ b "." ++ e2)).
    { exists []. rewrite app_nil_r. split; auto. split; [constructor|]. split; auto. split; [rewrite !in_app_iff; assert (K : ~ In 47 (b ".")) by (intros [K|[]]; discriminate K); tauto|].
      assert (L : (length (m ++ b "." ++ e1 ++ b "." ++ e2) >= 3)%nat).
      { rewrite !app_length. cbn [length b]. destruct m; [easy|]. cbn [length]. lia. }
      repeat split; intros K; rewrite K in L; cbn in L; lia. }
    assert (N : d ++ m ++ b "." ++ e1 ++ b "." ++ e2 <> b "-").
    { intros K. apply (f_equal (@length N)) in K. rewrite !app_length in K. cbn [length b] in K. destruct m; [easy|]. cbn [length] in K. lia. }
    cbn [tar_outfile]. destruct (bytes_eqb_spec (d ++ m ++ b "." ++ e1 ++ b "." ++ e2) (b "-")); [easy|].
    destruct (starts_with_comp _ (b "https:") || _) eqn:Eu; [apply like_url_spec in Eu; easy|]. f_equal.
    apply (two_extensions _ d (m ++ b "." ++ e1 ++ b "." ++ e2) (m ++ b "." ++ e1) m); auto.
    - left. split; [now destruct m|]. exists e2. split; [now rewrite <- !app_assoc|tauto].
    - left. split; auto. exists e1. split; auto.
    - destruct m as [|x [|y m]]; [easy|discriminate|discriminate]. }
  intros d m e1 e2 e1' e2' Hd Hm Hs Hdot Hu Hu' Hdd Hdd'. rewrite !in_app_iff in Hs. rewrite !in_app_iff in Hdot.
  rewrite !G; auto; rewrite !in_app_iff; tauto.
Qed.
Print Assumptions C51_collisions_refuted.

(** A path without a file name: used as it is (the archive would be opened over a directory); when it
    looks like an URL the program panics. *)
Theorem C51_no_file_name : forall f, (forall d n, ~ file_in f d n) -> f <> b "-" ->
  (~ like_url f -> tar_outfile None (Some f) = Ok f) /\ (like_url f -> tar_outfile None (Some f) = Panic).
Proof.
  intros f H Hd. assert (E : split_file_name f = None).
  { destruct (split_file_name f) as [[d n]|] eqn:E; auto. apply split_file_spec in E. exfalso. eapply H; eauto. }
  cbn [tar_outfile]. destruct (bytes_eqb_spec f (b "-")); [easy|].
  destruct (starts_with_comp f (b "https:") || starts_with_comp f (b "http:")) eqn:Eu.
  - apply like_url_spec in Eu. split; [easy|]. intros _. now rewrite E.
  - split; [|intros Hu; apply like_url_spec in Hu; congruence]. intros _. assert (W : forall x, with_extension f x = f) by (intros x; unfold with_extension; now rewrite E). now rewrite !W.
Qed.
Print Assumptions C51_no_file_name.
Example C51_no_name_meets : (forall d n, ~ file_in (b "../..") d n) /\ ~ like_url (b "../..") /\
  (forall d n, ~ file_in (b "http://..") d n) /\ like_url (b "http://..").
Proof.
  repeat split; try (intros d n H; apply split_file_in in H; discriminate H).
  - intros H. apply like_url_spec in H. discriminate H.
  - eexists. right. reflexivity.
Qed.
