(** C68-C70: the mounting programs. *)
From Verif Require Export SpecMountCmd CliFacts CliSession PropCli2 PropMount.
From Verif Require Import ListFacts.
From Verif Require PropRead.

(** ** Facts *)
(** Where a name was missing, a directory made later is found, whatever else was added. *)
Lemma namei_made k : forall f g fl cur comps p, namei k f false cur comps = Missing p ->
  (forall q n, h_names f q = Some n -> h_names g q = Some n) -> h_names g p = Some HDir -> namei k g fl cur comps = At p HDir.
Proof.
  induction k as [|k IHk]; intros f g fl cur comps; revert cur; induction comps as [|c rest IH]; intros cur p H Hg Hp; rewrite namei_eq in H; try discriminate H.
  all: rewrite namei_eq; destruct (bytes_eqb c (b ".")); [eauto|]; destruct (bytes_eqb c (b "..")); [eauto|].
  all: destruct (h_names f (cur ++ [c])) as [[|i|t m]|] eqn:E; try rewrite (Hg _ _ E); eauto.
  all: try (destruct rest; [|discriminate H]; try discriminate H; injection H as <-; rewrite Hp; now rewrite namei_eq).
  destruct rest; cbn [negb] in H; [discriminate H|]. eauto.
Qed.
Lemma namei_missing_some k : forall f fl cur comps p, namei k f fl cur comps = Missing p -> p <> [].
Proof.
  induction k as [|k IHk]; intros f fl cur comps; revert cur; induction comps as [|c rest IH]; intros cur p H; rewrite namei_eq in H; try discriminate H.
  all: destruct (bytes_eqb c (b ".")); [eauto|]; destruct (bytes_eqb c (b "..")); [eauto|].
  all: destruct (h_names f (cur ++ [c])) as [[|i|t m]|] eqn:E; eauto.
  all: try (destruct rest; [|discriminate H]; try discriminate H; injection H as <-; intros F; apply app_eq_nil in F as [_ F]; discriminate F).
  all: destruct rest; [destruct fl|]; try discriminate H; cbn [negb] in H; eauto.
Qed.

Lemma look_made f g fl p q : look f false p = Missing q ->
  (forall r n, h_names f r = Some n -> h_names g r = Some n) -> h_names g q = Some HDir -> look g fl p = At q HDir.
Proof. unfold look. apply namei_made. Qed.
Lemma look_made_set f fl p q : look f false p = Missing q -> look (set_name f q (Some HDir)) fl p = At q HDir.
Proof.
  intros H. apply (look_made f _ _ _ _ H).
  - intros r n Hn. cbn. rewrite path_eqb'_neq; auto. unfold look in H. apply namei_missing in H. congruence.
  - cbn. now rewrite path_eqb'_refl.
Qed.

Lemma below'_spec q p : below' q p = true <-> p = q \/ below q p.
Proof.
  revert p. induction q as [|x q IH]; intros p; cbn [below'].
  - split; auto. intros _. destruct p as [|y p]; [now left|right]. now exists y, p.
  - destruct p as [|y p].
    + split; [easy|]. intros [H|(z & t & H)]; discriminate H.
    + rewrite andb_true_iff, IH. destruct (bytes_eqb_spec x y) as [->|Hn].
      * split.
        -- intros [_ [->|(z & t & ->)]]; [now left|right]. now exists z, t.
        -- intros [H|(z & t & H)]; split; auto; injection H as H; [now left|right; now exists z, t].
      * split; [easy|]. intros [H|(z & t & H)]; injection H as H; congruence.
Qed.

Lemma tempdir_made f dir pre rnd : forall n k g p, tempdir f dir pre rnd k n = (g, inl p) ->
  exists j q, p = dir ++ [pre ++ rnd j] /\ look f false ([], p) = Missing q /\ g = set_name f q (Some HDir).
Proof.
  induction n as [|n IH]; intros k g p H; cbn [tempdir] in H; [discriminate H|]. unfold mkdir in H at 1.
  destruct (look f false ([], dir ++ [pre ++ rnd k])) as [q nd|q|e] eqn:E.
  - eauto.
  - injection H as <- <-. exists k, q. auto.
  - destruct e; try discriminate H. eauto.
Qed.
Lemma tempdir_failed f dir pre rnd : forall n k g e, tempdir f dir pre rnd k n = (g, Datatypes.inr e) -> g = f.
Proof.
  induction n as [|n IH]; intros k g e H; cbn [tempdir] in H; [congruence|]. unfold mkdir in H at 1.
  destruct (look f false ([], dir ++ [pre ++ rnd k])) as [q nd|q|x] eqn:E; [eauto|discriminate H|].
  destruct x; try congruence. eauto.
Qed.

Lemma plus_dir_set f q : h_names f q = None -> plus_dir f (set_name f q (Some HDir)) q.
Proof.
  intros H. split; [exact H|]. split; [cbn; now rewrite path_eqb'_refl|]. split; auto.
  intros p Hp. cbn. now rewrite path_eqb'_neq.
Qed.

(** In a tidy file system there is nothing below what does not exist. *)
Lemma tidy_below f q : tidy f -> q <> [] -> h_names f q = None -> forall p, below q p -> h_names f p = None.
Proof.
  intros Ht Hq Hn p (x & t & ->). revert x. induction t as [|y t IH] using rev_ind; intros x.
  - destruct (h_names f (q ++ [x])) eqn:E; auto. apply (td_parent f Ht) in E as [E|E]; congruence.
  - destruct (h_names f (q ++ x :: t ++ [y])) eqn:E; auto. replace (q ++ x :: t ++ [y]) with ((q ++ x :: t) ++ [y]) in E by (now rewrite <- app_assoc).
    apply (td_parent f Ht) in E as [E|E]; [destruct q; discriminate E|]. rewrite IH in E. discriminate E.
Qed.

(** The temporary directory goes, with what is in it, and nothing else. *)
Lemma drop_restores f p q h : tidy f -> look f false ([], p) = Missing q -> q <> [] ->
  only_inside (set_name f q (Some HDir)) h q -> same_fs f (tempdir_drop h p).
Proof.
  intros Ht Hl Hq (H1 & H2 & H3). unfold look in Hl. pose proof (namei_missing _ _ _ _ _ _ Hl) as Hn.
  pose proof (tidy_below f q Ht Hq Hn) as Hb.
  assert (Hlook : look h false ([], p) = At q HDir).
  { unfold look. apply (namei_made _ f _ _ _ _ q Hl).
    - intros r n Hr. rewrite H1; [cbn; rewrite path_eqb'_neq; auto; congruence|]. intros Hbe. rewrite (Hb r Hbe) in Hr. discriminate Hr.
    - rewrite H1; [cbn; now rewrite path_eqb'_refl|]. intros (x & t & E). apply (f_equal (@length _)) in E. rewrite app_length in E. cbn in E. lia. }
  unfold tempdir_drop. rewrite Hlook. split; cbn; [|split; intros i; [now rewrite H2|now rewrite H3]].
  intros r. destruct (below' q r) eqn:E.
  - apply below'_spec in E as [->|E]; auto.
  - assert (N : ~ (r = q \/ below q r)) by (rewrite <- below'_spec; congruence).
    rewrite H1 by tauto. cbn. rewrite path_eqb'_neq by tauto. reflexivity.
Qed.

Lemma opened parse w s a : open_archive parse w s = Ok a -> archive_at parse w s a.
Proof.
  unfold open_archive, archive_at. destruct (look_str w true s) as [q [|i|t m]|q|e]; try discriminate. eauto.
Qed.
Lemma archive_opened parse w s a : archive_at parse w s a -> open_archive parse w s = Ok a.
Proof. intros (q & i & H1 & H2). unfold open_archive. now rewrite H1. Qed.

Lemma asked_served l fetch a rd d : small l -> archive_of l fetch a -> asked_dir l rd d ->
  exists rg, mount_range a rd = Ok rg /\ mount_of l fetch a rg d.
Proof.
  intros Hs Ha Hroot. pose proof (C19_mount_serves_directory l fetch a rd Hs Ha) as Hm.
  destruct rd as [s|]; [|cbn in Hroot; subst d; cbn [mount_range] in *; destruct Hm as (rd & Hm & ->); eauto].
  destruct Hroot as (Hp & Hrel & Hu & Hdot & Hne & mt & Hh). rewrite <- Hp in Hdot. pose proof (root_dir_accepted s Hrel Hu Hdot) as Er.
  destruct (archive_ok l fetch a Hs Ha) as (m & _ & _ & _ & Hw & (_ & _ & _ & Hinj) & _).
  assert (HB : total_builder a unit_builder).
  { intros i r Hr. unfold create_entry. rewrite (rec_at_ok _ _ _ Hr). cbn [bind].
    pose proof (wf_variant _ Hw i r) as Hv. destruct (r_payload r) as [| | |v]; try (eexists; reflexivity). now destruct (Hv v). }
  assert (Hpne : pieces s <> []) by (now rewrite Hp).
  pose proof (get_entry_spec a Hw unit_builder s HB Hpne) as H. rewrite <- Hp in Hh.
  apply (archive_has l fetch a) in Hh as (i & r & Hr & Hi & Hn); auto.
  assert (Hok : exists rg, mount_range a (Some s) = Ok rg).
  { cbn [mount_range]. rewrite Er. cbn [bind]. destruct (get_entry unit_builder a s) as [e0|y| |]; try easy.
    - destruct H as (j & Hj & Hc). assert (j = i) as -> by (eapply Hinj; eauto).
      unfold create_entry in Hc. rewrite (rec_at_ok _ _ _ Hr) in Hc. cbn [bind] in Hc. unfold node_of_rec in Hn.
      destruct (r_payload r); try discriminate Hn. cbn in Hc. injection Hc as <-. cbn [bind]. eauto.
    - destruct H as [_ H]. now apply H in Hi. }
  destruct Hok as [rg Em]. rewrite Em in *. destruct Hm as (rd & Hm & q & E1 & E2). rewrite Er in E1. injection E1 as <-.
  exists rg. split; [reflexivity|]. rewrite <- Hp, E2. exact Hm.
Qed.

(** ** C68: arx mount *)
(** Whatever is mounted is the archive at the given path, read-only, at the place asked for; without
    one, at a directory that did not exist, next to the archive and named after it. *)
Theorem C68_mounted : forall parse w env infile md rd fg m g,
  mr_mounted (mount_cmd parse w env infile md rd fg) = Some (m, g) ->
  archive_at parse w infile (at_archive m) /\ In RO (at_options m) /\
  match rd with None => at_range m = a_root (at_archive m) | Some s => mount_range (at_archive m) rd = Ok (at_range m) end /\
  match md with
  | Some s => at_point m = (if is_abs s then [] else w_cwd w, pieces s) /\ g = w_fs w
  | None => exists dir n random q, from_root w infile = dir ++ [n] /\ at_point m = ([], dir ++ [n ++ b "." ++ random]) /\
      look (w_fs w) false (at_point m) = Missing q /\ plus_dir (w_fs w) g q /\ look g true (at_point m) = At q HDir
  end.
Proof.
  intros parse w env infile md rd fg m g. unfold mount_cmd.
  destruct (open_archive parse w infile) as [a| | |] eqn:Ea; try discriminate. apply opened in Ea.
  destruct (mount_range a rd) as [rg| | |] eqn:Er; try discriminate.
  assert (Hrd : match rd with None => rg = a_root a | Some s => mount_range a rd = Ok rg end).
  { destruct rd; auto. cbn in Er. congruence. }
  destruct md as [s|].
  - destruct (negb fg && negb (en_daemon env)); [discriminate|]. destruct (utf8 (abs_string w infile)); [|discriminate].
    destruct (en_session env _ _) as [h r]. intros H. cbn [mr_mounted] in H. injection H as <- <-. cbn [at_archive at_range at_options at_point mount_options In]. auto 10.
  - destruct (abs_file_name w infile) as [n|] eqn:En; [|discriminate]. destruct (abs_parent w infile) as [dir|] eqn:Ed; [|discriminate].
    destruct (tempdir _ _ _ _ _ _) as [g0 [p|e]] eqn:Et; [|discriminate].
    destruct (negb fg && negb (en_daemon env)); [discriminate|]. destruct (utf8 (abs_string w infile)); [|discriminate].
    destruct (en_session env _ _) as [h r]. intros H. cbn [mr_mounted] in H. injection H as <- <-. cbn [at_archive at_range at_options at_point mount_options In].
    split; [exact Ea|]. split; [now left|]. split; [exact Hrd|].
    apply tempdir_made in Et as (j & q & -> & Hl & ->). exists dir, n, (en_random env j), q.
    unfold abs_file_name in En. unfold abs_parent in Ed. change (from_root w infile) with (out_comps w infile).
    destruct (out_comps w infile) as [|c r0] eqn:Eo; [discriminate Ed|].
    assert (Hdir : removelast (c :: r0) = dir) by congruence. clear Ed.
    assert (Hlast : c :: r0 = dir ++ [n]).
    { destruct (@exists_last _ (c :: r0)) as (l' & z & E); [easy|]. rewrite E in En. rewrite rev_app_distr in En. cbn [rev app] in En.
      assert (removelast (c :: r0) = l') by (rewrite E; apply removelast_last).
      destruct (bytes_eqb z (b "..")); [discriminate En|]. injection En as ->. rewrite E. congruence. }
    split; [exact Hlast|]. split; [now rewrite <- app_assoc|]. split; [exact Hl|].
    assert (Hn : h_names (w_fs w) q = None) by (apply (namei_missing _ _ _ _ _ _ Hl)).
    split; [now apply plus_dir_set|]. now apply look_made_set.
Qed.
Print Assumptions C68_mounted.

(** When nothing is mounted, or when the mount has ended, nothing of the command is left: the
    temporary mount point is gone. *)
Theorem C68_cleaned : forall parse w env infile md rd fg, tidy (w_fs w) ->
  match mr_mounted (mount_cmd parse w env infile md rd fg) with
  | None => same_fs (w_fs w) (mr_after (mount_cmd parse w env infile md rd fg))
  | Some (m, g) =>
      let h := fst (en_session env m g) in
      match md with
      | Some _ => mr_after (mount_cmd parse w env infile md rd fg) = h
      | None => forall q, look g true (at_point m) = At q HDir -> only_inside g h q ->
          same_fs (w_fs w) (mr_after (mount_cmd parse w env infile md rd fg))
      end
  end.
Proof.
  intros parse w env infile md rd fg Ht.
  assert (Hsame : same_fs (w_fs w) (w_fs w)) by (split; auto).
  unfold mount_cmd.
  destruct (open_archive parse w infile) as [a| | |] eqn:Ea; try exact Hsame.
  destruct (mount_range a rd) as [rg| | |] eqn:Er; try exact Hsame.
  destruct md as [s|].
  - destruct (negb fg && negb (en_daemon env)); [exact Hsame|]. destruct (utf8 (abs_string w infile)); [|exact Hsame].
    destruct (en_session env _ _) as [h r] eqn:Ee. cbn [mr_mounted mr_after]. now rewrite Ee.
  - destruct (abs_file_name w infile) as [n|] eqn:En; [|exact Hsame]. destruct (abs_parent w infile) as [dir|] eqn:Ed; [|exact Hsame].
    destruct (tempdir _ _ _ _ _ _) as [g0 [p|e]] eqn:Et; [|apply tempdir_failed in Et as ->; exact Hsame].
    apply tempdir_made in Et as (j & q & _ & Hl & ->).
    assert (Hq : q <> []) by exact (namei_missing_some _ _ _ _ _ _ Hl).
    assert (Hdrop : same_fs (w_fs w) (tempdir_drop (set_name (w_fs w) q (Some HDir)) p)) by (apply (drop_restores _ _ q); auto; split; auto).
    destruct (negb fg && negb (en_daemon env)); [exact Hdrop|]. destruct (utf8 (abs_string w infile)); [|exact Hdrop].
    destruct (en_session env _ _) as [h r] eqn:Ee. cbn [mr_mounted mr_after at_point]. rewrite Ee. cbn [fst]. intros q' Hq' Hin.
    assert (Hn : h_names (w_fs w) q = None) by (apply (namei_missing _ _ _ _ _ _ Hl)).
    assert (E : look (set_name (w_fs w) q (Some HDir)) true ([], p) = At q HDir) by (now apply look_made_set).
    rewrite E in Hq'. injection Hq' as <-. now apply (drop_restores _ _ q).
Qed.
Print Assumptions C68_cleaned.

(** The directory asked for is served: the whole archive, or what [--root-dir] names (everything
    proved about mounts applies to it); anything else is refused. *)
Theorem C68_serves : forall parse w env infile md rd d l fetch a m g, small l -> archive_of l fetch a ->
  archive_at parse w infile a -> asked_dir l rd d ->
  mr_mounted (mount_cmd parse w env infile md rd true) = Some (m, g) -> at_archive m = a /\ mount_of l fetch a (at_range m) d.
Proof.
  intros parse w env infile md rd d l fetch a m g Hs Ha Hat Hd Hm. destruct (asked_served _ _ _ _ _ Hs Ha Hd) as (rg & Er & Hrg).
  pose proof (C68_mounted _ _ _ _ _ _ _ _ _ Hm) as ((q & i & H1 & H2) & _ & H3 & _). destruct Hat as (q' & i' & H1' & H2').
  assert (E : at_archive m = a) by congruence. split; [exact E|]. rewrite E in H3.
  assert (at_range m = rg) as ->; [|exact Hrg]. destruct rd; [congruence|]. cbn in Er. congruence.
Qed.
Print Assumptions C68_serves.

Theorem C68_accepts : forall parse w env infile s rd d fg l fetch a, small l -> archive_of l fetch a ->
  archive_at parse w infile a -> asked_dir l rd d -> utf8 (abs_string w infile) = true -> (fg = true \/ en_daemon env = true) ->
  exists m, mr_mounted (mount_cmd parse w env infile (Some s) rd fg) = Some (m, w_fs w) /\
    (fg = true -> mr_status (mount_cmd parse w env infile (Some s) rd fg) = snd (en_session env m (w_fs w))).
Proof.
  intros parse w env infile s rd d fg l fetch a Hs Ha Hat Hd Hu Hfg. destruct (asked_served _ _ _ _ _ Hs Ha Hd) as (rg & Er & Hrg).
  unfold mount_cmd. rewrite (archive_opened _ _ _ _ Hat), Er, Hu.
  assert (negb fg && negb (en_daemon env) = false) as -> by (destruct Hfg as [->| ->]; [reflexivity|destruct fg; reflexivity]).
  destruct (en_session env _ _) as [h r] eqn:Ee. cbn [mr_mounted mr_status]. eexists. split; [reflexivity|]. intros ->. now rewrite Ee.
Qed.
Print Assumptions C68_accepts.

Lemma not_asked l fetch a s : small l -> archive_of l fetch a -> is_abs s = false -> utf8 s = true ->
  ~ In (b ".") (pieces s) -> pieces s <> [] -> (forall mt, ~ has l (pieces s) (KDir, mt)) -> exists e, mount_range a (Some s) = Err e.
Proof.
  intros Hs Ha Hrel Hu Hdot Hne Hno. cbn [mount_range]. rewrite (root_dir_accepted s Hrel Hu Hdot). cbn [bind].
  destruct (archive_ok l fetch a Hs Ha) as (m & _ & _ & _ & Hw & _).
  assert (HB : total_builder a unit_builder).
  { intros i r Hr. unfold create_entry. rewrite (rec_at_ok _ _ _ Hr). cbn [bind].
    pose proof (wf_variant _ Hw i r) as Hv. destruct (r_payload r) as [| | |v]; try (eexists; reflexivity). now destruct (Hv v). }
  pose proof (get_entry_spec a Hw unit_builder s HB Hne) as H.
  destruct (get_entry unit_builder a s) as [[f|f|rg x]|x| |]; cbn [bind]; try easy; try (eexists; reflexivity).
  exfalso. destruct H as (i & Hp & Hc). destruct (apath_at _ _ _ Hp) as [r Hr].
  unfold create_entry in Hc. rewrite (rec_at_ok _ _ _ Hr) in Hc. cbn [bind] in Hc. destruct (r_payload r) eqn:Epl; try discriminate Hc.
  apply (Hno (meta_of_rec r)). apply (archive_has l fetch a); auto. exists i, r. split; auto. split; auto. unfold node_of_rec. now rewrite Epl.
Qed.

Theorem C68_refuses : forall parse w env infile md s fg l fetch a, small l -> archive_of l fetch a ->
  archive_at parse w infile a -> is_abs s = false -> utf8 s = true -> ~ In (b ".") (pieces s) -> pieces s <> [] ->
  (forall mt, ~ has l (pieces s) (KDir, mt)) ->
  exists e, mount_cmd parse w env infile md (Some s) fg = mkRun None (Err e) (w_fs w).
Proof.
  intros parse w env infile md s fg l fetch a Hs Ha Hat Hrel Hu Hdot Hne Hno. unfold mount_cmd. rewrite (archive_opened _ _ _ _ Hat).
  destruct (not_asked l fetch a s Hs Ha Hrel Hu Hdot Hne Hno) as [e ->]. eexists. reflexivity.
Qed.
Print Assumptions C68_refuses.

Theorem C68_no_archive : forall parse w env infile md rd fg,
  (forall q i, look_str w true infile = At q (HFile i) -> exists e, parse (h_data (w_fs w) i) = Err e) ->
  exists e, mount_cmd parse w env infile md rd fg = mkRun None (Err e) (w_fs w).
Proof.
  intros parse w env infile md rd fg H. unfold mount_cmd, open_archive.
  destruct (look_str w true infile) as [q [|i|t m]|q|e]; try (eexists; reflexivity).
  destruct (H q i eq_refl) as [e ->]. eexists. reflexivity.
Qed.
Print Assumptions C68_no_archive.

(** A path that leads to a file ends with a name. *)
Lemma namei_file k : forall f fl cur comps q i, namei k f fl cur comps = At q (HFile i) ->
  exists l c, comps = l ++ [c] /\ c <> b "." /\ c <> b "..".
Proof.
  induction k as [|k IHk]; intros f fl cur comps; revert cur; induction comps as [|c rest IH]; intros cur q i H; rewrite namei_eq in H; try discriminate H.
  all: destruct (bytes_eqb_spec c (b ".")) as [->|H1]; [apply IH in H as (l & x & -> & H); exists (b "." :: l), x; auto|].
  all: destruct (bytes_eqb_spec c (b "..")) as [->|H2]; [apply IH in H as (l & x & -> & H); exists (b ".." :: l), x; auto|].
  all: destruct (h_names f (cur ++ [c])) as [[|j|t m]|] eqn:E.
  all: try (apply IH in H as (l & x & -> & H); exists (c :: l), x; now auto).
  all: destruct rest as [|y rest]; try discriminate H; try (exists [], c; now auto).
  cbn [negb] in H. destruct (@exists_last _ (y :: rest)) as (l' & z & E'); [easy|]. rewrite E' in *. rewrite app_assoc in H.
  apply IHk in H as (l & x & E2 & H). apply app_inj_tail in E2 as [_ <-]. exists (c :: l'), z. auto.
Qed.

(** The command never aborts on an archive it can read, but for a path that is not UTF-8 and a
    [--root-dir] that names no component. *)
Theorem C68_no_abort : forall parse w env infile md rd fg l fetch a, small l -> archive_of l fetch a ->
  archive_at parse w infile a -> utf8 (abs_string w infile) = true ->
  match rd with Some s => is_abs s = false /\ utf8 s = true /\ ~ In (b ".") (pieces s) /\ pieces s <> [] | None => True end ->
  (forall m g, snd (en_session env m g) = Ok tt \/ exists e, snd (en_session env m g) = Err e) ->
  mr_status (mount_cmd parse w env infile md rd fg) = Ok tt \/ exists e, mr_status (mount_cmd parse w env infile md rd fg) = Err e.
Proof.
  intros parse w env infile md rd fg l fetch a Hs Ha Hat Hu Hrd Hses. unfold mount_cmd. rewrite (archive_opened _ _ _ _ Hat).
  assert (Hgo : forall rg g (point : opath) (drop : hostfs -> hostfs),
    let run := if negb fg && negb (en_daemon env) then mkRun None (Err (EOther (b "Failed to daemonize."))) (drop g)
      else if utf8 (abs_string w infile) then
        let m := mkAttached a rg (mount_options (abs_string w infile)) point in
        let (h, r) := en_session env m g in mkRun (Some (m, g)) (if fg then r else Ok tt) (drop h)
      else mkRun None (if fg then Panic else Ok tt) (drop g) in
    mr_status run = Ok tt \/ exists e, mr_status run = Err e).
  { intros rg g point drop. cbn zeta. destruct (negb fg && negb (en_daemon env)); [right; eexists; reflexivity|]. rewrite Hu.
    pose proof (Hses (mkAttached a rg (mount_options (abs_string w infile)) point) g) as Hr.
    destruct (en_session env _ _) as [h r]. cbn [snd] in Hr. cbn [mr_status]. destruct fg; auto. }
  assert (Hrg : (exists rg, mount_range a rd = Ok rg) \/ exists e, mount_range a rd = Err e).
  { destruct rd as [s|]; [|left; eexists; reflexivity]. destruct Hrd as (H1 & H2 & H3 & H4).
    cbn [mount_range]. rewrite (root_dir_accepted s H1 H2 H3). cbn [bind].
    destruct (archive_ok l fetch a Hs Ha) as (m & _ & _ & _ & Hw & _).
    assert (HB : total_builder a unit_builder).
    { intros i r Hr. unfold create_entry. rewrite (rec_at_ok _ _ _ Hr). cbn [bind].
      pose proof (wf_variant _ Hw i r) as Hv. destruct (r_payload r) as [| | |v]; try (eexists; reflexivity). now destruct (Hv v). }
    pose proof (get_entry_spec a Hw unit_builder s HB H4) as H.
    destruct (get_entry unit_builder a s) as [[f|f|rg x]|x| |]; cbn [bind]; try easy; eauto. }
  destruct Hrg as [[rg ->]|[e ->]]; [|right; eexists; reflexivity].
  destruct md as [s|]; [exact (Hgo rg (w_fs w) (if is_abs s then [] else w_cwd w, pieces s) (fun h => h))|].
  (* a file has a name *)
  assert (Hn : exists dir n, abs_file_name w infile = Some n /\ abs_parent w infile = Some dir).
  { destruct Hat as (q & i & Hl & _). unfold look_str in Hl. destruct infile as [|x0 t0] eqn:Ei; [discriminate Hl|]. rewrite <- Ei in *.
    apply namei_file in Hl as (l' & c & E & H1 & H2). unfold opath_of in E. cbn [snd] in E.
    assert (Hends : ends_with_sep infile = false).
    { destruct (ends_with_sep infile); auto. apply app_inj_tail in E as [_ E]. now symmetry in E. }
    rewrite Hends, app_nil_r in E. unfold abs_file_name, abs_parent, out_comps. rewrite E, filter_app, app_assoc.
    replace (filter not_dot [c]) with [c] by (cbn; unfold not_dot; now apply bytes_eqb_neq in H1 as ->).
    rewrite rev_app_distr. cbn [rev app]. apply bytes_eqb_neq in H2 as ->.
    destruct (((if is_abs infile then [] else w_cwd w) ++ filter not_dot l') ++ [c]) eqn:E2; [destruct ((if is_abs infile then [] else w_cwd w) ++ filter not_dot l'); discriminate E2|].
    eauto. }
  destruct Hn as (dir & n & -> & ->). destruct (tempdir _ _ _ _ _ _) as [g [p|e]]; [exact (Hgo rg g ([], p) (fun h => tempdir_drop h p))|right; eexists; reflexivity].
Qed.
Print Assumptions C68_no_abort.

(** A host with an archive; what is read from it is [demo_arx]. *)
Definition mc_fs : hostfs := host_of [([b "h"], HDir); ([b "h"; b "x.arx"], HFile 0); ([b "h"; b "x.arx.AbCdEf"], HDir)] [b "ARX"].
Definition mc_world : world := mkWorld mc_fs (fun _ => FsAdder.mkAttr 0 0 0 0%Z false true) (fun _ => None) [b "h"].
Definition mc_parse (d : bytes) : res archive := if bytes_eqb d (b "ARX") then Ok demo_arx else Err (EOther (b "not a jbk")).
Definition mc_env (r : res unit) : mount_env := mkEnv (fun k => match k with O => b "AbCdEf" | _ => b "Zz09xx" end) 3 true (fun _ f => (f, r)).

(** Without [--foreground] the caller is told of a success before anything is mounted: a mount that
    fails is not reported. *)
Theorem C68_status_refuted : ~ forall parse w env infile md rd fg e m g,
  mr_mounted (mount_cmd parse w env infile md rd fg) = Some (m, g) -> snd (en_session env m g) = Err e ->
  mr_status (mount_cmd parse w env infile md rd fg) <> Ok tt.
Proof.
  intros H.
  refine (H mc_parse mc_world (mc_env (Err (EIo IoNotFound))) (b "x.arx") (Some (b "nowhere")) None false (EIo IoNotFound)
    (mkAttached demo_arx (a_root demo_arx) (mount_options (b "/h/x.arx")) ([b "h"], [b "nowhere"])) mc_fs _ eq_refl _).
  - vm_compute. reflexivity.
  - vm_compute. reflexivity.
Qed.
Print Assumptions C68_status_refuted.

(** A run of each kind: at a given place, and at a temporary one, the first name tried being taken. *)
Example C68_meets_hypotheses :
  small demo /\ archive_of demo demo_fetch demo_arx /\ archive_at mc_parse mc_world (b "x.arx") demo_arx /\
  asked_dir demo (Some (b "a/b")) [b "a"; b "b"] /\ utf8 (abs_string mc_world (b "x.arx")) = true /\ tidy (w_fs mc_world) /\
  (exists m g, mr_mounted (mount_cmd mc_parse mc_world (mc_env (Ok tt)) (b "x.arx") None (Some (b "a/b")) true) = Some (m, g) /\
     at_point m = ([], [b "h"; b "x.arx.Zz09xx"]) /\ h_names g [b "h"; b "x.arx.Zz09xx"] = Some HDir /\
     only_inside g (fst (en_session (mc_env (Ok tt)) m g)) [b "h"; b "x.arx.Zz09xx"]) /\
  (forall mt, ~ has demo [b "l"] (KDir, mt)).
Proof.
  split; [exact demo_small|]. split; [exact demo_built|]. split; [exists [b "h"; b "x.arx"], 0; split; reflexivity|].
  split.
  { cbn [asked_dir]. split; [reflexivity|]. split; [reflexivity|]. split; [reflexivity|]. split; [cbn; intuition discriminate|]. split; [easy|].
    apply (has_ancestor demo [b "a"; b "b"] (b "f.txt") [] _ demo_has). easy. }
  split; [reflexivity|]. split; [apply tidyb_ok; vm_compute; reflexivity|]. split.
  { eexists. eexists. split; [reflexivity|]. split; [reflexivity|]. split; [reflexivity|]. split; auto. }
  intros mt H. destruct PropRead.C12_meets_hypotheses as [_ Hl].
  pose proof (has_unique demo demo_fetch demo_arx _ _ _ demo_small demo_built H Hl) as E. discriminate E.
Qed.

(** ** C69: always read-only *)
Theorem C69_read_only : forall parse w env infile md rd fg dir options exe m g,
  In (Some (m, g)) [mr_mounted (mount_cmd parse w env infile md rd fg); mr_mounted (mount_fuse_main parse w env infile dir options);
                    mr_mounted (auto_mount_main parse w env exe dir)] -> In RO (at_options m).
Proof.
  assert (Hw : forall parse w env infile dir m g, mr_mounted (mount_whole parse w env infile dir) = Some (m, g) -> In RO (at_options m)).
  { intros parse w env infile dir m g. unfold mount_whole. destruct (open_archive parse w infile); try discriminate.
    destruct (utf8 (abs_string w infile)); [|discriminate]. destruct (en_session env _ _) as [h r]. intros H. cbn [mr_mounted] in H. injection H as <- <-. now left. }
  intros parse w env infile md rd fg dir options exe m g [H|[H|[H|[]]]].
  - now apply C68_mounted in H.
  - unfold mount_fuse_main in H. destruct (existsb _ options); [discriminate H|]. eauto.
  - unfold auto_mount_main in H. destruct exe; try discriminate H. eauto.
Qed.
Print Assumptions C69_read_only.

(** Asking [mount.fuse.arx] for "-o rw" is refused; else the whole archive is mounted at the place given. *)
Theorem C69_rw_refused : forall parse w env infile dir options, In (b "rw") options ->
  exists e, mount_fuse_main parse w env infile dir options = mkRun None (Err e) (w_fs w).
Proof.
  intros parse w env infile dir options H. unfold mount_fuse_main.
  assert (existsb (bytes_eqb (b "rw")) options = true) as ->; [|eexists; reflexivity].
  apply existsb_exists. exists (b "rw"). split; auto.
Qed.
Print Assumptions C69_rw_refused.

Lemma whole_mounted parse w env infile dir l fetch a : small l -> archive_of l fetch a ->
  archive_at parse w infile a -> utf8 (abs_string w infile) = true ->
  exists m, mr_mounted (mount_whole parse w env infile dir) = Some (m, w_fs w) /\ mount_of l fetch a (at_range m) [] /\ at_archive m = a /\
    at_point m = (if is_abs dir then [] else w_cwd w, pieces dir) /\
    mr_status (mount_whole parse w env infile dir) = snd (en_session env m (w_fs w)) /\
    mr_after (mount_whole parse w env infile dir) = fst (en_session env m (w_fs w)).
Proof.
  intros Hs Ha Hat Hu. unfold mount_whole. rewrite (archive_opened _ _ _ _ Hat), Hu. destruct (en_session env _ _) as [h r] eqn:Ee.
  eexists. split; [reflexivity|]. cbn [at_range at_archive at_point mr_status mr_after]. rewrite Ee.
  split; [split; [exact Hs|]; split; [exact Ha|]; now left|]. auto.
Qed.

Theorem C69_whole_archive : forall parse w env infile dir options l fetch a, small l -> archive_of l fetch a ->
  archive_at parse w infile a -> utf8 (abs_string w infile) = true -> ~ In (b "rw") options ->
  exists m, mr_mounted (mount_fuse_main parse w env infile dir options) = Some (m, w_fs w) /\ mount_of l fetch a (at_range m) [] /\ at_archive m = a /\
    at_point m = (if is_abs dir then [] else w_cwd w, pieces dir) /\
    mr_status (mount_fuse_main parse w env infile dir options) = snd (en_session env m (w_fs w)) /\
    mr_after (mount_fuse_main parse w env infile dir options) = fst (en_session env m (w_fs w)).
Proof.
  intros parse w env infile dir options l fetch a Hs Ha Hat Hu Hno. unfold mount_fuse_main.
  assert (existsb (bytes_eqb (b "rw")) options = false) as ->.
  { destruct (existsb (bytes_eqb (b "rw")) options) eqn:E; auto. apply existsb_exists in E as (x & H & E). destruct (bytes_eqb_spec (b "rw") x); [subst x; contradiction|discriminate E]. }
  now apply whole_mounted.
Qed.
Print Assumptions C69_whole_archive.

(** [auto_mount] serves the archive at the end of the executable; without one it reports an error. *)
Theorem C69_auto_mount : forall parse w env exe dir l fetch a, small l -> archive_of l fetch a ->
  archive_at parse w exe a -> utf8 (abs_string w exe) = true ->
  exists m, mr_mounted (auto_mount_main parse w env (Ok exe) dir) = Some (m, w_fs w) /\ mount_of l fetch a (at_range m) [] /\ at_archive m = a /\
    at_point m = (if is_abs dir then [] else w_cwd w, pieces dir) /\
    mr_status (auto_mount_main parse w env (Ok exe) dir) = snd (en_session env m (w_fs w)) /\
    mr_after (auto_mount_main parse w env (Ok exe) dir) = fst (en_session env m (w_fs w)).
Proof. intros. now apply whole_mounted. Qed.
Print Assumptions C69_auto_mount.

Theorem C69_no_archive : forall parse w env infile dir options,
  (forall q i, look_str w true infile = At q (HFile i) -> exists e, parse (h_data (w_fs w) i) = Err e) ->
  exists e e', mount_fuse_main parse w env infile dir options = mkRun None (Err e) (w_fs w) /\
    auto_mount_main parse w env (Ok infile) dir = mkRun None (Err e') (w_fs w).
Proof.
  intros parse w env infile dir options H. unfold auto_mount_main.
  assert (exists e, mount_whole parse w env infile dir = mkRun None (Err e) (w_fs w)) as [e He].
  { unfold mount_whole, open_archive. destruct (look_str w true infile) as [q [|i|t m]|q|e]; try (eexists; reflexivity).
    destruct (H q i eq_refl) as [e ->]. eexists. reflexivity. }
  unfold mount_fuse_main. destruct (existsb _ options); [|exists e]; eauto.
Qed.
Print Assumptions C69_no_archive.

(** Only the exact option "rw" is refused: "rw,noexec", as mount(8) passes it, is accepted (and the
    mount is read-only all the same). *)
Theorem C69_rw_list_refuted : ~ forall parse w env infile dir options, (exists rest, In (b "rw," ++ rest) options) ->
  mr_mounted (mount_fuse_main parse w env infile dir options) = None.
Proof.
  intros H. specialize (H mc_parse mc_world (mc_env (Ok tt)) (b "x.arx") (b "m") [b "rw,noexec"]).
  assert (E : exists rest, In (b "rw," ++ rest) [b "rw,noexec"]) by (exists (b "noexec"); now left).
  apply H in E. vm_compute in E. discriminate E.
Qed.
Print Assumptions C69_rw_list_refuted.

Example C69_meets_hypotheses :
  small demo /\ archive_of demo demo_fetch demo_arx /\ archive_at mc_parse mc_world (b "x.arx") demo_arx /\
  utf8 (abs_string mc_world (b "x.arx")) = true /\ ~ In (b "rw") [b "ro,noexec"] /\
  (exists m g, mr_mounted (mount_fuse_main mc_parse mc_world (mc_env (Ok tt)) (b "x.arx") (b "m") [b "ro,noexec"]) = Some (m, g)).
Proof.
  split; [exact demo_small|]. split; [exact demo_built|]. split; [exists [b "h"; b "x.arx"], 0; split; reflexivity|].
  split; [reflexivity|]. split; [intros [H|[]]; discriminate H|]. eexists. eexists. reflexivity.
Qed.

(** ** C70: statistics *)
(** After any history, each counter is the number of requests of its kind, whatever the replies were;
    counting changes no reply. *)
Theorem C70_counts : forall a root h s c, served_counted a root h s c ->
  (forall x, shown c x = times x (map fst h)) /\ served a root h s.
Proof.
  intros a root h s c H. induction H as [|h s c q s' c' r H [IHc IHs] Hst].
  - split; [intros []; reflexivity|constructor].
  - unfold step_counted in Hst. cbn [fst snd] in Hst. destruct (count c q) as [c1| | |] eqn:Ec; try discriminate Hst.
    destruct (step a root s q) as [s1 r1] eqn:Es. injection Hst as <- <- ->. split.
    + intros x. unfold times. rewrite !map_app, count_occ_app. rewrite Nat2N.inj_add. fold (times x (map fst h)). rewrite <- IHc.
      cbn [map fst]. clear -Ec. destruct c as [n1 n2 n3 n4 n5 n6 n7 n8 n9]. unfold count in Ec.
      destruct q; cbn [what_of]; destruct (u64 _) as [v| | |] eqn:Eu in Ec; try discriminate Ec; cbn [bind] in Ec; injection Ec as <-;
        unfold u64 in Eu; (destruct (_ <? 2^64) in Eu; [injection Eu as <-|discriminate Eu]);
        destruct x; cbn; lia.
    + eapply served_step; eauto.
Qed.
Print Assumptions C70_counts.

(** Conversely any history of a mount is served with statistics as well, until some kind of request
    was made 2^64 times. *)
Theorem C70_never_in_the_way : forall a root h s, served a root h s -> N.of_nat (length h) < 2^64 -> exists c, served_counted a root h s c.
Proof.
  intros a root h s H. induction H as [|h s q s' r H IH Hst]; intros Hl.
  - exists counters_new. constructor.
  - rewrite app_length in Hl. cbn [length] in Hl. destruct IH as [c Hc]; [lia|].
    destruct (C70_counts _ _ _ _ _ Hc) as [Hn _].
    assert (Hx : forall x, shown c x + 1 < 2^64).
    { intros x. rewrite Hn. unfold times. pose proof (count_occ_bound what_eq_dec x (map what_of (map fst h))) as Hb. rewrite !map_length in Hb. lia. }
    assert (exists c', count c q = Ok c') as [c' E].
    { destruct c as [n1 n2 n3 n4 n5 n6 n7 n8 n9]. unfold count.
      destruct q; cbn [bind]; unfold u64;
        [pose proof (Hx WLookup) as G|pose proof (Hx WGetattr) as G|pose proof (Hx WReadlink) as G|pose proof (Hx WOpen) as G|pose proof (Hx WRead) as G
        |pose proof (Hx WRelease) as G|pose proof (Hx WOpendir) as G|pose proof (Hx WReaddir) as G|pose proof (Hx WReleasedir) as G];
        cbn [shown nb_lookup nb_getattr nb_readlink nb_open nb_read nb_release nb_opendir nb_readdir nb_releasedir] in G;
        apply N.ltb_lt in G; rewrite G; cbn [bind]; eexists; reflexivity. }
    exists c'. eapply sc_step; [exact Hc|]. unfold step_counted. cbn [fst snd]. rewrite E, Hst. reflexivity.
Qed.
Print Assumptions C70_never_in_the_way.

(** What is printed at the end tells every counter. *)
Lemma dec_line m n s t : dec m ++ 10 :: s = dec n ++ 10 :: t -> m = n /\ s = t.
Proof.
  assert (H10 : forall k, ~ In 10 (dec k)) by (intros k H; apply dec_digits in H; lia).
  intros H. apply split_first in H as [H ->]; auto. apply dec_inj in H. auto.
Qed.
Theorem C70_display : forall c c', show_counters c = show_counters c' -> c = c'.
Proof.
  intros [a1 a2 a3 a4 a5 a6 a7 a8 a9] [b1 b2 b3 b4 b5 b6 b7 b8 b9] H. unfold show_counters in H.
  cbn [nb_lookup nb_getattr nb_readlink nb_open nb_read nb_release nb_opendir nb_readdir nb_releasedir] in H.
  rewrite <- !app_assoc in H. cbn [app] in H.
  do 8 (do 2 apply app_inv_head in H; apply dec_line in H as [<- H]).
  do 2 apply app_inv_head in H. apply dec_line in H as [<- _]. reflexivity.
Qed.
Print Assumptions C70_display.

Definition c70_run (l : list request) : (fs * counters) * list (res reply) :=
  fold_left (fun x q => let (s, r) := step_counted demo_arx (a_root demo_arx) (fst x) q in (s, snd x ++ [r])) l ((fs_new, counters_new), []).
Definition c70_1 := Eval vm_compute in c70_run [Lookup 1 (b "l")].
Definition c70_2 := Eval vm_compute in c70_run [Lookup 1 (b "l"); Opendir 3].
Definition c70_3 := Eval vm_compute in c70_run [Lookup 1 (b "l"); Opendir 3; Lookup 1 (b "nope")].
Example C70_meets_hypotheses : exists t,
  served_counted demo_arx (a_root demo_arx) [(Lookup 1 (b "l"), Ok (REntry t)); (Opendir 3, Ok (RError ENOTDIR)); (Lookup 1 (b "nope"), Ok (RError ENOENT))]
    (fst (fst c70_3)) (snd (fst c70_3)) /\ shown (snd (fst c70_3)) WLookup = 2 /\ shown (snd (fst c70_3)) WOpendir = 1.
Proof.
  exists (match snd c70_1 with Ok (REntry t) :: _ => t | _ => root_attr end). split; [|split; reflexivity].
  apply (sc_step _ _ [_; _] (fst (fst c70_2)) (snd (fst c70_2))); [|vm_compute; reflexivity].
  apply (sc_step _ _ [_] (fst (fst c70_1)) (snd (fst c70_1))); [|vm_compute; reflexivity].
  apply (sc_step _ _ [] fs_new counters_new); [apply sc_new|vm_compute; reflexivity].
Qed.
