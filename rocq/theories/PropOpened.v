(** C94: archives that are open, and archives that are replaced. *)
From Verif Require Export SpecOpened PropMain PropPyHost.
From Verif Require Import MountCmd.
From Verif Require PropLive.

Local Ltac bad := let H := fresh in intros H; discriminate H.

(** Files that are there keep their bytes, whatever becomes of their names. *)
Record stays (f g : hostfs) : Prop := {
  st_data : forall i, i < h_next f -> h_data g i = h_data f i /\ h_mtime g i = h_mtime f i;
  st_next : h_next f <= h_next g;
  st_given : inodes_given f -> inodes_given g }.
Lemma stays_refl f : stays f f.
Proof. constructor; auto; lia. Qed.
Lemma stays_trans f g h : stays f g -> stays g h -> stays f h.
Proof.
  intros A B. constructor.
  - intros i Hi. destruct (st_data _ _ A i Hi) as [<- <-]. apply (st_data _ _ B). pose proof (st_next _ _ A). lia.
  - pose proof (st_next _ _ A). pose proof (st_next _ _ B). lia.
  - intros H. apply (st_given _ _ B), (st_given _ _ A), H.
Qed.
Lemma stays_time t f : stays f (at_time t f).
Proof. constructor; cbn [at_time h_data h_mtime h_next]; auto; lia. Qed.
Lemma stays_hinv f dir names final s : hinv f dir names final s -> stays f (wr_fs s).
Proof. intros I. constructor; [apply I|apply I|now apply hinv_given with (1 := I)]. Qed.

Lemma arx_stays parse J w dv inv h x e : arx_run parse J w dv inv h x e -> writes_anew inv -> stays (w_fs w) h.
Proof.
  intros R G. destruct R as [fuel can_open o x g R|inv bu cs r x e Hp Hr|inv bu cs r x e k Hp Hr|infile outdir files fl root rc pol r Hr Hn|infile outdir files fl root rc pol a sched last g r Ha Hx|infile outdir files fl root rc pol|infile outdir files fl root rc pol a rg l sched last n j Ha Hl Hrg]; try apply stays_refl.
  - destruct (run_state _ _ _ _ _ _ _ R) as [[-> _]|(dir & n & m & s & Ho & -> & [(I & _)|(a & c & w' & E & _ & _ & _ & I & _)])]; [apply stays_refl|eapply stays_hinv; eauto..].
  - unfold extract_cmd in Hx. destruct (files_to_extract w fl files) as [l|e| |]; try (injection Hx as <- _; apply stays_refl).
    cbv zeta in Hx. destruct (Fuse.mount_range a root) as [rg|e| |]; try (injection Hx as <- _; apply stays_refl).
    apply extract_added in Hx; [|exact G]. constructor; apply Hx.
  - pose proof (killed_added a rg (extract_config w outdir l rc pol) sched last n j (w_fs w) G) as K. constructor; apply K.
Qed.
Lemma convert_stays J A w can_open P x g : convert_run J A w can_open P x g -> stays (w_fs w) g.
Proof.
  intros R. destruct (convert_state _ _ _ _ _ _ _ R) as [[-> _]|(out & dir & n & m & s & _ & _ & -> & [(I & _)|(y & a & l & _ & _ & _ & _ & _ & I & _)])]; [apply stays_refl|eapply stays_hinv; eauto..].
Qed.
Lemma python_stays J fuel s dir n f y : inodes_given f -> py_quiet J fuel s dir n f y -> stays f (ph_fs y).
Proof.
  intros H Q. pose proof (qinv_quiet _ _ _ _ _ _ _ H Q) as [Q1 Q2 _ _].
  pose proof (pinv_life _ _ _ _ _ _ _ H (quiet_life _ _ _ _ _ _ _ Q)) as [P1 _ _]. constructor; auto.
Qed.
Lemma tools_stays parse J f g : inodes_given f -> tools parse J f g -> stays f g.
Proof.
  intros Hf T. induction T as [|g w t dv inv h x e T IH Hw Hg R|g w t A can_open P x h T IH Hw R|g t fuel s dir n y T IH Q].
  - apply stays_refl.
  - apply (stays_trans _ _ _ IH), (stays_trans _ _ _ (stays_time t g)). rewrite <- Hw. eapply arx_stays; eauto.
  - apply (stays_trans _ _ _ IH), (stays_trans _ _ _ (stays_time t g)). rewrite <- Hw. eapply convert_stays; eauto.
  - apply (stays_trans _ _ _ IH), (stays_trans _ _ _ (stays_time t g)). eapply python_stays; eauto.
    apply (st_given _ _ (stays_time t g)), (st_given _ _ IH), Hf.
Qed.

(** C94: an archive that is open (listed, mounted, read by a Python program) is read to the end as it was,
    whatever runs in the meantime, and even if it is replaced. *)
Theorem C94_opened : forall parse J w s i a g, inodes_given (w_fs w) -> opens_at w s i -> open_archive parse w s = Ok a ->
  tools parse J (w_fs w) g -> parse (h_data g i) = Ok a.
Proof.
  intros parse J w s i a g Hino [q Hl] Ho T. unfold open_archive in Ho. rewrite Hl in Ho. rewrite <- Ho. f_equal.
  apply (tools_stays _ _ _ _ Hino T). eapply Hino. eapply PropLive.look_names. exact Hl.
Qed.
Print Assumptions C94_opened.

(** What a path to the output leads to, at any moment. *)
Lemma seen_at f dir n final st w1 s : hinv f dir [n] final st -> inodes_given f -> n <> b "." -> n <> b ".." ->
  (forall t m, h_names f (dir ++ [n]) <> Some (HLink t m)) -> w_fs w1 = f -> leads_into w1 s dir n ->
  (forall parse, open_archive parse (mkWorld (wr_fs st) (w_attr w1) (w_list w1) (w_cwd w1)) s = open_archive parse w1 s) \/
  exists content, final = Some content /\ forall parse, open_archive parse (mkWorld (wr_fs st) (w_attr w1) (w_list w1) (w_cwd w1)) s = parse (content n).
Proof.
  intros I Hino Hn1 Hn2 Hlink Hw1 (Hs & Hsep & c & Hc & Hlook).
  assert (Hn : ordinary n) by (destruct (in_pieces s n) as [H1 H2]; [rewrite Hc; apply in_app_iff; right; now left|]; repeat split; auto).
  assert (Hdn : ~ exists i, In (dir ++ [n], i) (wr_temps st)).
  { intros [i H]. destruct (hv_temp _ _ _ _ _ I _ _ H) as (_ & _ & _ & k & E & Hk). apply app_inj_tail in E as [_ <-]. apply Hk. now left. }
  assert (Hstay : forall p, h_names (wr_fs st) p = h_names f p \/ (h_names f p <> Some HDir /\ forall t m, h_names f p <> Some (HLink t m))).
  { intros p. destruct (in_dec (list_eq_dec (list_eq_dec N.eq_dec)) p (map fst (wr_temps st))) as [Ht|Ht].
    - right. apply in_map_iff in Ht as ([q i] & <- & Ht). cbn [fst]. destruct (hv_temp _ _ _ _ _ I _ _ Ht) as (_ & _ & -> & _). split; [bad|intros t m HH; discriminate HH].
    - assert (Hnt : forall i, ~ In (p, i) (wr_temps st)) by (intros i H; apply Ht; apply in_map_iff; exists (p, i); auto).
      destruct (list_eq_dec (list_eq_dec N.eq_dec) p (dir ++ [n])) as [->|Hp].
      + destruct (in_dec (list_eq_dec N.eq_dec) n (wr_done st)) as [Hd|Hd].
        * right. split; [apply (hv_done _ _ _ _ _ I n Hd)|exact Hlink].
        * left. apply (hv_rest _ _ _ _ _ I); auto. intros k Hk E. apply app_inj_tail in E as [_ <-]. contradiction.
      + left. apply (hv_rest _ _ _ _ _ I); auto. intros k Hk. destruct (hv_done _ _ _ _ _ I k Hk) as ([<-|[]] & _). exact Hp. }
  unfold look in Hlook. cbn [fst snd] in Hlook. rewrite Hw1 in Hlook. pose proof (namei_stays _ _ _ Hstay _ _ _ Hlook) as Hlook'.
  destruct (namei_app _ _ true dir [n] ltac:(discriminate) _ _ Hlook) as [k1 Hk1]. destruct (namei_app _ _ true dir [n] ltac:(discriminate) _ _ Hlook') as [k2 Hk2].
  rewrite namei_last in Hk1, Hk2 by exact Hn.
  destruct (in_dec (list_eq_dec N.eq_dec) n (wr_done st)) as [Hd|Hd].
  - right. destruct (hv_done _ _ _ _ _ I n Hd) as (_ & _ & i & content & Hct & Hi1 & Hi2 & _). exists content. split; auto. intros parse.
    unfold open_archive, look_str, opath_of. cbn [w_fs w_cwd]. rewrite Hsep, Hc, app_nil_r. destruct s as [|x s]; [easy|].
    unfold look. cbn [fst snd]. rewrite Hk2, Hi1, Hi2. reflexivity.
  - left. intros parse.
    assert (Hsame : h_names (wr_fs st) (dir ++ [n]) = h_names f (dir ++ [n])).
    { apply (hv_rest _ _ _ _ _ I); [intros i H; apply Hdn; eauto|]. intros k Hk E. apply app_inj_tail in E as [_ <-]. contradiction. }
    unfold open_archive, look_str, opath_of. cbn [w_fs w_cwd]. rewrite Hw1, Hsep, Hc, app_nil_r. destruct s as [|x s]; [easy|].
    unfold look. cbn [fst snd]. rewrite Hk1, Hk2, Hsame. destruct (h_names f (dir ++ [n])) as [[|i|t m]|] eqn:E; try reflexivity.
    + f_equal. apply (hv_old _ _ _ _ _ I). now apply (Hino _ _ E).
    + now destruct (Hlink t m).
Qed.

(** At every moment of an [arx create] of one file, with or without [--force], the output opens as before
    or as the whole new archive. *)
Theorem C94_create_moments : forall parse J fuel w can_open o x g w1 s dir n, inodes_given (w_fs w) -> names_output J ->
  create_concat (o_concat o) = Ok OneFile -> reads_back parse J fuel w o n ->
  create_run J fuel w can_open o x g -> out_place w (o_out o) = Some (dir, n) ->
  (forall t m, h_names (w_fs w) (dir ++ [n]) <> Some (HLink t m)) ->
  w_fs w1 = w_fs w -> leads_into w1 s dir n ->
  open_archive parse (mkWorld g (w_attr w1) (w_list w1) (w_cwd w1)) s = open_archive parse w1 s \/
  exists a, create fuel w can_open o = ([Opened OneFile; Written a], Ok tt) /\
    open_archive parse (mkWorld g (w_attr w1) (w_list w1) (w_cwd w1)) s = Ok a.
Proof.
  intros parse J fuel w can_open o x g w1 s dir n Hino [HJ HJ1] Hm Hrb R Ho Hlink Hw1 Hs.
  destruct (out_place_name _ _ _ _ Ho) as [N1 N2].
  destruct (run_state _ _ _ _ _ _ _ R) as [[-> _]|(dir' & n' & m & st & Ho' & -> & HI)].
  { left. rewrite <- Hw1. destruct w1; reflexivity. }
  assert (dir' = dir /\ n' = n) as [-> ->] by (split; congruence).
  assert (Hm' : (exists final, hinv (w_fs w) dir (jb_names J m n) final st) /\ (m = OneFile \/ hinv (w_fs w) dir (jb_names J m n) None st)).
  { destruct HI as [(I & _)|(a & cr & w' & E & _ & _ & _ & I & _)]; [split; [eauto|now right]|split; [eauto|left]].
    destruct (create_shape _ _ _ _ _ _ E) as [[K _]|[(m' & K & _)|(m' & a' & c' & w'' & K & _ & _ & _ & Hcc & _)]]; try discriminate K. injection K as -> _. congruence. }
  destruct HI as [(I & _)|(a & cr & w' & E & Hf & Hfin & Hb & I & _)].
  - assert (I' : hinv (w_fs w) dir [n] None st).
    { pose proof (hinv_unsealed _ _ _ _ I) as Hd. destruct I as [I1 I2 I3 I4 I5 I6]. constructor; auto.
      - intros q i H. destruct (I3 q i H) as (A & B & C & k & -> & Hk). split; auto. split; auto. split; auto. exists k. split; auto. intros [<-|[]]. apply Hk, HJ.
      - rewrite Hd. intros k []. }
    destruct (seen_at _ _ _ _ _ w1 s I' Hino N1 N2 Hlink Hw1 Hs) as [H|(ct & H & _)]; [left; apply H|discriminate H].
  - destruct Hm' as [_ [-> |I0]].
    + rewrite HJ1 in I. destruct (seen_at _ _ _ _ _ w1 s I Hino N1 N2 Hlink Hw1 Hs) as [H|(ct & Hct & H)]; [left; apply H|right].
      injection Hct as <-. exists a. split; [exact E|]. rewrite H.
      assert (He : entered w (o_base o) w').
      { unfold entered. destruct (o_base o) as [sd|]; [|exact Hb]. unfold chdir in Hb. destruct (look_str w true sd) as [q [|j|t mm]|q|e] eqn:El; try discriminate Hb.
        injection Hb as <-. cbn [w_cwd w_fs w_attr w_list]. split; reflexivity. }
      apply (Hrb cr a w' He Hf Hfin).
    + pose proof (hinv_unsealed _ _ _ _ I0) as Hd.
      assert (I' : hinv (w_fs w) dir [n] None st).
      { destruct I as [I1 I2 I3 I4 I5 I6]. constructor; auto.
        - intros q i H. destruct (I3 q i H) as (A & B & C & k & -> & Hk). split; auto. split; auto. split; auto. exists k. split; auto. intros [<-|[]]. apply Hk, HJ.
        - rewrite Hd. intros k []. }
      destruct (seen_at _ _ _ _ _ w1 s I' Hino N1 N2 Hlink Hw1 Hs) as [H|(ct & H & _)]; [left; apply H|discriminate H].
Qed.
Print Assumptions C94_create_moments.

(** The same for tar2arx and zip2arx. *)
Theorem C94_convert_moments : forall parse J A w can_open P x g w1 s out dir n, inodes_given (w_fs w) -> names_output J ->
  match P with Tar2arx o => create_concat (to_concat o) = Ok OneFile | Zip2arx _ o => create_concat (zo_concat o) = Ok OneFile end ->
  (forall a, finalize (program_filled A w P) = Some a -> parse (jb_bytes J OneFile n (program_filled A w P) n) = Ok a) ->
  convert_run J A w can_open P x g -> program_out P = Some out -> out_place w out = Some (dir, n) ->
  (forall t m, h_names (w_fs w) (dir ++ [n]) <> Some (HLink t m)) ->
  w_fs w1 = w_fs w -> leads_into w1 s dir n ->
  open_archive parse (mkWorld g (w_attr w1) (w_list w1) (w_cwd w1)) s = open_archive parse w1 s \/
  exists y a, program_main A w P can_open = ([COpened out OneFile y; CWritten out a], Ok tt) /\
    open_archive parse (mkWorld g (w_attr w1) (w_list w1) (w_cwd w1)) s = Ok a.
Proof.
  intros parse J A w can_open P x g w1 s out dir n Hino [HJ HJ1] Hm Hrb R Hout Ho Hlink Hw1 Hs.
  destruct (out_place_name _ _ _ _ Ho) as [N1 N2].
  destruct (convert_state _ _ _ _ _ _ _ R) as [[-> _]|(out' & dir' & n' & m & st & Hout' & Ho' & -> & HI)].
  { left. rewrite <- Hw1. destruct w1; reflexivity. }
  assert (out' = out) as -> by congruence. assert (dir' = dir /\ n' = n) as [-> ->] by (split; congruence).
  destruct HI as [(I & _)|(y & a & l & E & Hmm & Hok & Ha & Hcr & I & _)].
  - assert (I' : hinv (w_fs w) dir [n] None st).
    { pose proof (hinv_unsealed _ _ _ _ I) as Hd. destruct I as [I1 I2 I3 I4 I5 I6]. constructor; auto.
      - intros q i H. destruct (I3 q i H) as (B1 & B2 & B3 & k & -> & Hk). split; auto. split; auto. split; auto. exists k. split; auto. intros [<-|[]]. apply Hk, HJ.
      - rewrite Hd. intros k []. }
    destruct (seen_at _ _ _ _ _ w1 s I' Hino N1 N2 Hlink Hw1 Hs) as [H|(ct & H & _)]; [left; apply H|discriminate H].
  - assert (m = OneFile) as -> by (destruct P as [o|p o]; congruence). rewrite HJ1 in I.
    destruct (seen_at _ _ _ _ _ w1 s I Hino N1 N2 Hlink Hw1 Hs) as [H|(ct & Hct & H)]; [left; apply H|right].
    injection Hct as <-. exists y, a. split; [exact E|]. rewrite H. apply Hrb. rewrite <- Hcr. exact Ha.
Qed.
Print Assumptions C94_convert_moments.

(** Not so with [extract --overwrite overwrite] (nor [newer]): an archive that holds an entry with its own path is
    extracted over itself, and is lost at the moment the entry is opened: the only copy, and no longer
    readable, also by the run itself. *)
Definition self_fs : hostfs := host_of [(at_t, HDir); (at_out, HDir); (at_out ++ [b "x"], HFile 0)] [b "the archive"].
Definition self_world : world := mkWorld self_fs src_attr src_list at_out.
Definition self_parse (d : bytes) : res archive := if bytes_eqb d (b "the archive") then Ok x_arx else Err (EOther (b "not a jubako file")).
Theorem C94_self_refuted : exists parse w i a g, archive_of x_demo demo_fetch a /\ inodes_given (w_fs w) /\
  opens_at w (b "x") i /\ open_archive parse w (b "x") = Ok a /\
  (exists dv, arx_run parse demo_jbk w dv (IExtract (b "x") None [] None None true Overwrite) g [] None) /\
  h_data g i = [] /\ parse (h_data g i) <> Ok a /\
  open_archive parse (mkWorld g (w_attr w) (w_list w) (w_cwd w)) (b "x") <> Ok a.
Proof.
  exists self_parse, self_world, 0, x_arx,
    (killed_run x_arx (a_root x_arx) (extract_config self_world None [] true Overwrite) idle [] 100 0 self_fs).
  split; [vm_compute; reflexivity|]. split.
  { intros q i H. cbn [self_world w_fs self_fs host_of h_names] in H. apply lookup_in in H.
    destruct H as [H|[H|[H|[]]]]; try discriminate H. injection H as _ <-. reflexivity. }
  split; [exists (at_out ++ [b "x"]); vm_compute; reflexivity|]. split; [vm_compute; reflexivity|].
  split; [exists terminal; apply arx_extract_killed; vm_compute; reflexivity|].
  split; [vm_compute; reflexivity|]. split; vm_compute; intros H; discriminate H.
Qed.
Print Assumptions C94_self_refuted.

(** "pkg-1.arx" is opened, replaced by the conversion of another tar, and read on. *)
Lemma at_now f : at_time (h_now f) f = f.
Proof. destruct f; reflexivity. Qed.
Example C94_meets_hypotheses : exists a1 a2, let parse d := if bytes_eqb d (b "pkg-1.arx:two") then Ok a1 else Ok a2 in
  a1 <> a2 /\ inodes_given pkg_fs1 /\ names_output pkg_jbk /\ opens_at (pkg_world pkg_fs1) (b "pkg-1.arx") 2 /\
  open_archive parse (pkg_world pkg_fs1) (b "pkg-1.arx") = Ok a1 /\
  tools parse pkg_jbk pkg_fs1 pkg_fs2 /\
  parse (h_data pkg_fs2 2) = Ok a1 /\
  (* the moments *)
  (forall a, finalize (program_filled pkg_around (pkg_world pkg_fs1) (pkg_run (b "pkg-1.3.tar"))) = Some a ->
    parse (jb_bytes pkg_jbk OneFile (b "pkg-1.arx") (program_filled pkg_around (pkg_world pkg_fs1) (pkg_run (b "pkg-1.3.tar"))) (b "pkg-1.arx")) = Ok a) /\
  out_place (pkg_world pkg_fs1) (b "pkg-1.arx") = Some ([b "h"], b "pkg-1.arx") /\
  leads_into (pkg_world pkg_fs1) (b "pkg-1.arx") [b "h"] (b "pkg-1.arx") /\
  open_archive parse (pkg_world pkg_fs2) (b "pkg-1.arx") = Ok a2.
Proof.
  assert (F1 : exists a, finalize (program_filled pkg_around (pkg_world pkg_fs) (pkg_run (b "pkg-1.2.tar"))) = Some a) by (eexists; vm_compute; reflexivity).
  assert (F2 : exists a, finalize (program_filled pkg_around (pkg_world pkg_fs1) (pkg_run (b "pkg-1.3.tar"))) = Some a) by (eexists; vm_compute; reflexivity).
  destruct F1 as [a1 F1], F2 as [a2 F2]. exists a1, a2. intros parse.
  destruct C92_lost_refuted as (_ & _ & R & _).
  split; [intros ->; rewrite <- F2 in F1; vm_compute in F1; discriminate F1|]. split; [|split; [|split; [|split; [|split; [|split; [|split; [|split; [|split]]]]]]]].
  - intros q i H. unfold pkg_fs1 in H. rewrite converted_names in H by discriminate. unfold pkg_fs1, converted_fs.
    destruct (path_eqb' q ([b "h"] ++ [b "pkg-1.arx"])); [injection H as <-; vm_compute; reflexivity|].
    destruct (path_eqb' q ([b "h"] ++ [b ".tmp"])); [discriminate H|]. cbn [pkg_fs host_of h_names] in H. apply lookup_in in H. unfold pkg_names in H.
    destruct H as [H|[H|[H|[]]]]; try discriminate H; injection H as _ <-; vm_compute; reflexivity.
  - split; [intros [| |] n; left; reflexivity|reflexivity].
  - exists [b "h"; b "pkg-1.arx"]. vm_compute. reflexivity.
  - vm_compute. reflexivity.
  - eapply (tools_convert parse pkg_jbk pkg_fs1 pkg_fs1 (pkg_world pkg_fs1) (h_now pkg_fs1)); [constructor|now rewrite at_now|exact R].
  - vm_compute. reflexivity.
  - intros a Ha. assert (a = a2) as -> by congruence. vm_compute. reflexivity.
  - vm_compute. reflexivity.
  - split; [discriminate|]. split; [vm_compute; reflexivity|]. exists []. split; vm_compute; reflexivity.
  - vm_compute. reflexivity.
Qed.
