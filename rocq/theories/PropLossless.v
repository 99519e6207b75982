(** C104: runs of all the tools, one after the other. *)
From Verif Require Export SpecLossless PropMain PropConvertHost PropPyHost.
From Verif Require Import MountCmd.

Record left_by (W : path -> bytes -> Prop) (c : bool) (f g : hostfs) : Prop := {
  lv_path : forall q, h_names f q = None \/ unchanged f g q \/ exists d, W q d /\ has_file g q d;
  lv_neat : c = true -> forall q, unchanged f g q \/ exists d, W q d /\ has_file g q d;
  lv_dir : forall q, h_names f q = Some HDir -> h_names g q = Some HDir;
  lv_given : inodes_given g }.

Lemma unchanged_same f q : unchanged f f q.
Proof. split; [reflexivity|auto]. Qed.
Lemma unchanged_then f g h q : unchanged f g q -> unchanged g h q -> unchanged f h q.
Proof.
  intros [A B] [C D]. split; [congruence|]. intros i Hi. destruct (B i Hi) as [<- <-]. apply D. congruence.
Qed.
Lemma file_then g h q d : has_file g q d -> unchanged g h q -> has_file h q d.
Proof. intros (i & A & B) [C D]. exists i. destruct (D i A) as [E _]. split; congruence. Qed.

Lemma kept_leaves W f g : ExtractKeep.kept f g -> MainFacts.added f g -> inodes_given f -> left_by W false f g.
Proof.
  intros K A Hino. constructor.
  - intros q. destruct (h_names f q) as [n|] eqn:E; [right; left|now left]. split; [rewrite E; now apply (kp_names _ _ K)|].
    intros i Hi. apply (ad_inodes _ _ A). now apply Hino in Hi.
  - intros H. discriminate H.
  - intros q H. now apply (kp_names _ _ K).
  - now apply (ad_given _ _ A).
Qed.
Lemma same_leaves W c f : inodes_given f -> left_by W c f f.
Proof. intros H. constructor; auto; intros; [right|]; left; apply unchanged_same. Qed.

Lemma hinv_dir f dir names final s q : hinv f dir names final s -> h_names f q = Some HDir -> h_names (wr_fs s) q = Some HDir.
Proof.
  intros I H. rewrite <- H. apply (hv_rest _ _ _ _ _ I).
  - intros i Hi. apply (hv_temp _ _ _ _ _ I) in Hi as (_ & _ & K & _). congruence.
  - intros k Hk ->. now apply (hv_done _ _ _ _ _ I) in Hk as (_ & K & _).
Qed.

Lemma create_leaves J fuel w can_open o x g : inodes_given (w_fs w) -> create_run J fuel w can_open o x g ->
  left_by (arx_puts J w (ICreate o)) (match x with Some _ => true | None => false end) (w_fs w) g.
Proof.
  intros Hino R.
  assert (E : forall p, unchanged (w_fs w) g p \/ (h_names (w_fs w) p = None /\ x = None) \/ exists d, arx_puts J w (ICreate o) p d /\ has_file g p d).
  { intros p. destruct (C55_elsewhere _ _ _ _ _ _ _ p Hino R) as [H|(dir & n & m & k & H1 & H2 & [(_ & H3 & H4)|(H3 & a & d & H4 & H5 & H6)])]; auto.
    right. right. exists d. split; [|exact H6]. exists fuel, can_open, dir, n, m, k, a. auto. }
  constructor.
  - intros q. destruct (E q) as [H|[[H _]|H]]; auto.
  - intros Hx q. destruct (E q) as [H|[[_ ->]|H]]; auto. discriminate Hx.
  - intros q H. destruct (run_state _ _ _ _ _ _ _ R) as [[-> _]|(dir & n & m & s & Ho & -> & [(I & _)|(a & c & w' & _ & _ & _ & _ & I & _)])]; auto; eapply hinv_dir; eauto.
  - destruct (run_state _ _ _ _ _ _ _ R) as [[-> _]|(dir & n & m & s & Ho & -> & [(I & _)|(a & c & w' & _ & _ & _ & _ & I & _)])]; auto; eapply hinv_given; eauto.
Qed.

Lemma convert_leaves J A w can_open P x g : inodes_given (w_fs w) -> convert_run J A w can_open P x g ->
  left_by (converter_puts J A w P) (match x with Some _ => true | None => false end) (w_fs w) g.
Proof.
  intros Hino R.
  assert (E : forall p, unchanged (w_fs w) g p \/ (h_names (w_fs w) p = None /\ x = None) \/ exists d, converter_puts J A w P p d /\ has_file g p d).
  { intros p. destruct (C92_elsewhere _ _ _ _ _ _ _ p Hino R) as [H|(out & dir & n & m & k & H0 & H1 & H2 & [(_ & H3 & H4)|(H3 & y & a & d & H4 & H5 & H6)])]; auto.
    right. right. exists d. split; [|exact H6]. exists out, can_open, dir, n, m, y, k, a. auto 10. }
  constructor.
  - intros q. destruct (E q) as [H|[[H _]|H]]; auto.
  - intros Hx q. destruct (E q) as [H|[[_ ->]|H]]; auto. discriminate Hx.
  - intros q H. destruct (convert_state _ _ _ _ _ _ _ R) as [[-> _]|(out & dir & n & m & s & Ho & _ & -> & [(I & _)|(y & a & l & _ & _ & _ & _ & _ & I & _)])]; auto; eapply hinv_dir; eauto.
  - destruct (convert_state _ _ _ _ _ _ _ R) as [[-> _]|(out & dir & n & m & s & Ho & _ & -> & [(I & _)|(y & a & l & _ & _ & _ & _ & _ & I & _)])]; auto; eapply hinv_given; eauto.
Qed.

Lemma creator_dirs J fuel s dir n f x q : inodes_given f -> py_quiet J fuel s dir n f x -> h_names f q = Some HDir -> h_names (ph_fs x) q = Some HDir.
Proof.
  intros Hino Q H. induction Q as [|x y Q IH O]; [exact H|].
  pose proof (pinv_life _ _ _ _ _ _ _ Hino (quiet_life _ _ _ _ _ _ _ Q)) as I.
  destruct (own_changes J fuel s dir n x y q I O) as [[E _]|[(i & k & -> & _ & [Hi|[_ Hn]])|(dir' & d & -> & Hst & Hf)]]; [congruence| |congruence|].
  - destruct (pi_temp _ _ _ _ _ I _ _ Hi) as [K _]. congruence.
  - destruct O as [f1 ts h k st os st' r Hr Hs Hw|f1 ts h exc st os st' a c w t Hr Hc Hs Ht|f1 ts h g k Hg Hk Hfree|f1 ts h g q i d' Hin|f1 ts h t d' q i Hin Hd Hnd|f1 ts h g q i Hin|f1 h t d' r|f1 h|f1 h k r];
      cbn [ph_fs ph_temps ph_stage ph_calls] in *; try (exact IH); try discriminate Hst.
    + subst g. unfold make_temp, touch, set_data, bump, set_name. cbn [h_names]. rewrite path_eqb'_neq; [exact IH|]. intros E. rewrite <- E in Hfree. congruence.
    + injection Hst as -> ->. now destruct Hnd.
    + destruct Hf as (j & Hj & _). unfold set_name in Hj |- *. cbn [h_names] in *. destruct (path_eqb' (dir' ++ [n]) q); congruence.
Qed.

Lemma closing_place J fuel w s dir n f x t d r : w_fs w = f -> out_place w s = Some (dir, n) -> py_quiet J fuel s dir n f x ->
  ph_stage x = Closing t d r -> creator_place J fuel s dir n f t.
Proof.
  intros Hw Ho Q. revert t d r. induction Q as [|x y Q IH O]; intros t d r H; [discriminate H|].
  destruct O as [f1 ts h k st os st' r1 Hr Hs Hw1|f1 ts h exc st os st' a c w1 t1 Hr Hc Hs Ht|f1 ts h g k Hg Hk Hfree|f1 ts h g q i d' Hin|f1 ts h t1 d' q i Hin Hd Hnd|f1 ts h g q i Hin|f1 h t1 d' r1|f1 h|f1 h k r1];
    cbn [ph_fs ph_temps ph_stage ph_calls] in *; try discriminate H; try (eapply IH; exact H).
  - injection H as <- _ _. destruct Ht as [->|(Hw1 & dir' & Ho' & ->)].
    + exists (py_start f), w, dir. split; [constructor|]. auto.
    + eexists. exists w1, dir'. split; [exact Q|]. auto.
  - injection H as <- <- <-. eapply IH. reflexivity.
Qed.

Lemma creator_at J fuel w s dir n f x p : inodes_given f -> w_fs w = f -> out_place w s = Some (dir, n) -> py_quiet J fuel s dir n f x ->
  h_names (ph_fs x) p = h_names f p \/ (exists i, In (p, i) (ph_temps x)) \/ creator_place J fuel s dir n f p.
Proof.
  intros Hino Hw Ho Q. induction Q as [|x y Q IH O]; [now left|].
  pose proof (qinv_quiet _ _ _ _ _ _ _ Hino Q) as K. pose proof (pinv_life _ _ _ _ _ _ _ Hino (quiet_life _ _ _ _ _ _ _ Q)) as I.
  pose proof (fun t d r => closing_place J fuel w s dir n f x t d r Hw Ho Q) as C.
  destruct O as [f1 ts h k st os st' r1 Hr Hs Hw1|f1 ts h exc st os st' a c w1 t1 Hr Hc Hs Ht|f1 ts h g k Hg Hk Hfree|f1 ts h g q i d' Hin|f1 ts h t1 d' q i Hin Hd Hnd|f1 ts h g q i Hin|f1 h t1 d' r1|f1 h|f1 h k r1];
    cbn [ph_fs ph_temps ph_stage ph_calls] in *; try exact IH.
  - destruct (list_eq_dec (list_eq_dec N.eq_dec) p (dir ++ [k])) as [->|E]; [right; left; exists (h_next f1); now left|].
    unfold make_temp, touch, set_data, bump, set_name. cbn [h_names]. rewrite path_eqb'_neq by exact E.
    destruct IH as [H|[[i H]|H]]; [now left|right; left; exists i; now right|now right; right].
  - destruct (list_eq_dec (list_eq_dec N.eq_dec) p t1) as [->|E]; [right; right; exact (C _ _ _ eq_refl)|].
    unfold rename_file, set_name. cbn [h_names]. rewrite (path_eqb'_neq _ _ E). destruct (list_eq_dec (list_eq_dec N.eq_dec) p q) as [->|E'].
    + left. rewrite path_eqb'_refl. symmetry. apply (qi_temp _ _ _ _ _ K _ _ Hin).
    + rewrite (path_eqb'_neq _ _ E'). destruct IH as [H|[[j H]|H]]; [now left|right; left; exists j; apply in_without; auto|now right; right].
  - unfold set_name. cbn [h_names]. destruct (list_eq_dec (list_eq_dec N.eq_dec) p q) as [->|E'].
    + left. rewrite path_eqb'_refl. symmetry. apply (qi_temp _ _ _ _ _ K _ _ Hin).
    + rewrite (path_eqb'_neq _ _ E'). destruct IH as [H|[[j H]|H]]; [now left|right; left; exists j; apply in_without; auto|now right; right].
Qed.

Lemma creator_leaves J fuel w s dir n f x : inodes_given f -> w_fs w = f -> out_place w s = Some (dir, n) -> py_quiet J fuel s dir n f x ->
  left_by (creator_puts J fuel s dir n f (ph_calls x)) (match ph_stage x with Closed _ => true | _ => false end) f (ph_fs x).
Proof.
  intros Hino Hw Ho Q. pose proof (pinv_life _ _ _ _ _ _ _ Hino (quiet_life _ _ _ _ _ _ _ Q)) as I.
  pose proof (qinv_quiet _ _ _ _ _ _ _ Hino Q) as K.
  assert (E : forall p, unchanged f (ph_fs x) p \/ (h_names f p = None /\ exists i, In (p, i) (ph_temps x)) \/ exists d, creator_puts J fuel s dir n f (ph_calls x) p d /\ has_file (ph_fs x) p d).
  { intros p. destruct (C93_crash_points _ _ _ _ _ _ _ p Hino Q) as [H|[(i & k & _ & _ & H1 & H2)|(dir' & d & H1 & H2 & H3)]]; eauto 6.
    destruct (creator_at J fuel w s dir n f x p Hino Hw Ho Q) as [H|[[i H]|H]].
    - left. split; [exact H|]. intros i Hi. apply (qi_old _ _ _ _ _ K). now apply Hino in Hi.
    - right. left. split; [apply (qi_temp _ _ _ _ _ K _ _ H)|eauto].
    - right. right. exists d. split; [|exact H3]. split; [exact H|exact H2]. }
  constructor.
  - intros q. destruct (E q) as [H|[[H _]|H]]; auto.
  - intros Hc q. destruct (E q) as [H|[[_ [i H]]|H]]; auto. pose proof (pi_stage _ _ _ _ _ I) as S. destruct (ph_stage x); try discriminate Hc. rewrite S in H. destruct H.
  - intros q H. eapply creator_dirs; eauto.
  - intros q i H. eapply (pi_given _ _ _ _ _ I); eauto.
Qed.

Lemma tool_leaves parse J f W c g : inodes_given f -> tool_run parse J f W c g -> left_by W c f g.
Proof.
  intros Hino R. destruct R as [w dv inv g x e <- Hc R|A w can_open P g x <- R|fuel w s dir n x Hw Ho Q|w a dir sched last g r <- R|w a dir sched last n j <-].
  - destruct R as [fuel can_open o x g R|inv bu cs r x e Hp Hr|inv bu cs r x e k Hp Hr|infile outdir files fl root rc pol r Hr Hn|infile outdir files fl root rc pol a sched last g r Ha Hx|infile outdir files fl root rc pol|infile outdir files fl root rc pol a rg l sched last n j Ha Hl Hrg]; try (apply same_leaves; exact Hino).
    + replace (neat (ICreate o) (option_map exit_of x)) with (match x with Some _ => true | None => false end) by (destruct x; reflexivity). now apply create_leaves with (1 := Hino) (2 := R).
    + unfold extract_cmd in Hx. destruct (files_to_extract w fl files) as [l|e| |]; try (injection Hx as <- _; apply same_leaves; exact Hino).
      cbv zeta in Hx. destruct (Fuse.mount_range a root) as [rg|e| |]; try (injection Hx as <- _; apply same_leaves; exact Hino).
      apply kept_leaves; [eapply any_kept; [|exact Hx]; exact Hc|eapply extract_added; [|exact Hx]; exact Hc|exact Hino].
    + apply kept_leaves; [apply any_killed_kept; exact Hc|apply killed_added; exact Hc|exact Hino].
  - eapply convert_leaves; eauto.
  - eapply creator_leaves; eauto.
  - assert (Hp : preserving Warn) by (right; left; reflexivity). unfold py_extract, extract_arx in R.
    apply kept_leaves; [eapply any_kept; [|exact R]; exact Hp|eapply extract_added; [|exact R]; exact Hp|exact Hino].
  - assert (Hp : preserving Warn) by (right; left; reflexivity).
    apply kept_leaves; [apply any_killed_kept; exact Hp|apply killed_added; exact Hp|exact Hino].
Qed.

Lemma tools_leave parse J f W c g : inodes_given f -> tool_runs parse J f W c g -> left_by W c f g.
Proof.
  intros Hino R. induction R as [|W c g t V c' h R IH S]; [now apply same_leaves|].
  assert (Hg : inodes_given (at_time t g)) by exact (lv_given _ _ _ _ IH).
  pose proof (tool_leaves _ _ _ _ _ _ Hg S) as L.
  assert (Hstep : forall q, (unchanged f g q \/ exists d, W q d /\ has_file g q d) ->
    (unchanged (at_time t g) h q \/ exists d, V q d /\ has_file h q d) -> unchanged f h q \/ exists d, (W q d \/ V q d) /\ has_file h q d).
  { intros q [H|(d & H1 & H2)] [K|(d' & K1 & K2)].
    - left. exact (unchanged_then f g h q H K).
    - right. eauto.
    - right. exists d. split; [auto|]. exact (file_then g h q d H2 K).
    - right. eauto. }
  constructor.
  - intros q. destruct (h_names f q) as [nd|] eqn:E; [right|now left].
    destruct (lv_path _ _ _ _ IH q) as [H|H]; [congruence|]. destruct (lv_path _ _ _ _ L q) as [K|K]; [|now apply Hstep].
    change (h_names g q = None) in K. destruct H as [[H1 _]|(d & _ & i & H2 & _)]; congruence.
  - intros Hc q. apply Bool.andb_true_iff in Hc as [Hc1 Hc2]. apply Hstep; [exact (lv_neat _ _ _ _ IH Hc1 q)|exact (lv_neat _ _ _ _ L Hc2 q)].
  - intros q H. apply (lv_dir _ _ _ _ L). exact (lv_dir _ _ _ _ IH q H).
  - exact (lv_given _ _ _ _ L).
Qed.

(** Whatever is run, in any order, each finished or killed at any system call: what existed has its bytes
    and its time, or a complete archive file of one of the runs is there, at or beside its output. *)
Theorem C104_nothing_lost : forall parse J f W c g q n, inodes_given f -> tool_runs parse J f W c g -> h_names f q = Some n ->
  unchanged f g q \/ exists d, W q d /\ has_file g q d.
Proof.
  intros parse J f W c g q n Hino R Hq. destruct (lv_path _ _ _ _ (tools_leave _ _ _ _ _ _ Hino R) q) as [H|H]; [congruence|exact H].
Qed.
Print Assumptions C104_nothing_lost.

(** Directories stay directories, outputs included. *)
Theorem C104_directories : forall parse J f W c g q, inodes_given f -> tool_runs parse J f W c g ->
  h_names f q = Some HDir -> h_names g q = Some HDir.
Proof. intros parse J f W c g q Hino R. apply (lv_dir _ _ _ _ (tools_leave _ _ _ _ _ _ Hino R)). Qed.
Print Assumptions C104_directories.

(** When every run ended and none was an extraction, nothing else appeared: every path, free ones
    included, is as it was or holds a complete archive file. *)
Theorem C104_no_trace : forall parse J f W g q, inodes_given f -> tool_runs parse J f W true g ->
  unchanged f g q \/ exists d, W q d /\ has_file g q d.
Proof. intros parse J f W g q Hino R. exact (lv_neat _ _ _ _ (tools_leave _ _ _ _ _ _ Hino R) eq_refl q). Qed.
Print Assumptions C104_no_trace.

(** A tar is converted, the archive is listed (this [parse] refuses it), another tar is converted - to the
    same output -, then a [Creator] is killed while writing. *)
Example C104_meets_hypotheses : exists W V g, let parse := fun _ : bytes => @Err archive ENotFound in
  inodes_given pkg_fs /\
  tool_runs parse pkg_jbk pkg_fs W true pkg_fs2 /\ W [b "h"; b "pkg-1.arx"] (b "pkg-1.arx:three") /\
  has_file pkg_fs2 [b "h"; b "pkg-1.arx"] (b "pkg-1.arx:three") /\ unchanged pkg_fs pkg_fs2 [b "h"; b "pkg-1.3.tar"] /\
  tool_runs parse pkg_jbk pkg_fs V false g /\ h_names g [b "h"; b ".tmp"] = Some (HFile 4).
Proof.
  destruct C92_lost_refuted as (R1 & _ & R2 & _). pose proof (proj1 C92_meets_hypotheses) as Hino.
  set (parse := fun _ : bytes => @Err archive ENotFound).
  assert (T1 : exists W, tool_runs parse pkg_jbk pkg_fs W true pkg_fs1).
  { eexists. eapply (tools_more parse pkg_jbk pkg_fs _ true pkg_fs (h_now pkg_fs) _ true pkg_fs1); [constructor|].
    eapply (with_converter parse pkg_jbk _ pkg_around (pkg_world pkg_fs) true (pkg_run (b "pkg-1.2.tar")) pkg_fs1 (Some (Ok tt))); [reflexivity|exact R1]. }
  destruct T1 as [W1 T1].
  assert (T2 : exists W, tool_runs parse pkg_jbk pkg_fs W true pkg_fs1).
  { assert (L : exists x e, arx_run parse pkg_jbk (pkg_world pkg_fs1) terminal (IList (b "pkg-1.arx") None) pkg_fs1 x (Some e)).
    { destruct (process terminal true [] (@Err unit ENotFound)) as [x e] eqn:E. exists x, e.
      apply (arx_printed parse pkg_jbk (pkg_world pkg_fs1) terminal _ true [] (Err ENotFound)); [vm_compute; reflexivity|exact E]. }
    destruct L as (x & e & L). eexists. eapply (tools_more parse pkg_jbk pkg_fs W1 true pkg_fs1 (h_now pkg_fs1) _ true pkg_fs1 T1).
    eapply (with_arx parse pkg_jbk _ (pkg_world pkg_fs1) terminal (IList (b "pkg-1.arx") None) pkg_fs1 x (Some e)); [reflexivity|exact Logic.I|exact L]. }
  destruct T2 as [W2 T2].
  assert (T3 : exists W, tool_runs parse pkg_jbk pkg_fs W true pkg_fs2).
  { eexists. eapply (tools_more parse pkg_jbk pkg_fs W2 true pkg_fs1 (h_now pkg_fs1) _ true pkg_fs2 T2).
    eapply (with_converter parse pkg_jbk _ pkg_around (pkg_world pkg_fs1) true (pkg_run (b "pkg-1.3.tar")) pkg_fs2 (Some (Ok tt))); [reflexivity|exact R2]. }
  destruct T3 as [W T3].
  assert (F : has_file pkg_fs2 [b "h"; b "pkg-1.arx"] (b "pkg-1.arx:three")) by (exists 3; split; vm_compute; reflexivity).
  exists W. do 2 eexists. cbv zeta. split; [exact Hino|]. split; [exact T3|]. split; [|split; [exact F|split; [|split]]].
  - destruct (C104_no_trace parse pkg_jbk pkg_fs W pkg_fs2 [b "h"; b "pkg-1.arx"] Hino T3) as [[H _]|(d & H & i & H1 & H2)].
    + vm_compute in H. discriminate H.
    + destruct F as (j & K1 & K2). assert (i = j) as -> by congruence. rewrite <- K2, H2. exact H.
  - split; [vm_compute; reflexivity|]. intros i Hi. vm_compute in Hi. injection Hi as <-. split; vm_compute; reflexivity.
  - eapply (tools_more parse pkg_jbk pkg_fs W true pkg_fs2 (h_now pkg_fs2) _ false _ T3).
    eapply (with_creator parse pkg_jbk _ 5 (pkg_world pkg_fs2) (b "x.arx") [b "h"] (b "x.arx")
      (mkPyHost (make_temp pkg_fs2 ([b "h"] ++ [b ".tmp"])) [([b "h"] ++ [b ".tmp"], h_next pkg_fs2)] [] Working)); [reflexivity|vm_compute; reflexivity|].
    eapply quiet_own; [apply quiet_start|].
    apply (own_temp _ _ _ [b "h"] (b "x.arx") pkg_fs2 [] [] Working (b ".tmp")); [intros o HH; discriminate HH|discriminate|vm_compute; reflexivity].
  - vm_compute. reflexivity.
Qed.
