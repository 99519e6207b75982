(** C93: a Python [Creator] on a host that others change too. *)
From Verif Require Export PyHostFacts PropPython PropConvertHost.

Local Ltac bad := let H := fresh in intros H; discriminate H.

(** C93: whatever the rest of the program and other programs do (but to the temporary files), a step of
    the creator touches nothing but its temporary files, made under names that were free; but, once, after
    the [with] block was left, the output, which then holds the whole archive of what was added. *)
Theorem C93_steps : forall J fuel s dir n f0 x y p, inodes_given f0 -> py_life J fuel s dir n f0 x -> py_own J fuel s dir n x y ->
  unchanged (ph_fs x) (ph_fs y) p \/
  (exists i k, p = dir ++ [k] /\ k <> n /\ (In (p, i) (ph_temps x) \/ (In (p, i) (ph_temps y) /\ h_names (ph_fs x) p = None))) \/
  (exists dir' d, p = dir' ++ [n] /\ py_whole J fuel n (ph_calls y) d /\ has_file (ph_fs y) p d /\
     ph_stage x = Closing p d false /\ ph_stage y = Closing p d true).
Proof.
  intros J fuel s dir n f0 x y p Hino L O. pose proof (pinv_life _ _ _ _ _ _ _ Hino L) as I.
  destruct (own_changes _ _ _ _ _ _ _ p I O) as [H|[H|(dir' & d & -> & Hst & Hf)]]; [auto|auto|].
  pose proof (pi_stage _ _ _ _ _ I) as Hw. rewrite Hst in Hw. destruct Hw as [_ Hw].
  destruct (h_names (ph_fs y) (dir' ++ [n])) as [nd|] eqn:En; [|destruct Hf as (i & K & _); congruence].
  revert Hf En. destruct O as [f ts h k st os st' r Hr Hs Hwd|f ts h exc st os st' a c w t Hr Hc Hs Ht|f ts h g k Hg Hk Hfree|f ts h g q i d0 Hin|f ts h t d0 q i Hin Hd Hnd|f ts h g q i Hin|f h t d0 r|f h|f h k r];
    cbn [ph_fs ph_temps ph_stage ph_calls] in *; intros Hf En; try discriminate Hst.
  - left. split; [|intros i Hi]; unfold make_temp, touch, set_data, bump, set_name; cbn [h_names h_data h_mtime h_next].
    + rewrite path_eqb'_neq; [reflexivity|]. intros E. apply app_inj_tail in E as [_ E]. congruence.
    + pose proof (pi_given _ _ _ _ _ I _ _ Hi) as Hlt. cbn [ph_fs] in Hlt. assert (i =? h_next f = false) as -> by (apply N.eqb_neq; lia). auto.
  - left. split; [reflexivity|]. intros j Hj. destruct (pi_temp _ _ _ _ _ I q i Hin) as (_ & K & k & -> & Hk). cbn [ph_fs] in K.
    unfold touch, set_data. cbn [h_data h_mtime]. assert (j =? i = false) as ->; [|auto]. apply N.eqb_neq. intros ->. apply K in Hj. apply app_inj_tail in Hj as [_ E]. congruence.
  - right. right. injection Hst as -> ->. exists dir', d. auto.
  - left. destruct (pi_temp _ _ _ _ _ I q i Hin) as (_ & K & k & -> & Hk). split; [|auto]. unfold set_name. cbn [h_names].
    rewrite path_eqb'_neq; [reflexivity|]. intros E. apply app_inj_tail in E as [_ E]. congruence.
  - left. split; [reflexivity|auto].
Qed.
Print Assumptions C93_steps.

(** In particular: until the block is left nothing but its temporary files is touched. *)
Theorem C93_until_exit : forall J fuel s dir n f0 x y p, inodes_given f0 -> py_life J fuel s dir n f0 x -> py_own J fuel s dir n x y ->
  (forall l, ~ block_left (ph_calls y) l) ->
  unchanged (ph_fs x) (ph_fs y) p \/
  (exists i k, p = dir ++ [k] /\ k <> n /\ (In (p, i) (ph_temps x) \/ (In (p, i) (ph_temps y) /\ h_names (ph_fs x) p = None))).
Proof.
  intros J fuel s dir n f0 x y p Hino L O Hb.
  destruct (C93_steps J fuel s dir n f0 x y p Hino L O) as [H|[H|(dir' & d & _ & (l & a & H & _) & _)]]; [auto|auto|].
  now destruct (Hb l).
Qed.
Print Assumptions C93_until_exit.

(** When nobody else changes the host: killed at any system call, or not, every path holds what was there
    before, but for temporary files under names that were free, and the output, which may hold the whole
    archive once the block was left. *)
Theorem C93_crash_points : forall J fuel s dir n f0 x p, inodes_given f0 -> py_quiet J fuel s dir n f0 x ->
  unchanged f0 (ph_fs x) p \/
  (exists i k, p = dir ++ [k] /\ k <> n /\ h_names f0 p = None /\ In (p, i) (ph_temps x)) \/
  (exists dir' d, p = dir' ++ [n] /\ py_whole J fuel n (ph_calls x) d /\ has_file (ph_fs x) p d).
Proof.
  intros J fuel s dir n f0 x p Hino Q. pose proof (qinv_quiet _ _ _ _ _ _ _ Hino Q) as [Q1 Q2 Q3 (t & Q4 & Q5)].
  pose proof (pinv_life _ _ _ _ _ _ _ Hino (quiet_life _ _ _ _ _ _ _ Q)) as [P1 P2 P3].
  destruct (in_dec (list_eq_dec (list_eq_dec N.eq_dec)) p (map fst (ph_temps x))) as [Ht|Ht].
  - right. left. apply in_map_iff in Ht as ([q i] & <- & Ht). cbn [fst]. destruct (P2 q i Ht) as (_ & _ & k & -> & Hk). destruct (Q3 _ _ Ht). exists i, k. auto.
  - assert (Hnt : forall i, ~ In (p, i) (ph_temps x)) by (intros i H; apply Ht; apply in_map_iff; exists (p, i); auto).
    assert (U : h_names (ph_fs x) p = h_names f0 p -> unchanged f0 (ph_fs x) p).
    { intros E. split; [exact E|]. intros i Hi. apply Q2. eapply Hino; eauto. }
    destruct (ph_stage x) as [|u d r|o].
    + left. apply U. apply Q5; auto.
    + destruct Q4 as [-> Q4]. destruct r.
      * destruct (list_eq_dec (list_eq_dec N.eq_dec) p t) as [->|E].
        { right. right. destruct P3 as [[dir' ->] Hw]. destruct (Q4 eq_refl) as (_ & i & K1 & K2 & _). exists dir', d. split; auto. split; auto. exists i. auto. }
        { left. apply U. now apply Q5. }
      * left. apply U. now apply Q5.
    + destruct o as [[[]| | |]|]; try (left; apply U; apply Q5; auto; fail).
      destruct (list_eq_dec (list_eq_dec N.eq_dec) p t) as [->|E].
      * right. right. destruct Q4 as ([dir' ->] & d & K1 & K2). exists dir', d. auto.
      * left. apply U. now apply Q5.
Qed.
Print Assumptions C93_crash_points.

(** When it is over: after a successful [__exit__] the whole archive is there and nothing else changed;
    dropped, or failed, it leaves no trace. *)
Theorem C93_closed : forall J fuel s dir n f0 x o, inodes_given f0 -> py_quiet J fuel s dir n f0 x -> ph_stage x = Closed o ->
  (o = Some (Ok tt) -> exists dir' d, py_whole J fuel n (ph_calls x) d /\ has_file (ph_fs x) (dir' ++ [n]) d /\
     forall p, p <> dir' ++ [n] -> unchanged f0 (ph_fs x) p) /\
  (o <> Some (Ok tt) -> forall p, unchanged f0 (ph_fs x) p).
Proof.
  intros J fuel s dir n f0 x o Hino Q Hst. pose proof (qinv_quiet _ _ _ _ _ _ _ Hino Q) as [Q1 Q2 Q3 (t & Q4 & Q5)].
  pose proof (pinv_life _ _ _ _ _ _ _ Hino (quiet_life _ _ _ _ _ _ _ Q)) as [P1 P2 P3].
  rewrite Hst in *. rewrite P3 in Q5.
  assert (U : forall p, h_names (ph_fs x) p = h_names f0 p -> unchanged f0 (ph_fs x) p).
  { intros p E. split; [exact E|]. intros i Hi. apply Q2. eapply Hino; eauto. }
  split.
  - intros ->. destruct Q4 as ([dir' ->] & d & K1 & K2). exists dir', d. split; [exact K2|]. split; [exact K1|]. intros p Hp. apply U, Q5; auto.
  - intros Ho p. apply U. apply Q5; auto. destruct o as [[[]| | |]|]; auto.
Qed.
Print Assumptions C93_closed.

(** A creator that is used at the same time is one of the others: its steps leave the temporary files of
    this one alone, unless its output is named as one of them. *)
Theorem C93_side_by_side : forall J fuel s dir n f0 x y J' fuel' s' dir' n' f0' z, inodes_given f0 -> inodes_given f0' ->
  py_life J fuel s dir n f0 x -> py_own J fuel s dir n x y ->
  py_life J' fuel' s' dir' n' f0' z -> ph_fs z = ph_fs x ->
  (forall q i q' i', In (q, i) (ph_temps x) -> In (q', i') (ph_temps z) -> q <> q') ->
  (forall t d q i, ph_stage x = Closing t d false -> In (q, i) (ph_temps z) -> q <> t) ->
  py_others z (mkPyHost (ph_fs y) (ph_temps z) (ph_calls z) (ph_stage z)) /\
  (forall q i q' i', In (q, i) (ph_temps y) -> In (q', i') (ph_temps z) -> q <> q').
Proof.
  intros J fuel s dir n f0 x y J' fuel' s' dir' n' f0' z Hino Hino' L O L' Hfs Hdis Htgt.
  pose proof (pinv_life _ _ _ _ _ _ _ Hino L) as I. pose proof (pinv_own _ _ _ _ _ _ _ I O) as Iy. pose proof (pinv_life _ _ _ _ _ _ _ Hino' L') as I'.
  assert (Hn : h_next (ph_fs x) <= h_next (ph_fs y)).
  { destruct O; cbn [ph_fs]; unfold make_temp, rename_file, touch, set_data, bump, set_name; cbn [h_next]; lia. }
  assert (Hnew : forall q i, In (q, i) (ph_temps y) -> In (q, i) (ph_temps x) \/ h_names (ph_fs x) q = None).
  { intros q i H. destruct O; cbn [ph_fs ph_temps] in *; auto.
    - destruct H as [H|H]; [injection H as <- <-; auto|auto].
    - apply in_without in H as [H _]. auto.
    - apply in_without in H as [H _]. auto. }
  split.
  - destruct z as [f ts h g]. cbn [ph_fs ph_temps ph_calls ph_stage] in *. subst f. constructor. split; [|split; [exact Hn|exact (pi_given _ _ _ _ _ Iy)]].
    intros q i H. destruct (pi_temp _ _ _ _ _ I' q i H) as (K1 & K2 & k & Hq & Hk). cbn [ph_fs] in K1, K2.
    assert (Hu : unchanged (ph_fs x) (ph_fs y) q).
    { destruct (own_changes _ _ _ _ _ _ _ q I O) as [U|[(j & k' & _ & _ & [Hx|[_ Hx]])|(d1 & d & _ & Hst & _)]]; [exact U| | |].
      - now destruct (Hdis q j q i Hx H).
      - congruence.
      - now destruct (Htgt q d q i Hst H). }
    destruct Hu as [U1 U2]. split; [exact U1|]. split; [now apply U2|].
    intros p Hp. destruct (own_changes _ _ _ _ _ _ _ p I O) as [[U _]|[(j & k' & _ & _ & Hx)|(d1 & d & _ & Hst & _)]]; [congruence| |].
    + destruct Hx as [Hx|[Hx Hfree]].
      * exfalso. revert Hp. destruct O as [| | f ts' h0 g0 k0 Hg Hk0 Hfree|f ts' h0 g0 q0 i0 d Hin|f ts' h0 t d q0 i0 Hin Hd Hnd|f ts' h0 g0 q0 i0 Hin| | |]; cbn [ph_fs ph_temps ph_stage] in *.
        -- intros Hp. pose proof (K2 _ Hp). subst p. now apply (Hdis q j q i).
        -- intros Hp. pose proof (K2 _ Hp). subst p. now apply (Hdis q j q i).
        -- intros Hp. unfold make_temp, touch, set_data, bump, set_name in Hp. cbn [h_names] in Hp. destruct (path_eqb' p (dir ++ [k0])).
           { injection Hp as <-. pose proof (pi_given _ _ _ _ _ I _ _ K1). cbn [ph_fs] in *. lia. }
           pose proof (K2 _ Hp). subst p. now apply (Hdis q j q i).
        -- intros Hp. pose proof (K2 _ Hp). subst p. now apply (Hdis q j q i).
        -- unfold rename_file, set_name. cbn [h_names]. destruct (path_eqb' p t).
           { intros Hp. pose proof (K2 _ Hp). subst q0. now apply (Hdis q i0 q i). }
           destruct (path_eqb' p q0); [bad|]. intros Hp. pose proof (K2 _ Hp). subst p. now apply (Hdis q j q i).
        -- unfold set_name. cbn [h_names]. destruct (path_eqb' p q0); [bad|]. intros Hp. pose proof (K2 _ Hp). subst p. now apply (Hdis q j q i).
        -- destruct Hx.
        -- destruct Hx.
        -- destruct Hx.
      * exfalso. destruct (pi_temp _ _ _ _ _ Iy _ _ Hx) as (Y1 & Y2 & _). assert (i = j) by congruence. subst j.
        pose proof (Y2 _ (eq_trans U1 K1)). congruence.
    + exfalso. revert Hp. destruct O as [| |f ts' h0 g0 k0 Hg Hk0 Hfree|f ts' h0 g0 q0 i0 d0 Hin|f ts' h0 t d0 q0 i0 Hin Hd Hnd|f ts' h0 g0 q0 i0 Hin| | |]; cbn [ph_fs ph_temps ph_stage] in *; try discriminate Hst; subst.
      -- unfold make_temp, touch, set_data, bump, set_name. cbn [h_names]. destruct (path_eqb' p (dir ++ [k0])).
         { intros Hp. injection Hp as <-. pose proof (pi_given _ _ _ _ _ I _ _ K1). cbn [ph_fs] in *. lia. }
         intros Hp. pose proof (K2 _ Hp). subst p. now apply (Htgt _ d _ i eq_refl H).
      -- intros Hp. pose proof (K2 _ Hp). subst p. now apply (Htgt _ d _ i eq_refl H).
      -- injection Hst as -> _. unfold rename_file, set_name. cbn [h_names]. rewrite path_eqb'_refl. intros Hp.
         pose proof (K2 _ Hp). subst q0. now apply (Hdis _ i0 _ i Hin H).
      -- unfold set_name. cbn [h_names]. destruct (path_eqb' p q0); [bad|]. intros Hp. pose proof (K2 _ Hp). subst p. now apply (Htgt _ d _ i eq_refl H).
      -- injection Hst as Ht1 Ht2 Ht3. subst t d0 renamed. intros Hp. pose proof (K2 _ Hp). subst p. now apply (Htgt _ d _ i eq_refl H).
  - intros q i q' i' H H' <-. destruct (Hnew q i H) as [Hx|Hx]; [now apply (Hdis q i q i' Hx H')|].
    pose proof (pi_temp _ _ _ _ _ I' q i' H') as (K & _). rewrite Hfs in K. congruence.
Qed.
Print Assumptions C93_side_by_side.

(** ** A life to the end *)
Lemma works_on J fuel s dir n f h : (forall l, ~ block_left h l) -> (forall w p rc, In (PyAdd w p rc) h -> w_fs w = f) ->
  py_quiet J fuel s dir n f (mkPyHost f [] h Working).
Proof.
  induction h as [|k h IH] using rev_ind; intros Hb Hw; [constructor|].
  assert (Hb' : forall l, ~ block_left h l).
  { intros l (h0 & exc & h3 & -> & K). apply (Hb l). exists h0, exc, (h3 ++ [k]). split; [|exact K]. rewrite <- app_assoc. reflexivity. }
  eapply quiet_own; [apply IH; [exact Hb'|]|].
  - intros w p rc H. eapply Hw. apply in_app_iff. eauto.
  - assert (Hr : exists st os st' r, py_run fuel st_fresh h = (st, [], os) /\ py_step fuel st k = (st', None, r)).
    { destruct (situations h) as [H|[(l & H)|(l & H)]]; [| |now destruct (Hb' l)].
      - destruct (fresh_run fuel h H) as (os & E & _). exists st_fresh, os. destruct k as [|exc|w p rc]; do 2 eexists; (split; [exact E|reflexivity]).
      - destruct (in_block_run fuel h l H) as (os & E). exists (PythonFacts.st_open (filled fuel l)), os. destruct k as [|exc|w p rc].
        + do 2 eexists. split; [exact E|reflexivity].
        + exfalso. apply (Hb l). exists h, exc, []. auto.
        + destruct (add_from_path fuel w [] p rc (filled fuel l)) as [c' r] eqn:Ea. exists (PythonFacts.st_open c'), r. split; [exact E|].
          cbn [py_step py_add PythonFacts.st_open py_creator py_started]. now rewrite Ea. }
    destruct Hr as (st & os & st' & r & H1 & H2). eapply own_method; [exact H1|exact H2|].
    destruct k as [|exc|w p rc]; auto. eapply Hw. apply in_app_iff. right. left. reflexivity.
Qed.

Lemma lives_fully J fuel s dir n f h exc l t : in_block h l -> (forall w p rc, In (PyAdd w p rc) h -> w_fs w = f) ->
  t <> n -> h_names f (dir ++ [t]) = None -> h_names f (dir ++ [n]) <> Some HDir ->
  py_quiet J fuel s dir n f (mkPyHost (converted_fs f dir t n (jb_bytes J OneFile n (filled fuel l) n)) [] (h ++ [PyExit exc]) (Closed (Some (Ok tt)))).
Proof.
  intros Hb Hw Ht Hfree Hd. set (d := jb_bytes J OneFile n (filled fuel l) n).
  destruct (in_block_run fuel h l Hb) as (os & E). destruct (block_left_run fuel (h ++ [PyExit exc]) l) as (a & os' & Hfin & _); [exists h, exc, []; auto|].
  set (f1 := make_temp f (dir ++ [t])). set (f2 := touch (set_data f1 (h_next f) d) (h_next f)).
  assert (Q1 : py_quiet J fuel s dir n f (mkPyHost f [] h Working)).
  { apply works_on; [|exact Hw]. intros l' (h0 & exc' & h3 & -> & K).
    destruct (block_left_run fuel (h0 ++ PyExit exc' :: h3) l') as (a' & os'' & _ & E'); [exists h0, exc', h3; auto|]. rewrite E' in E. discriminate E. }
  assert (Q2 : py_quiet J fuel s dir n f (mkPyHost f [] (h ++ [PyExit exc]) (Closing (dir ++ [n]) d false))).
  { eapply quiet_own; [exact Q1|]. eapply (own_exit J fuel s dir n f [] h exc _ os _ a (filled fuel l) (pkg_world f)); [exact E|reflexivity| |left; reflexivity].
    cbn [py_step py_exit PythonFacts.st_open py_started py_creator]. rewrite Hfin. reflexivity. }
  assert (Q3 : py_quiet J fuel s dir n f (mkPyHost f1 [(dir ++ [t], h_next f)] (h ++ [PyExit exc]) (Closing (dir ++ [n]) d false))).
  { eapply quiet_own; [exact Q2|]. apply own_temp; auto. intros o HH. discriminate HH. }
  assert (Q4 : py_quiet J fuel s dir n f (mkPyHost f2 [(dir ++ [t], h_next f)] (h ++ [PyExit exc]) (Closing (dir ++ [n]) d false))).
  { eapply quiet_own; [exact Q3|]. apply (own_write J fuel s dir n _ _ _ _ (dir ++ [t])). left. reflexivity. }
  assert (Q5 : py_quiet J fuel s dir n f (mkPyHost (rename_file f2 (dir ++ [t]) (dir ++ [n])) (without (dir ++ [t]) [(dir ++ [t], h_next f)]) (h ++ [PyExit exc]) (Closing (dir ++ [n]) d true))).
  { eapply quiet_own; [exact Q4|]. apply (own_rename J fuel s dir n f2 _ _ (dir ++ [n]) d (dir ++ [t]) (h_next f)).
    - left. reflexivity.
    - unfold f2, touch, set_data. cbn [h_data]. now rewrite N.eqb_refl.
    - unfold f2, f1, make_temp, touch, set_data, bump, set_name. cbn [h_names].
      destruct (path_eqb' (dir ++ [n]) (dir ++ [t])); [bad|exact Hd]. }
  assert (Hwo : without (dir ++ [t]) [(dir ++ [t], h_next f)] = []) by (unfold without; cbn [filter fst]; rewrite path_eqb'_refl; reflexivity).
  rewrite Hwo in Q5. eapply quiet_own; [exact Q5|]. apply (own_closed J fuel s dir n _ _ (dir ++ [n]) d true).
Qed.

(** "An exception in the block leaves the file that was there" fails: whatever was added before it, and
    whatever file is at the output, [__exit__] replaces that file, without a word. *)
Theorem C93_exception_refuted : forall J fuel s dir n f h l t i, inodes_given f -> in_block h l ->
  (forall w p rc, In (PyAdd w p rc) h -> w_fs w = f) ->
  h_names f (dir ++ [n]) = Some (HFile i) -> (forall q, h_names f q = Some (HFile i) -> q = dir ++ [n]) ->
  t <> n -> h_names f (dir ++ [t]) = None ->
  exists x, py_quiet J fuel s dir n f x /\ ph_calls x = h ++ [PyExit true] /\ ph_stage x = Closed (Some (Ok tt)) /\
    has_file (ph_fs x) (dir ++ [n]) (jb_bytes J OneFile n (filled fuel l) n) /\ (forall q, h_names (ph_fs x) q <> Some (HFile i)).
Proof.
  intros J fuel s dir n f h l t i Hino Hb Hw Hi Honly Ht Hfree.
  eexists. split; [eapply (lives_fully J fuel s dir n f h true l t); eauto; rewrite Hi; bad|]. split; [reflexivity|]. split; [reflexivity|]. cbn [ph_fs].
  assert (Hnew : i <> h_next f) by (pose proof (Hino _ _ Hi); lia). split.
  - exists (h_next f). rewrite converted_names, converted_data, N.eqb_refl, path_eqb'_refl by exact Ht. auto.
  - intros q. rewrite converted_names by exact Ht. destruct (path_eqb' q (dir ++ [n])) eqn:E1; [congruence|].
    destruct (path_eqb' q (dir ++ [t])); [bad|]. intros H. apply Honly in H. subst q. rewrite path_eqb'_refl in E1. discriminate E1.
Qed.
Print Assumptions C93_exception_refuted.

(** A program that adds an absolute path, catches nothing, and finds its old file gone. *)
Example C93_meets_hypotheses :
  let h := [PyEnter; PyAdd (pkg_world pkg_fs) (b "/h/pkg-1.3.tar") true] in
  inodes_given pkg_fs /\ in_block h [(pkg_world pkg_fs, b "/h/pkg-1.3.tar", true)] /\
  (forall w p rc, In (PyAdd w p rc) h -> w_fs w = pkg_fs) /\
  snd (py_run 5 st_fresh h) = [Ok tt; Err (ENonRelative)] /\
  h_names pkg_fs ([b "h"] ++ [b "pkg-1.2.tar"]) = Some (HFile 0) /\ h_names pkg_fs ([b "h"] ++ [b ".tmp"]) = None /\
  (* and a life with a step of the others, killed while writing *)
  py_life pkg_jbk 5 (b "x.arx") [b "h"] (b "x.arx") pkg_fs
    (mkPyHost (touch (make_temp pkg_fs [b "h"; b ".tmp"]) 1) [([b "h"; b ".tmp"], 2)] [PyEnter] Working).
Proof.
  cbv zeta. split; [|split; [|split; [|split; [|split; [|split]]]]].
  - apply C92_meets_hypotheses.
  - exists [], [PyAdd (pkg_world pkg_fs) (b "/h/pkg-1.3.tar") true]. split; [reflexivity|]. split; [intros []|]. split; [|reflexivity]. intros exc [H|[]]. discriminate H.
  - intros w p rc [H|[H|[]]]; [discriminate H|]. injection H as <- _ _. reflexivity.
  - vm_compute. reflexivity.
  - reflexivity.
  - reflexivity.
  - eapply life_others.
    + eapply life_own; [eapply life_own; [apply life_start|]|].
      * eapply (own_method _ _ _ _ _ pkg_fs [] [] PyEnter st_fresh []); [reflexivity|reflexivity|exact Logic.I].
      * apply (own_temp _ _ _ [b "h"] (b "x.arx") pkg_fs [] [PyEnter] Working (b ".tmp")); [intros o HH; discriminate HH|discriminate|reflexivity].
    + constructor. split; [|split].
      * intros q i [H|[]]. injection H as <- <-. split; [reflexivity|]. split; [reflexivity|]. intros p H. exact H.
      * vm_compute. discriminate.
      * intros q i. unfold touch. cbn [h_names h_next]. unfold make_temp, touch, set_data, bump, set_name. cbn [h_names h_next].
        destruct (path_eqb' q [b "h"; b ".tmp"]); [intros H; injection H as <-; vm_compute; reflexivity|].
        intros H. assert (i < h_next pkg_fs) by (apply (proj1 C92_meets_hypotheses q i H)). lia.
Qed.
