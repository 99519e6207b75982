(** C56-C57: the command extract, and create then extract. *)
From Verif Require Export PropCli PropAdd PropFuse PropExtract SpecList.

(** A relative path without "." component is accepted as it is. *)
Lemma root_dir_accepted s : is_abs s = false -> utf8 s = true -> ~ In (b ".") (pieces s) -> ref_from_path s = Ok s.
Proof.
  intros Ha Hu Hd. unfold ref_from_path. rewrite Hu.
  assert (H : zip_check (std_components s) (components s) = Ok tt); [|now rewrite H].
  unfold std_components, components. rewrite Ha.
  assert (Hc : forall x, comp_eqb x x = true) by (intros x; exact (ocomp_eqb_refl (Some x))).
  assert (G : forall l, ~ In (b ".") l -> zip_check (map (fun p => Some (classify p)) (filter not_dot l)) (map classify l) = Ok tt).
  { induction l as [|x l IH]; intros Hn; [reflexivity|]. cbn [filter]. unfold not_dot at 1. destruct (bytes_eqb_spec x (b ".")) as [->|Hx].
    - destruct Hn. now left.
    - cbn [negb map zip_check]. rewrite Hc. apply IH. intros Hi. apply Hn. now right. }
  destruct (pieces s) as [|x l] eqn:E; [reflexivity|]. cbn [map zip_check]. rewrite Hc. apply G. intros Hi. apply Hd. now right.
Qed.

(** Where the files go: -C, or the current directory. *)
Definition base_of (w : world) (od : option bytes) : opath :=
  match od with Some s => (if is_abs s then [] else w_cwd w, pieces s) | None => ([], w_cwd w) end.

(** C56: with --root-dir naming a stored directory, exactly what is below it is extracted; without,
    everything. *)
Theorem C56_extract_root_dir : forall w l fetch a root_dir d od out rc pol sched last g res,
  small l -> archive_of l fetch a ->
  match root_dir with
  | None => d = []
  | Some s => pieces s = d /\ is_abs s = false /\ utf8 s = true /\ ~ In (b ".") d /\ d <> [] /\ exists mt, has l d (KDir, mt)
  end ->
  (* ordinary names; an empty output directory; all packs there *)
  (forall p nd n, p <> [] -> has l (d ++ p) nd -> In n p -> ordinary n /\ utf8 n = true) ->
  tidy (w_fs w) -> outdir (w_fs w) (base_of w od) out -> (forall p, p <> [] -> h_names (w_fs w) (out ++ p) = None) ->
  (forall p size addr mt, p <> [] -> has l (d ++ p) (KFile size addr, mt) -> exists data, fetch addr = Found data) ->
  (forall p t mt, p <> [] -> has l (d ++ p) (KLink t, mt) -> utf8 t = true /\ t <> []) ->
  extract_cmd w a od [] None root_dir rc pol sched last = (g, res) ->
  (quiet sched last -> res <> Diverge -> res = Ok tt) /\
  (res = Ok tt -> forall p, p <> [] ->
    (h_names g (out ++ p) = Some HDir <-> exists mt, has l (d ++ p) (KDir, mt)) /\
    (forall data, has_file g (out ++ p) data <-> exists size addr mt, has l (d ++ p) (KFile size addr, mt) /\ fetch addr = Found data) /\
    (forall t, has_link g (out ++ p) t <-> exists mt, has l (d ++ p) (KLink t, mt))) /\
  (forall q, ~ below out q ->
    unchanged (w_fs w) g q \/ (h_names (w_fs w) q = None /\ h_names g q = Some HDir /\ exists t, out = q ++ t)).
Proof.
  intros w l fetch a root_dir d od out rc pol sched last g res Hs Ha Hroot Hnames Htidy Hout Hempty Hpk Htg Hrun.
  pose proof (C19_mount_serves_directory l fetch a root_dir Hs Ha) as Hm.
  assert (Hrg : exists rg, extract_root a root_dir = Ok rg /\ dir_range a rg d).
  { destruct root_dir as [s|].
    - destruct Hroot as (Hp & Hrel & Hu & Hdot & Hne & mt & Hh). rewrite <- Hp in Hdot. pose proof (root_dir_accepted s Hrel Hu Hdot) as Er.
      destruct (archive_ok l fetch a Hs Ha) as (m & _ & _ & _ & Hw & (_ & _ & _ & Hinj) & _).
      assert (HB : total_builder a unit_builder).
      { intros i r Hr. unfold create_entry. rewrite (rec_at_ok _ _ _ Hr). cbn [bind].
        pose proof (wf_variant _ Hw i r) as Hv. destruct (r_payload r) as [| | |v]; try (eexists; reflexivity). now destruct (Hv v). }
      assert (Hpne : pieces s <> []) by (now rewrite Hp).
      pose proof (get_entry_spec a Hw unit_builder s HB Hpne) as H. rewrite <- Hp in Hh.
      apply (archive_has l fetch a) in Hh as (i & r & Hr & Hi & Hn); auto.
      assert (Hok : exists rg, mount_range a (Some s) = Ok rg).
      { cbn [mount_range]. rewrite Er. cbn [bind]. destruct (get_entry unit_builder a s) as [e0|y| |]; try easy.
        - destruct H as (j & Hj & Hc). assert (j = i) as -> by (eapply Hinj; eauto).
          unfold create_entry in Hc. rewrite (rec_at_ok _ _ _ Hr) in Hc. cbn [bind] in Hc. unfold node_of_rec in Hn.
          destruct (r_payload r); try discriminate Hn. cbn in Hc. injection Hc as <-. cbn [bind]. eauto.
        - destruct H as [_ H]. now apply H in Hi. }
      destruct Hok as [rg Em]. rewrite Em in *. destruct Hm as (rd & (_ & _ & Hm) & q & E1 & E2). rewrite Er in E1. injection E1 as <-.
      exists rg. split; [reflexivity|]. rewrite <- Hp, E2. exact Hm.
    - subst d. exists (a_root a). split; [reflexivity|]. now left. }
  destruct Hrg as (rg & Erg & Hrg). unfold extract_cmd in Hrun. cbn [files_to_extract] in Hrun. rewrite Erg in Hrun.
  fold (base_of w od) in Hrun.
  assert (HS : setting l fetch a rg d (w_fs w) (base_of w od) out).
  { constructor; auto.
    - intros i p Hp Hne. apply (ReadFacts.apath_has l fetch a) in Hp as [nd Hh]; auto. apply Forall_forall. intros n Hn. eapply Hnames; eauto.
    - intros i p nd t m Hne _ Hl. rewrite Hempty in Hl; [discriminate Hl|auto]. }
  exact (C31_reproduces l fetch a rg d (w_fs w) (mkConfig [] (base_of w od) rc pol) out sched last g res HS eq_refl Hempty Hpk Htg Hrun).
Qed.
Print Assumptions C56_extract_root_dir.

(** Anything that is not a stored directory is refused, and the file system is left as it was. *)
Theorem C56_root_dir_refused : forall w l fetch a s od files rc pol sched last,
  small l -> archive_of l fetch a -> is_abs s = false -> utf8 s = true -> ~ In (b ".") (pieces s) -> pieces s <> [] ->
  (forall mt, ~ has l (pieces s) (KDir, mt)) ->
  exists e, extract_cmd w a od files None (Some s) rc pol sched last = (w_fs w, Err e).
Proof.
  intros w l fetch a s od files rc pol sched last Hs Ha Hrel Hu Hdot Hne Hno. unfold extract_cmd. cbn [files_to_extract mount_range].
  rewrite (root_dir_accepted s Hrel Hu Hdot). cbn [bind].
  destruct (archive_ok l fetch a Hs Ha) as (m & _ & _ & _ & Hw & _).
  assert (HB : total_builder a unit_builder).
  { intros i r Hr. unfold create_entry. rewrite (rec_at_ok _ _ _ Hr). cbn [bind].
    pose proof (wf_variant _ Hw i r) as Hv. destruct (r_payload r) as [| | |v]; try (eexists; reflexivity). now destruct (Hv v). }
  pose proof (get_entry_spec a Hw unit_builder s HB Hne) as H.
  destruct (get_entry unit_builder a s) as [[f|f|rg x]|x| |]; cbn [bind]; try easy; try (eexists; reflexivity).
  exfalso. destruct H as (i & Hp & Hc). destruct (apath_at _ _ _ Hp) as [r Hr].
  unfold create_entry in Hc. rewrite (rec_at_ok _ _ _ Hr) in Hc. cbn [bind] in Hc. destruct (r_payload r) eqn:Epl; try discriminate Hc.
  apply (Hno (meta_of_rec r)). apply (archive_has l fetch a); auto. exists i, r. split; auto. split; auto. unfold node_of_rec. now rewrite Epl.
Qed.
Print Assumptions C56_root_dir_refused.

(** A file list gives the same as its lines given as arguments. *)
Theorem C56_file_list : forall w a od fl text files root_dir rc pol sched last,
  read_file w fl = Ok text -> read_lines text = Ok files ->
  extract_cmd w a od [] (Some fl) root_dir rc pol sched last = extract_cmd w a od files None root_dir rc pol sched last.
Proof. intros w a od fl text files root_dir rc pol sched last H1 H2. unfold extract_cmd. cbn [files_to_extract]. rewrite H1. cbn [bind]. now rewrite H2. Qed.
Print Assumptions C56_file_list.

(** Lines written with a newline after each are read back (as long as none contains a newline or
    ends with a carriage return), also without the last newline. *)
Lemma split_line x : forall cur r, ~ In 10 x -> split_lines cur (x ++ 10 :: r) = strip_cr (cur ++ x) :: split_lines [] r.
Proof.
  induction x as [|c x IH]; intros cur r H; cbn [app split_lines]; [now rewrite app_nil_r|].
  destruct (N.eqb_spec c 10) as [->|Hc]; [destruct H; now left|]. rewrite IH; [|intros Hx; apply H; now right]. now rewrite <- app_assoc.
Qed.
Lemma split_rest x : forall cur, ~ In 10 x -> split_lines cur x = match cur ++ x with [] => [] | y => [y] end.
Proof.
  induction x as [|c x IH]; intros cur H; cbn [split_lines]; [rewrite app_nil_r; now destruct cur|].
  destruct (N.eqb_spec c 10) as [->|Hc]; [destruct H; now left|]. rewrite IH; [|intros Hx; apply H; now right]. now rewrite <- app_assoc.
Qed.
Lemma strip_cr_none x : (forall y, x <> y ++ [13]) -> strip_cr x = x.
Proof.
  intros H. unfold strip_cr. destruct (rev x) as [|c r] eqn:E; auto. destruct (N.eqb_spec c 13) as [->|]; auto. exfalso.
  apply (f_equal (@rev _)) in E. rewrite rev_involutive in E. now apply (H (rev r)).
Qed.
Theorem C56_lines : forall ls last, (forall x, In x ls -> ~ In 10 x /\ forall y, x <> y ++ [13]) -> ~ In 10 last ->
  forallb utf8 ls = true -> utf8 last = true ->
  read_lines (text ls ++ last) = Ok (ls ++ match last with [] => [] | _ => [last] end).
Proof.
  intros ls last H Hl Hu Hul. unfold read_lines.
  assert (E : split_lines [] (text ls ++ last) = ls ++ match last with [] => [] | _ => [last] end).
  { induction ls as [|x ls IH].
    - change (text [] ++ last) with last. rewrite (split_rest last [] Hl). now destruct last.
    - destruct (H x (or_introl eq_refl)) as [H1 H2]. cbn [forallb] in Hu. apply andb_true_iff in Hu as [_ Hu].
      replace (text (x :: ls) ++ last) with (x ++ 10 :: text ls ++ last) by (unfold text; cbn [map concat]; now rewrite <- !app_assoc).
      rewrite split_line by auto. cbn [app]. rewrite strip_cr_none by auto. f_equal. apply IH; auto. intros y Hy. apply H. now right. }
  rewrite E, forallb_app, Hu. destruct last; [reflexivity|]. cbn [forallb]. now rewrite Hul.
Qed.
Print Assumptions C56_lines.

(** "--root-dir /" aborts. *)
Theorem C56_root_dir_slash_refuted : forall w a od files rc pol sched last,
  extract_cmd w a od files None (Some (b "/")) rc pol sched last = (w_fs w, Panic).
Proof. reflexivity. Qed.
Print Assumptions C56_root_dir_slash_refuted.

Definition t_world : world := mkWorld host0 src_attr src_list at_t.
Example C56_meets_hypotheses :
  has demo [b "a"] (KDir, mkMeta 1000 1000 493 0) /\ outdir (w_fs t_world) (base_of t_world (Some (b "./out"))) at_out /\
  exists g, extract_cmd t_world demo_arx (Some (b "./out")) [] None (Some (b "a/")) false Warn idle all_turns = (g, Ok tt) /\
    has_file g (at_out ++ [b "b"; b "f.txt"]) (b "hello").
Proof.
  split; [exists 0%nat, (mkSentry (b "a") None KDir default_dir_meta); split; [reflexivity|]; split; [|reflexivity];
    eapply (spath_top _ _ (mkSentry (b "a") None KDir default_dir_meta)); reflexivity|].
  split.
  - split; [|split; [reflexivity|split]].
    + constructor; [now left|]. constructor; [right; now apply ordinaryb_spec|constructor].
    + intros q x t H. cbn in H. destruct q as [|y q]; [injection H as <- _; reflexivity|]. injection H as _ H. now destruct q.
    + intros q t H Hq. destruct q as [|y q]; [easy|]. injection H as <- H. destruct q as [|z q]; [now right|]. injection H as <- H. destruct q; [now left|discriminate H].
  - eexists. split; [vm_compute; reflexivity|]. eexists. split; vm_compute; reflexivity.
Qed.

(** C57: arx create of a directory, then arx extract in an empty directory of any host, gives the
    same tree. *)
Theorem C57_create_extract : forall fuel w o s root r0 depth pre d x,
  o_list_compressions o = false -> o_infiles o = [s] -> o_file_list o = None -> o_base o = None -> o_recurse o = true ->
  pre = match o_prefix o with Some p => p | None => [] end -> (exists g, parse_concat g = Some (o_concat o)) ->
  from_root w (o_out o) = d ++ [x] -> is_directory w d -> (leads_to_something w (o_out o) -> o_force o = true) ->
  stands_for s (pieces pre ++ r0) -> forallb utf8 (pieces s) = true -> Forall ordinary r0 ->
  look_str w true s = At root HDir -> source_tree w root depth -> (depth < fuel)%nat ->
  exists m a, create fuel w true o = ([Opened m; Written a], Ok tt) /\
    (N.of_nat (length (a_recs a)) < 2^32 ->
    forall w2 od out rc pol sched last g res,
    tidy (w_fs w2) -> outdir (w_fs w2) (base_of w2 od) out -> (forall p, p <> [] -> h_names (w_fs w2) (out ++ p) = None) ->
    extract_cmd w2 a od [] None None rc pol sched last = (g, res) -> quiet sched last -> res <> Diverge ->
    res = Ok tt /\
    (forall q, q <> [] -> same_at (w_fs w) (root ++ q) g (out ++ r0 ++ q)) /\
    (forall p t, r0 = p ++ t -> p <> [] -> h_names g (out ++ p) = Some HDir) /\
    (forall p, p <> [] -> h_names g (out ++ p) <> None ->
       (exists t, r0 = p ++ t) \/ exists q, p = r0 ++ q /\ h_names (w_fs w) (root ++ q) <> None) /\
    (forall q, ~ below out q ->
       unchanged (w_fs w2) g q \/ (h_names (w_fs w2) q = None /\ h_names g q = Some HDir /\ exists t, out = q ++ t))).
Proof.
  intros fuel w o s root r0 depth pre d x Hl Hi Hf Hb Hrc Hpre [flags Hcm] Hout Hdir Hforce Hst Hutf Hr0 Hroot HT Hfuel.
  assert (Hchk : check_output_path_writable w (o_out o) (o_force o) = Ok tt).
  { unfold check_output_path_writable. change (out_comps w (o_out o)) with (from_root w (o_out o)).
    apply is_dir_path_spec in Hdir. destruct (from_root w (o_out o)) as [|c0 r1]; [now destruct d|].
    rewrite Hout, removelast_last, Hdir. cbn [negb].
    destruct (exists_path w (o_out o)) eqn:Ee; [|reflexivity]. apply exists_spec in Ee. now rewrite (Hforce Ee). }
  assert (Hm : exists m, create_concat (o_concat o) = Ok m).
  { pose proof (C46_concat flags) as H. destruct flags as [|f0 [|]]; [| |congruence]; destruct H as (f & H1 & H2); rewrite Hcm in H1; injection H1 as ->; eauto. }
  destruct Hm as [m Hm].
  destruct Hst as [Hrel Hstp].
  destruct (created w s pre root r0 depth fuel Hrel Hstp Hutf Hr0 Hroot HT Hfuel) as (c & es & Eadd & Ees & _).
  assert (Hfill : fill fuel w w o = (c, Ok tt)).
  { unfold fill. rewrite Hf, Hi, Hrc, <- Hpre. cbn [existsb]. rewrite Hrel. cbn [orb]. unfold check_input_paths_exist. cbn [forallb].
    unfold exists_path. rewrite Hroot. cbn [andb add_infiles]. now rewrite Eadd. }
  destruct (fill_session _ _ _ _ _ Hfill) as (l & El & _).
  assert (Hfin : exists a, finalize c = Some a).
  { unfold finalize, write_archive. rewrite El. destruct (layout_ok (after l) (run_adds_inv l)) as (ord & -> & _). eauto. }
  destruct Hfin as [a Hfin]. exists m, a. split.
  { unfold create. now rewrite Hl, Hchk, Hb, Hm, Hfill, Hfin. }
  intros Hn w2 od out rc pol sched last g res Htidy Ho Hempty Hrun Hq Hd. unfold extract_cmd in Hrun. cbn [files_to_extract mount_range] in Hrun. fold (base_of w2 od) in Hrun.
  assert (Hsm : N.of_nat (length (cs_store (cr_entries c))) < 2 ^ 32).
  { unfold finalize in Hfin. rewrite El in *. rewrite <- (written_length (after l) (fetch_of (cr_contents c)) a); auto. apply run_adds_inv. }
  destruct (C38_roundtrip w pre s root r0 depth fuel c (Ok tt) a (w_fs w2) (mkConfig [] (base_of w2 od) rc pol) out sched last g res
    (conj Hrel Hstp) Hutf Hr0 Hroot HT Hfuel Eadd Hsm Hfin Htidy Ho Hempty eq_refl Hrun Hq Hd) as (_ & B). exact B.
Qed.
Print Assumptions C57_create_extract.

Example C57_meets_hypotheses : exists a g, create 3 src_world true o_src = ([Opened OneFile; Written a], Ok tt) /\
  from_root src_world (o_out o_src) = [b "h"] ++ [b "out.arx"] /\ is_directory src_world [b "h"] /\
  ~ leads_to_something src_world (o_out o_src) /\ stands_for (b "src") (pieces (b "src") ++ []) /\ source_tree src_world src_root 2 /\
  extract_cmd t_world a (Some (b "out")) [] None None false Warn idle all_turns = (g, Ok tt) /\
  has_file g (at_out ++ [b "a"; b "f.txt"]) (b "hello").
Proof.
  eexists. eexists. split; [vm_compute; reflexivity|]. split; [reflexivity|]. split; [eexists; vm_compute; reflexivity|].
  split; [intros (q & n & H); vm_compute in H; discriminate H|]. split; [vm_compute; auto|]. split; [exact src_tree|].
  split; [vm_compute; reflexivity|]. eexists. split; vm_compute; reflexivity.
Qed.
