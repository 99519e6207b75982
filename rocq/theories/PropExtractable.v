(** C102: when an extraction succeeds. *)
From Verif Require Export SpecExtractable ExtractNeeds PropCli2.

Section Session.
  Variables (l : list entry) (fetch : caddr -> fetched) (a : archive) (rg : range) (d out : path) (f : hostfs) (cfg : config).
  Hypothesis HS : setting l fetch a rg d f (x_base cfg) out.
  Hypothesis Hpl : plain_list (x_files cfg).

  Lemma visited_across p nd : visited a cfg d p nd <->
    p <> [] /\ has l (d ++ p) nd /\ comes_across (x_files cfg) (x_recurse cfg) p.
  Proof.
    assert (Hhd : forall p nd q, has l (d ++ p) nd -> below q p -> handled q).
    { intros p' nd' q Hh (x & t & E). pose proof (session_handled l fetch a rg d out f cfg HS p' nd' Hh) as Hp. rewrite E in Hp. now apply handled_app in Hp. }
    split.
    - intros (Hp & Hs & Hv). apply (session_has l fetch a rg d out f cfg HS) in Hs. split; [exact Hp|]. split; [exact Hs|].
      intros q Hq Hb. apply is_selected; auto. eapply Hhd; eauto.
    - intros (Hp & Hh & Hr). split; [exact Hp|]. split; [now apply (session_has l fetch a rg d out f cfg HS)|].
      intros q Hq Hb. apply is_selected; auto. eapply Hhd; eauto.
  Qed.

  Lemma all_chosen : 
    (forall p nd, visited a cfg d p nd ->
       (match fst nd with KLink t => utf8 t = true | _ => True end) /\
       (chosen cfg p nd = true -> fits a (x_policy cfg) f (out ++ p) nd)) <->
    can_extract a l d (x_files cfg) (x_recurse cfg) (x_policy cfg) f out.
  Proof.
    assert (Hhn : handled_below a d) by (apply plain_handled, (se_names _ _ _ _ _ _ _ _ HS)).
    split.
    - intros H. split.
      + intros p nd Hp Hh Hsel. assert (Hc : chosen cfg p nd = true).
        { apply is_selected; auto. eapply session_handled; eauto. }
        pose proof Hh as Hs. apply (session_has l fetch a rg d out f cfg HS) in Hs as [i Hs].
        apply (H p nd); [|exact Hc]. eapply chosen_visited; eauto.
      + intros p t mt Hp Hh Hr. apply (H p (KLink t, mt)). apply visited_across. auto.
    - intros [H1 H2] p nd Hv. apply visited_across in Hv as (Hp & Hh & Hr). split.
      + destruct nd as [[|size addr|t] mt]; cbn [fst]; auto. now apply (H2 p t mt).
      + intros Hc. apply H1; auto. apply is_selected; auto. eapply session_handled; eauto.
  Qed.
End Session.

(** The condition is necessary, whatever the writers do and whatever happens to them... *)
Theorem C102_needed : forall l fetch a rg d f cfg out sched last g,
  setting l fetch a rg d f (x_base cfg) out -> plain_list (x_files cfg) ->
  extract_range a rg cfg sched last f = (g, Ok tt) ->
  can_extract a l d (x_files cfg) (x_recurse cfg) (x_policy cfg) f out.
Proof.
  intros l fetch a rg d f cfg out sched last g HS Hpl Hrun. pose proof HS as [H1 H2 H3 H4 H5 H6 H7].
  apply (all_chosen l fetch a rg d out f cfg HS Hpl).
  exact (proj1 (extract_exact a cfg rg d out f (session_wf l fetch a rg d out f cfg HS) H3 H4 H5 H6 H7 sched last g (Ok tt) Hrun) eq_refl).
Qed.
Print Assumptions C102_needed.

(** ... and sufficient when no write fails. *)
Theorem C102_iff : forall l fetch a rg d f cfg out sched last g res,
  setting l fetch a rg d f (x_base cfg) out -> plain_list (x_files cfg) ->
  extract_range a rg cfg sched last f = (g, res) -> quiet sched last -> res <> Diverge ->
  (res = Ok tt <-> can_extract a l d (x_files cfg) (x_recurse cfg) (x_policy cfg) f out).
Proof.
  intros l fetch a rg d f cfg out sched last g res HS Hpl Hrun [Hq1 Hq2] Hd. pose proof HS as [H1 H2 H3 H4 H5 H6 H7].
  pose proof (extract_exact a cfg rg d out f (session_wf l fetch a rg d out f cfg HS) H3 H4 H5 H6 H7 sched last g res Hrun) as [E1 E2].
  split.
  - intros Er. apply (all_chosen l fetch a rg d out f cfg HS Hpl). exact (E1 Er).
  - intros Hc. apply E2; auto. now apply (all_chosen l fetch a rg d out f cfg HS Hpl).
Qed.
Print Assumptions C102_iff.

(** The directory named by --root-dir. *)
Lemma root_found l fetch a root d : small l -> archive_of l fetch a -> root_given root d ->
  ((exists rg, extract_root a root = Ok rg) <-> (d <> [] -> exists mt, has l d (KDir, mt))) /\
  (forall rg, extract_root a root = Ok rg -> dir_range a rg d).
Proof.
  intros Hs Ha Hroot. destruct (archive_ok l fetch a Hs Ha) as (m & _ & _ & _ & Hw & (_ & _ & _ & Hinj) & _).
  assert (Hdr : forall rg, extract_root a root = Ok rg -> dir_range a rg d).
  { intros rg Em. destruct root as [s|]; cbn [root_given] in Hroot.
    - destruct Hroot as (Hp & Hrel & Hu & Hdot & Hne). rewrite <- Hp in Hdot. pose proof (root_dir_accepted s Hrel Hu Hdot) as Er.
      pose proof (C19_mount_serves_directory l fetch a (Some s) Hs Ha) as Hm. rewrite Em in Hm.
      destruct Hm as (rd & (_ & _ & Hm) & q & E1 & E2). rewrite Er in E1. injection E1 as <-. rewrite <- Hp, E2. exact Hm.
    - subst d. left. split; [exact eq_refl|]. cbn [Fuse.mount_range] in Em. now injection Em as <-. }
  split; [|exact Hdr]. split.
  - intros [rg Em] Hne. destruct (Hdr rg Em) as [[-> _]|(i & r & ff & nb & Hi & Hr & Hpay & _)]; [now destruct Hne|].
    exists (meta_of_rec r). apply (archive_has l fetch a); auto. exists i, r. split; [exact Hr|]. split; [exact Hi|]. unfold node_of_rec. now rewrite Hpay.
  - intros Hk. destruct root as [s|]; [|exists (a_root a); exact eq_refl]. cbn [root_given] in Hroot.
    destruct Hroot as (Hp & Hrel & Hu & Hdot & Hne). destruct (Hk Hne) as [mt Hh]. rewrite <- Hp in Hdot. pose proof (root_dir_accepted s Hrel Hu Hdot) as Er.
    assert (HB : total_builder a unit_builder).
    { intros i r Hr. unfold create_entry. rewrite (rec_at_ok _ _ _ Hr). cbn [bind].
      pose proof (wf_variant _ Hw i r) as Hv. destruct (r_payload r) as [| | |v]; try (eexists; reflexivity). now destruct (Hv v). }
    assert (Hpne : pieces s <> []) by (now rewrite Hp).
    pose proof (get_entry_spec a Hw unit_builder s HB Hpne) as H. rewrite <- Hp in Hh.
    apply (archive_has l fetch a) in Hh as (i & r & Hr & Hi & Hn); auto.
    cbn [mount_range]. rewrite Er. cbn [bind]. destruct (get_entry unit_builder a s) as [e0|y| |]; try contradiction.
    + destruct H as (j & Hj & Hc). assert (j = i) as -> by (eapply Hinj; eauto).
      unfold create_entry in Hc. rewrite (rec_at_ok _ _ _ Hr) in Hc. cbn [bind] in Hc. unfold node_of_rec in Hn.
      destruct (r_payload r); try discriminate Hn. cbn in Hc. injection Hc as <-. cbn [bind]. eauto.
    + destruct H as [_ H]. now apply H in Hi.
Qed.

(** The command [arx extract [-C OUT] [--root-dir D] FILES]. *)
Theorem C102_command : forall w l fetch a root d od out files rc pol sched last g res,
  small l -> archive_of l fetch a -> root_given root d -> plain_list files ->
  (* ordinary names; the output directory; no link where a directory or a file goes *)
  (forall p nd n, p <> [] -> has l (d ++ p) nd -> In n p -> ordinary n /\ utf8 n = true) ->
  tidy (w_fs w) -> outdir (w_fs w) (base_of w od) out ->
  (forall p nd t m, p <> [] -> has l (d ++ p) nd -> h_names (w_fs w) (out ++ p) = Some (HLink t m) -> exists t', fst nd = KLink t') ->
  extract_cmd w a od files None root rc pol sched last = (g, res) -> quiet sched last -> res <> Diverge ->
  (res = Ok tt <-> (d <> [] -> exists mt, has l d (KDir, mt)) /\ can_extract a l d files rc pol (w_fs w) out).
Proof.
  intros w l fetch a root d od out files rc pol sched last g res Hs Ha Hroot Hpl Hnames Htidy Hout Hnl Hrun Hq Hd.
  destruct (root_found l fetch a root d Hs Ha Hroot) as [Hf Hdr].
  unfold extract_cmd in Hrun. cbn [files_to_extract] in Hrun. fold (base_of w od) in Hrun.
  destruct (extract_root a root) as [rg|e| |] eqn:Em.
  2-4: injection Hrun as <- <-; split; [intros H; discriminate H|]; intros [Hk _]; apply Hf in Hk as [rg Hk]; discriminate Hk.
  assert (HS : setting l fetch a rg d (w_fs w) (base_of w od) out).
  { constructor; auto.
    - intros i p Hp Hne. apply (ReadFacts.apath_has l fetch a) in Hp as [nd Hh]; auto. apply Forall_forall. intros n Hn. eapply Hnames; eauto.
    - intros i p nd t m Hne Hst Hl. apply (Hnl p nd t m Hne); auto. apply (archive_has l fetch a); auto. now exists i. }
  pose proof (C102_iff l fetch a rg d (w_fs w) (mkConfig files (base_of w od) rc pol) out sched last g res HS Hpl Hrun Hq Hd) as Hi.
  cbn [x_files x_recurse x_policy] in Hi. split.
  - intros Er. split; [apply Hf; now exists rg|now apply Hi].
  - intros [_ Hc]. now apply Hi.
Qed.
Print Assumptions C102_command.

(** On a host where "l" and "a/z" exist: everything with skip; with the policy error, "a/b/f.txt" but not
    everything. *)
Example C102_meets_hypotheses :
  can_extract demo_arx demo [] [] true Skip host1 at_out /\
  ~ can_extract demo_arx demo [] [] true Error host1 at_out /\
  can_extract demo_arx demo [] [b "a/b/f.txt"] false Error host1 at_out /\
  root_given (Some (b "a/")) [b "a"].
Proof.
  assert (Hq : quiet idle all_turns).
  { split; [intros k k' o []|]. intros k o H. cbn in H. repeat (destruct H as [H|H]; [injection H as <- <-; discriminate|]). destruct H. }
  assert (He : plain_list []) by (intros s []).
  assert (Hone : plain_list [b "a/b/f.txt"]).
  { intros s [<-|[]]. vm_compute. intros [H|[H|[H|[]]]]; discriminate H. }
  split; [|split; [|split]].
  - assert (Hs : snd (extract_range demo_arx (a_root demo_arx) (cfg_all Skip) idle all_turns host1) = Ok tt) by (vm_compute; reflexivity).
    destruct (extract_range demo_arx (a_root demo_arx) (cfg_all Skip) idle all_turns host1) as [g r] eqn:E. cbn [snd] in Hs. subst r.
    exact (C102_needed demo demo_fetch demo_arx (a_root demo_arx) [] host1 (cfg_all Skip) at_out idle all_turns g (demo_setting1 Skip) He E).
  - intros Hc.
    assert (Hs : snd (extract_range demo_arx (a_root demo_arx) (cfg_all Error) idle all_turns host1) = Err (EFileExists (b "a/z"))) by (vm_compute; reflexivity).
    destruct (extract_range demo_arx (a_root demo_arx) (cfg_all Error) idle all_turns host1) as [g r] eqn:E. cbn [snd] in Hs. subst r.
    pose proof (proj2 (C102_iff demo demo_fetch demo_arx (a_root demo_arx) [] host1 (cfg_all Error) at_out idle all_turns g _ (demo_setting1 Error) He E Hq
      ltac:(discriminate)) Hc) as Hx. discriminate Hx.
  - assert (Hs : snd (extract_range demo_arx (a_root demo_arx) (mkConfig [b "a/b/f.txt"] (x_base (cfg_all Error)) false Error) idle all_turns host1) = Ok tt) by (vm_compute; reflexivity).
    destruct (extract_range demo_arx (a_root demo_arx) (mkConfig [b "a/b/f.txt"] (x_base (cfg_all Error)) false Error) idle all_turns host1) as [g r] eqn:E. cbn [snd] in Hs. subst r.
    exact (C102_needed demo demo_fetch demo_arx (a_root demo_arx) [] host1 (mkConfig [b "a/b/f.txt"] (x_base (cfg_all Error)) false Error) at_out idle all_turns g (demo_setting1 Error) Hone E).
  - split; [reflexivity|]. split; [reflexivity|]. split; [reflexivity|]. split; [|discriminate]. intros [H|[]]. discriminate H.
Qed.
