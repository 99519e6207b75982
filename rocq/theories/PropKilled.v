(** C66: extractions interrupted by a kill, and their resumption. *)
From Verif Require Export KilledKeep DemoHost.

(** Whatever the moment of the kill, the policy, the selection, the schedule and the answers to the
    writes: each archived name is free or holds (the beginning of) what is archived there, nothing else
    changed, and the destination is again one on which extraction is specified. *)
Theorem C66_killed : forall l fetch a rg d f cfg out sched last n j g,
  setting l fetch a rg d f (x_base cfg) out -> partly l fetch d f out ->
  killed_run a rg cfg sched last n j f = g ->
  partly l fetch d g out /\ aside l d out f g /\ setting l fetch a rg d g (x_base cfg) out.
Proof.
  intros l fetch a rg d f cfg out sched last n j g HS Hp <-. pose proof HS as [H1 H2 H3 H4 _ _ _].
  pose proof (setting_good l fetch a rg d out (x_base cfg) f HS Hp) as HG.
  destruct (killed_good l fetch a rg d out (x_base cfg) H1 H2 H3 H4 cfg eq_refl sched last n j f HG) as [G A].
  split; [apply G|]. split; auto. now apply (good_setting l fetch a rg d out (x_base cfg) H1 H2 H3 H4).
Qed.
Print Assumptions C66_killed.

(** The same after any number of interrupted runs. *)
Theorem C66_history : forall l fetch a rg d f base out g,
  setting l fetch a rg d f base out -> partly l fetch d f out ->
  killed_runs a rg base f g ->
  partly l fetch d g out /\ aside l d out f g /\ setting l fetch a rg d g base out.
Proof.
  intros l fetch a rg d f base out g HS Hp Hr. pose proof HS as [H1 H2 H3 H4 _ _ _].
  assert (G : good_host l fetch d out base g /\ aside l d out f g).
  { induction Hr as [|g cfg sched last n j t Hr [IH1 IH2] Eb].
    - split; [now apply (setting_good l fetch a rg d out base f)|apply aside_refl].
    - pose proof (good_time l fetch d out base t g IH1) as Gt.
      destruct (killed_good l fetch a rg d out base H1 H2 H3 H4 cfg Eb sched last n j (at_time t g) Gt) as [G A].
      split; auto. eapply aside_trans; [exact IH2|]. eapply (aside_trans _ _ _ _ (at_time t g)); [|exact A].
      intros q _. left. apply unchanged_at_time. }
  destruct G as [G A]. split; [apply G|]. split; auto. now apply (good_setting l fetch a rg d out base H1 H2 H3 H4).
Qed.
Print Assumptions C66_history.

(** A complete run with the policy "overwrite" repairs everything: after any history of interrupted
    runs it succeeds and the destination is exactly what the archive holds, besides what was there. *)
Theorem C66_resumed : forall l fetch a rg d f out cfg g0 t sched last g res,
  setting l fetch a rg d f (x_base cfg) out -> partly l fetch d f out ->
  killed_runs a rg (x_base cfg) f g0 ->
  x_files cfg = [] -> x_policy cfg = Overwrite ->
  (forall p size addr mt, p <> [] -> has l (d ++ p) (KFile size addr, mt) -> exists data, fetch addr = Found data) ->
  (forall p u mt, p <> [] -> has l (d ++ p) (KLink u, mt) -> utf8 u = true /\ u <> []) ->
  extract_range a rg cfg sched last (at_time t g0) = (g, res) -> quiet sched last -> res <> Diverge ->
  res = Ok tt /\
  (forall p nd, p <> [] -> has l (d ++ p) nd ->
     match fst nd with
     | KDir => h_names g (out ++ p) = Some HDir
     | KFile _ addr => exists data, fetch addr = Found data /\ has_file g (out ++ p) data
     | KLink u => has_link g (out ++ p) u
     end) /\
  aside l d out f g.
Proof.
  intros l fetch a rg d f out cfg g0 t sched last g res HS Hp Hr Hall Hpol Hpk Htg Hrun Hq Hd.
  pose proof HS as [H1 H2 H3 H4 _ _ _].
  destruct (C66_history l fetch a rg d f (x_base cfg) out g0 HS Hp Hr) as (P0 & A0 & S0).
  pose proof (good_time l fetch d out (x_base cfg) t g0 (setting_good l fetch a rg d out (x_base cfg) g0 S0 P0)) as Gt.
  pose proof (good_setting l fetch a rg d out (x_base cfg) H1 H2 H3 H4 _ Gt) as St.
  assert (Hsel : forall p dir, should_extract cfg p dir = true) by (intros p dir; unfold should_extract; now rewrite Hall).
  destruct (session_run l fetch a rg d out (at_time t g0) cfg St sched last g res Hrun) as (_ & R2 & R3 & _ & R5 & _).
  assert (Hfits : forall p nd, p <> [] -> has l (d ++ p) nd -> fits a (x_policy cfg) (at_time t g0) (out ++ p) nd).
  { intros p nd Hpn Hh. pose proof (gh_partly _ _ _ _ _ _ Gt p nd Hpn Hh) as Hb. unfold begun in Hb. unfold fits, replaceable.
    rewrite Hpol, (session_fetch l fetch a rg d out (at_time t g0) cfg St). destruct nd as [[|size addr|u] mt]; cbn [fst] in *.
    - destruct (h_names (at_time t g0) (out ++ p)) as [[|i|v m]|]; auto; easy.
    - destruct (Hpk p size addr mt Hpn Hh) as [data ->]. destruct (h_names (at_time t g0) (out ++ p)) as [[|i|v m]|]; try easy. eauto.
    - split; [now destruct (Htg p u mt Hpn Hh)|]. destruct (h_names (at_time t g0) (out ++ p)) as [[|i|v m]|]; try easy. }
  assert (Hres : res = Ok tt).
  { apply R5; auto. intros p u mt Hpn Hh. now destruct (Htg p u mt Hpn Hh). }
  split; auto. split.
  - intros p nd Hpn Hh. specialize (R3 Hres p nd Hpn Hh (Hsel _ _)). unfold placed, by_policy in R3.
    rewrite Hpol, (session_fetch l fetch a rg d out (at_time t g0) cfg St) in R3. destruct nd as [[|size addr|u] mt]; cbn [fst snd] in *.
    + exact R3.
    + destruct (Hpk p size addr mt Hpn Hh) as [data E]. rewrite E in R3. exists data. split; auto.
      now destruct (time_of (at_time t g0) (out ++ p)).
    + now destruct (time_of (at_time t g0) (out ++ p)).
  - eapply aside_trans; [exact A0|]. intros q Hq'. destruct (R2 q) as [H|(_ & K1 & K2 & K3)].
    + intros p nd Hpn Hh _. now apply Hq' with (nd := nd).
    + left. exact H.
    + right. auto.
Qed.
Print Assumptions C66_resumed.

(** With "skip", "warn" and "error" a killed run has changed nothing that existed, whatever the table of
    records (also one that leads the walk in circles: [fuel]) and the destination. *)
Theorem C66_keeps : forall a rg f cfg sched last n j fuel c res,
  (forall q i, h_names f q = Some (HFile i) -> i < h_next f) ->
  x_policy cfg = Skip \/ x_policy cfg = Warn \/ x_policy cfg = Error ->
  run_from_range x_builder a (killed_extractor a cfg sched n j) fuel rg (mkCtx [] f [] false 0) = (c, res) ->
  forall q, h_names f q <> None -> unchanged f (x_fs (run_turns last c)) q.
Proof.
  intros a rg f cfg sched last n j fuel c res Hnext Hpol Hrun q Hq. apply kept_unchanged; auto. apply run_turns_adding.
  replace c with (fst (run_from_range x_builder a (killed_extractor a cfg sched n j) fuel rg (mkCtx [] f [] false 0))) by now rewrite Hrun.
  apply run_from_range_preserves; [now apply killed_adding|apply adding_start].
Qed.
Print Assumptions C66_keeps.

(** The default policy and "newer" do not repair: killed after two of five bytes, a second run is
    successful and leaves the truncated file. *)
Definition long_after : Z := 2000000000000000000%Z.
Definition host_killed : hostfs :=
  killed_run demo_arx (a_root demo_arx) (cfg_all Skip) idle [(0, Some 2)]%nat 100 0 (at_time long_after host0).
Theorem C66_skip_refuted : exists g,
  extract_range demo_arx (a_root demo_arx) (cfg_all Skip) idle all_turns host_killed = (g, Ok tt) /\
  has demo [b "a"; b "b"; b "f.txt"] (KFile 5 (mkAddr 1 0), d_meta) /\ demo_fetch (mkAddr 1 0) = Found (b "hello") /\
  has_file g (at_out ++ [b "a"; b "b"; b "f.txt"]) (b "he").
Proof.
  eexists. split; [vm_compute; reflexivity|]. split; [exact demo_has|]. split; [reflexivity|]. exists 0. split; vm_compute; reflexivity.
Qed.
Print Assumptions C66_skip_refuted.
Theorem C66_newer_refuted : exists g,
  extract_range demo_arx (a_root demo_arx) (cfg_all Newer) idle all_turns host_killed = (g, Ok tt) /\
  has_file g (at_out ++ [b "a"; b "b"; b "f.txt"]) (b "he").
Proof. eexists. split; [vm_compute; reflexivity|]. exists 0. split; vm_compute; reflexivity. Qed.
Print Assumptions C66_newer_refuted.

(** "overwrite" removes a link before making it again: killed in between, the link is gone although it
    was there before both runs. *)
Theorem C66_link_lost_refuted : exists g h,
  extract_range demo_arx (a_root demo_arx) (cfg_all Skip) idle all_turns host0 = (g, Ok tt) /\
  has_link g (at_out ++ [b "l"]) (b "a/b") /\
  killed_run demo_arx (a_root demo_arx) (cfg_all Overwrite) idle [] 5 1 g = h /\
  h_names h (at_out ++ [b "l"]) = None.
Proof.
  eexists. eexists. split; [vm_compute; reflexivity|]. split; [eexists; vm_compute; reflexivity|]. split; [reflexivity|]. vm_compute. reflexivity.
Qed.
Print Assumptions C66_link_lost_refuted.

(** Two interrupted runs into a missing directory, then "overwrite". *)
Example C66_meets_hypotheses :
  setting demo demo_fetch demo_arx (a_root demo_arx) [] host0 (x_base (cfg_all Overwrite)) at_out /\
  partly demo demo_fetch [] host0 at_out /\
  exists g0 g, killed_runs demo_arx (a_root demo_arx) (x_base (cfg_all Overwrite)) host0 g0 /\
    has_file g0 (at_out ++ [b "a"; b "b"; b "f.txt"]) (b "he") /\ h_names g0 (at_out ++ [b "l"]) = None /\
    extract_range demo_arx (a_root demo_arx) (cfg_all Overwrite) idle all_turns g0 = (g, Ok tt) /\
    has_file g (at_out ++ [b "a"; b "b"; b "f.txt"]) (b "hello") /\ has_link g (at_out ++ [b "l"]) (b "a/b").
Proof.
  split; [exact demo_setting|]. split.
  { intros p nd Hp _. unfold begun. destruct (h_names host0 (at_out ++ p)) eqn:E; auto. cbn [host0 host_of h_names] in E.
    apply lookup_in in E. cbn in E. destruct E as [E|[]]. discriminate E. }
  eexists. eexists. split.
  { eapply (killed_more _ _ _ _ _ (cfg_all Skip) idle [(0, Some 2)]%nat 4%nat 0%nat long_after); [|reflexivity].
    eapply (killed_more _ _ _ _ _ (cfg_all Warn) idle [] 2%nat 1%nat 0%Z); [|reflexivity]. apply killed_none. }
  split; [exists 0; split; vm_compute; reflexivity|]. split; [vm_compute; reflexivity|]. split; [vm_compute; reflexivity|].
  split; [exists 0; split; vm_compute; reflexivity|]. eexists. vm_compute. reflexivity.
Qed.
