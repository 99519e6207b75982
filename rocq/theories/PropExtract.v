(** C29-C37: extraction. *)
From Verif Require Export DemoHost ExtractSession AnyKeep.

(** C29: the entries selected.  [should_extract] gets the current path as a string. *)
Theorem C29_selection : forall cfg p dir, p <> [] ->
  (forall n, In n p -> n <> [] /\ ~ In 47 n /\ n <> b "." /\ utf8 n = true) ->
  plain_list (x_files cfg) ->
  (should_extract cfg (join p) dir = true <-> selected (x_files cfg) (x_recurse cfg) p dir).
Proof.
  intros cfg p dir Hp Hn Hl. apply is_selected; auto. apply Forall_forall. intros n Hi.
  destruct (Hn n Hi) as (H1 & H2 & H3 & H4). repeat split; auto.
Qed.
Print Assumptions C29_selection.

(** Listed paths are compared component by component: "./a" does not select "a", and "" or "/"
    select everything when recursing. *)
Theorem C29_dot_refuted : forall recurse dir base pol,
  should_extract (mkConfig [b "./a"] base recurse pol) (b "a") dir = false.
Proof. intros [] [] base pol; vm_compute; reflexivity. Qed.
Print Assumptions C29_dot_refuted.

Example C29_meets_hypotheses :
  let cfg := mkConfig [b "a//b/"] ([], []) false Skip in
  plain_list (x_files cfg) /\ should_extract cfg (b "a/b") false = true /\ should_extract cfg (b "a") true = true /\
  should_extract cfg (b "a") false = false /\ should_extract cfg (b "a/b/c") false = false /\
  should_extract (mkConfig [b "a//b/"] ([], []) true Skip) (b "a/b/c") false = true.
Proof.
  cbn zeta. split; [|vm_compute; auto 10]. intros s [<-|[]]. vm_compute. intros [H|[H|[]]]; discriminate H.
Qed.

(** C30: after a success every selected entry is in place, although unselected directories are not
    entered. *)
Theorem C30_selected_extracted : forall l fetch a rg d f cfg out sched last g p nd,
  setting l fetch a rg d f (x_base cfg) out -> plain_list (x_files cfg) ->
  extract_range a rg cfg sched last f = (g, Ok tt) ->
  p <> [] -> has l (d ++ p) nd -> selected (x_files cfg) (x_recurse cfg) p (is_dir_node nd) ->
  placed a (x_policy cfg) f g (out ++ p) nd.
Proof.
  intros l fetch a rg d f cfg out sched last g p nd HS Hpl Hrun Hp Hh Hsel.
  destruct (session_run l fetch a rg d out f cfg HS sched last g (Ok tt) Hrun) as (_ & _ & A3 & _).
  apply (A3 eq_refl p nd Hp Hh). apply is_selected; auto. eapply session_handled; eauto.
Qed.
Print Assumptions C30_selected_extracted.

(** Without a condition on the listed paths, for what [should_extract] accepts. *)
Theorem C30_accepted_extracted : forall l fetch a rg d f cfg out sched last g p nd,
  setting l fetch a rg d f (x_base cfg) out ->
  extract_range a rg cfg sched last f = (g, Ok tt) ->
  p <> [] -> has l (d ++ p) nd -> should_extract cfg (join p) (is_dir_node nd) = true ->
  placed a (x_policy cfg) f g (out ++ p) nd.
Proof.
  intros l fetch a rg d f cfg out sched last g p nd HS Hrun Hp Hh Hsel.
  destruct (session_run l fetch a rg d out f cfg HS sched last g (Ok tt) Hrun) as (_ & _ & A3 & _). auto.
Qed.
Print Assumptions C30_accepted_extracted.

(** Only "a/b/f.txt" is asked for: it is there, with the directories above it. *)
Example C30_meets_hypotheses :
  let cfg := mkConfig [b "a/b/f.txt"] (x_base (cfg_all Skip)) false Skip in
  exists g, extract_range demo_arx (a_root demo_arx) cfg idle all_turns host0 = (g, Ok tt) /\
    h_names g (at_out ++ [b "a"; b "b"; b "f.txt"]) = Some (HFile 0) /\ h_data g 0 = b "hello" /\ h_names g (at_out ++ [b "l"]) = None.
Proof. eexists. split; [vm_compute; reflexivity|]. vm_compute. auto. Qed.

(** C31: extracting everything into an empty (or missing) directory. *)
Theorem C31_reproduces : forall l fetch a rg d f cfg out sched last g res,
  setting l fetch a rg d f (x_base cfg) out -> x_files cfg = [] ->
  (forall p, p <> [] -> h_names f (out ++ p) = None) ->
  (forall p size addr mt, p <> [] -> has l (d ++ p) (KFile size addr, mt) -> exists data, fetch addr = Found data) ->
  (forall p t mt, p <> [] -> has l (d ++ p) (KLink t, mt) -> utf8 t = true /\ t <> []) ->
  extract_range a rg cfg sched last f = (g, res) ->
  (quiet sched last -> res <> Diverge -> res = Ok tt) /\
  (res = Ok tt -> forall p, p <> [] ->
    (h_names g (out ++ p) = Some HDir <-> exists mt, has l (d ++ p) (KDir, mt)) /\
    (forall data, has_file g (out ++ p) data <-> exists size addr mt, has l (d ++ p) (KFile size addr, mt) /\ fetch addr = Found data) /\
    (forall t, has_link g (out ++ p) t <-> exists mt, has l (d ++ p) (KLink t, mt))) /\
  (forall q, ~ below out q ->
    unchanged f g q \/ (h_names f q = None /\ h_names g q = Some HDir /\ exists t, out = q ++ t)).
Proof.
  intros l fetch a rg d f cfg out sched last g res HS Hall Hempty Hpk Htg Hrun.
  assert (Hsel : forall p dir, should_extract cfg p dir = true) by (intros p dir; unfold should_extract; now rewrite Hall).
  destruct (session_run l fetch a rg d out f cfg HS sched last g res Hrun) as (A1 & A2 & _ & _ & A5 & _).
  split; [|split].
  { intros Hq Hd. apply A5; auto.
    - intros p t mt Hp Hh. now destruct (Htg p t mt Hp Hh).
    - intros p nd Hp Hh _. eapply empty_fits; eauto. intros p' t mt Hp' Hh'. now destruct (Htg p' t mt Hp' Hh'). }
  - intros -> p Hp. destruct (empty_exact l fetch a rg d out f cfg HS Hempty sched last g Hrun Hpk p Hp) as (X1 & X2 & X3).
    split; [|split].
    + rewrite X1. split; intros (mt & H); exists mt; intuition.
    + intros data. rewrite X2. split; intros (size & addr & mt & H); exists size, addr, mt; intuition.
    + intros t. rewrite X3. split; intros (mt & H); exists mt; intuition.
  - intros q Hnb. destruct (A2 q) as [H|(_ & H1 & H2 & H3)]; auto.
    intros p nd Hp _ _ ->. apply Hnb. destruct p as [|x p]; [easy|]. now exists x, p.
Qed.
Print Assumptions C31_reproduces.

(** The same for a selection. *)
Theorem C31_reproduces_selection : forall l fetch a rg d f cfg out sched last g,
  setting l fetch a rg d f (x_base cfg) out -> plain_list (x_files cfg) ->
  (forall p, p <> [] -> h_names f (out ++ p) = None) ->
  (forall p size addr mt, p <> [] -> has l (d ++ p) (KFile size addr, mt) -> exists data, fetch addr = Found data) ->
  extract_range a rg cfg sched last f = (g, Ok tt) ->
  forall p, p <> [] ->
    (h_names g (out ++ p) = Some HDir <-> exists mt, has l (d ++ p) (KDir, mt) /\ selected (x_files cfg) (x_recurse cfg) p true) /\
    (forall data, has_file g (out ++ p) data <-> exists size addr mt, has l (d ++ p) (KFile size addr, mt) /\ fetch addr = Found data /\ selected (x_files cfg) (x_recurse cfg) p false) /\
    (forall t, has_link g (out ++ p) t <-> exists mt, has l (d ++ p) (KLink t, mt) /\ selected (x_files cfg) (x_recurse cfg) p false).
Proof.
  intros l fetch a rg d f cfg out sched last g HS Hpl Hempty Hpk Hrun p Hp.
  destruct (empty_exact l fetch a rg d out f cfg HS Hempty sched last g Hrun Hpk p Hp) as (X1 & X2 & X3).
  assert (Hs : forall nd dir, has l (d ++ p) nd -> (should_extract cfg (join p) dir = true <-> selected (x_files cfg) (x_recurse cfg) p dir)).
  { intros nd dir Hh. apply is_selected; auto. eapply session_handled; eauto. }
  split; [|split].
  - rewrite X1. split; intros (mt & H1 & H2); exists mt; split; auto; eapply (Hs _ _ H1); auto.
  - intros data. rewrite X2. split; intros (size & addr & mt & H1 & H2 & H3); exists size, addr, mt; split; auto; split; auto; eapply (Hs _ _ H1); auto.
  - intros t. rewrite X3. split; intros (mt & H1 & H2); exists mt; split; auto; eapply (Hs _ _ H1); auto.
Qed.
Print Assumptions C31_reproduces_selection.

Example C31_meets_hypotheses :
  setting demo demo_fetch demo_arx (a_root demo_arx) [] host0 (x_base (cfg_all Error)) at_out /\
  (forall p, p <> [] -> h_names host0 (at_out ++ p) = None) /\ quiet idle all_turns /\
  exists g, extract_range demo_arx (a_root demo_arx) (cfg_all Error) idle all_turns host0 = (g, Ok tt) /\
    h_names g (at_out ++ [b "l"]) = Some (HLink (b "a/b") 5000000000000%Z) /\ h_data g 1 = b "xyz".
Proof.
  split; [exact demo_setting|]. split.
  { intros [|x p] Hp; [easy|]. reflexivity. }
  split; [split; [intros k j o []|]|].
  - intros j o H. repeat (destruct H as [H|H]; [injection H as <- <-; easy|]). destruct H.
  - eexists. split; [vm_compute; reflexivity|]. vm_compute. auto.
Qed.

(** C32: existing names.  Skip, warn and error never change anything that exists, whatever the table of
    records, the destination (symbolic and hard links included) and whatever writes fail. *)
Theorem C32_preserving_policies : forall a rg f cfg sched last g res,
  (forall q i, h_names f q = Some (HFile i) -> i < h_next f) ->
  x_policy cfg = Skip \/ x_policy cfg = Warn \/ x_policy cfg = Error ->
  extract_range a rg cfg sched last f = (g, res) ->
  forall q, h_names f q <> None -> unchanged f g q.
Proof.
  intros a rg f cfg sched last g res Hnext Hpol Hrun q Hq. apply kept_unchanged; auto. eapply any_kept; eauto.
Qed.
Print Assumptions C32_preserving_policies.

(** With error, an existing selected file (whose content is available) or link makes it fail. *)
Theorem C32_error_stops : forall l fetch a rg d f cfg out sched last g res p nd,
  setting l fetch a rg d f (x_base cfg) out -> plain_list (x_files cfg) -> x_policy cfg = Error ->
  extract_range a rg cfg sched last f = (g, res) ->
  p <> [] -> has l (d ++ p) nd -> selected (x_files cfg) (x_recurse cfg) p false ->
  match fst nd with KDir => False | KFile _ addr => exists data, fetch addr = Found data | KLink _ => True end ->
  h_names f (out ++ p) <> None ->
  res <> Ok tt /\ unchanged f g (out ++ p).
Proof.
  intros l fetch a rg d f cfg out sched last g res p nd HS Hpl Hpol Hrun Hp Hh Hsel Hk Hex. split.
  - intros ->. assert (Hsel' : selected (x_files cfg) (x_recurse cfg) p (is_dir_node nd)) by (destruct nd as [[| |] mt]; auto; easy).
    pose proof (C30_selected_extracted l fetch a rg d f cfg out sched last g p nd HS Hpl Hrun Hp Hh Hsel') as H.
    unfold placed, by_policy in H. rewrite Hpol, (session_fetch l fetch a rg d out f cfg HS) in H.
    assert (Ht : time_of f (out ++ p) <> None) by (unfold time_of; destruct (h_names f (out ++ p)) as [[| |]|]; easy).
    destruct (time_of f (out ++ p)); [|easy]. destruct (fst nd); try easy. destruct Hk as [data Hd]. now rewrite Hd in H.
  - eapply (C32_preserving_policies a rg f cfg); eauto. destruct HS as [H1 H2 H3 H4 H5 H6 H7]. apply (td_next _ H6).
Qed.
Print Assumptions C32_error_stops.

(** What happens to an existing selected file or link after a success, policy by policy. *)
Theorem C32_policies : forall l fetch a rg d f cfg out sched last g p k mt t,
  setting l fetch a rg d f (x_base cfg) out -> plain_list (x_files cfg) ->
  extract_range a rg cfg sched last f = (g, Ok tt) ->
  p <> [] -> has l (d ++ p) (k, mt) -> selected (x_files cfg) (x_recurse cfg) p false ->
  time_of f (out ++ p) = Some t ->
  forall replaced, (match k with
                    | KDir => False
                    | KFile _ addr => exists data, fetch addr = Found data /\ replaced = has_file g (out ++ p) data
                    | KLink target => replaced = has_link g (out ++ p) target
                    end) ->
  match x_policy cfg with
  | Skip | Warn => unchanged f g (out ++ p)
  | Error => False
  | Newer => (not_older (m_mtime mt) t -> replaced) /\ (~ not_older (m_mtime mt) t -> unchanged f g (out ++ p))
  | Overwrite => replaced
  end.
Proof.
  intros l fetch a rg d f cfg out sched last g p k mt t HS Hpl Hrun Hp Hh Hsel Ht replaced Hk.
  assert (Hsel' : selected (x_files cfg) (x_recurse cfg) p (is_dir_node (k, mt))) by (destruct k; auto; easy).
  pose proof (C30_selected_extracted l fetch a rg d f cfg out sched last g p _ HS Hpl Hrun Hp Hh Hsel') as H.
  unfold placed, by_policy in H. rewrite (session_fetch l fetch a rg d out f cfg HS), Ht in H. cbn [fst snd] in H.
  destruct k; [easy| |].
  - destruct Hk as (data & Hd & ->). rewrite Hd in H. destruct (x_policy cfg); auto.
  - subst replaced. destruct (x_policy cfg); auto.
Qed.
Print Assumptions C32_policies.

(** Nothing else is touched, even when it fails; without failing writes each selected entry is as
    before or in place. *)
Theorem C32_bystanders : forall l fetch a rg d f cfg out sched last g res q,
  setting l fetch a rg d f (x_base cfg) out -> plain_list (x_files cfg) ->
  extract_range a rg cfg sched last f = (g, res) ->
  (forall p nd, p <> [] -> has l (d ++ p) nd -> selected (x_files cfg) (x_recurse cfg) p (is_dir_node nd) -> q <> out ++ p) ->
  unchanged f g q \/ (h_names f q = None /\ h_names g q = Some HDir /\ exists t, out = q ++ t).
Proof.
  intros l fetch a rg d f cfg out sched last g res q HS Hpl Hrun Hq.
  destruct (session_run l fetch a rg d out f cfg HS sched last g res Hrun) as (_ & A2 & _).
  destruct (A2 q) as [H|(_ & H1 & H2 & H3)]; auto.
  intros p nd Hp Hh Hc. apply (Hq p nd Hp Hh). apply is_selected in Hc; auto. eapply session_handled; eauto.
Qed.
Print Assumptions C32_bystanders.

Theorem C32_all_or_nothing : forall l fetch a rg d f cfg out sched last g res p nd,
  setting l fetch a rg d f (x_base cfg) out ->
  extract_range a rg cfg sched last f = (g, res) -> quiet sched last -> res <> Diverge ->
  p <> [] -> has l (d ++ p) nd ->
  unchanged f g (out ++ p) \/ placed a (x_policy cfg) f g (out ++ p) nd.
Proof.
  intros l fetch a rg d f cfg out sched last g res p nd HS Hrun Hq Hd Hp Hh.
  destruct (session_run l fetch a rg d out f cfg HS sched last g res Hrun) as (_ & A2 & _ & A4 & _).
  destruct (should_extract cfg (join p) (is_dir_node nd)) eqn:E; [now apply A4|].
  left. destruct (A2 (out ++ p)) as [H|(_ & [t Ht] & _)]; auto.
  - intros p' nd' Hp' Hh' Hc' E'. apply app_inv_head in E'. subst p'.
    rewrite (has_unique l fetch a (d ++ p) nd nd' (se_small _ _ _ _ _ _ _ _ HS) (se_built _ _ _ _ _ _ _ _ HS)) in E; auto. congruence.
  - exfalso. apply (f_equal (@length _)) in Ht. rewrite !app_length in Ht. destruct p; [easy|]. cbn in Ht. lia.
Qed.
Print Assumptions C32_all_or_nothing.

(** It goes on and succeeds whenever every selected entry can be extracted where it belongs: in
    particular existing files and links do not stop skip and warn. *)
Theorem C32_goes_on : forall l fetch a rg d f cfg out sched last g res,
  setting l fetch a rg d f (x_base cfg) out -> plain_list (x_files cfg) ->
  extract_range a rg cfg sched last f = (g, res) -> quiet sched last -> res <> Diverge ->
  (forall p t mt, p <> [] -> has l (d ++ p) (KLink t, mt) -> utf8 t = true) ->
  (forall p nd, p <> [] -> has l (d ++ p) nd -> selected (x_files cfg) (x_recurse cfg) p (is_dir_node nd) ->
     fits a (x_policy cfg) f (out ++ p) nd) ->
  res = Ok tt.
Proof.
  intros l fetch a rg d f cfg out sched last g res HS Hpl Hrun Hq Hd Hu Hfit.
  destruct (session_run l fetch a rg d out f cfg HS sched last g res Hrun) as (_ & _ & _ & _ & A5 & _).
  apply A5; auto. intros p nd Hp Hh Hc. apply Hfit; auto. apply is_selected in Hc; auto. eapply session_handled; eauto.
Qed.
Print Assumptions C32_goes_on.

(** With overwrite, a symbolic link that exists at the destination is written through: a file
    outside the output directory, that is not in the archive, is overwritten. *)
Definition x_demo : list entry := [d_file (b "x") 0 5].
Definition x_arx : archive := Eval vm_compute in match write_archive (after x_demo) demo_fetch with Some a => a | None => dummy_archive end.
Definition host_link : hostfs := host_of
  [(at_t, HDir); (at_out, HDir); (at_t ++ [b "secret"], HFile 0); (at_out ++ [b "x"], HLink (b "../secret") 0)] [b "old"].
Theorem C32_overwrite_through_link_refuted : exists l fetch a f out q cfg g,
  archive_of l fetch a /\ tidy f /\ x_policy cfg = Overwrite /\ outdir f (x_base cfg) out /\ (forall p, q <> out ++ p) /\
  extract_range a (a_root a) cfg idle all_turns f = (g, Ok tt) /\
  has_file f q (b "old") /\ has_file g q (b "hello").
Proof.
  exists x_demo, demo_fetch, x_arx, host_link, at_out, (at_t ++ [b "secret"]), (cfg_all Overwrite). eexists.
  split; [vm_compute; reflexivity|]. split; [apply tidyb_ok; vm_compute; reflexivity|]. split; [reflexivity|]. split.
  { split; [|split; [reflexivity|split]].
    - unfold cfg_all. cbn [x_base snd]. constructor; [right; apply ordinaryb_spec; reflexivity|].
      constructor; [now left|]. constructor; [right; apply ordinaryb_spec; reflexivity|constructor].
    - intros q x t E. destruct q; discriminate E.
    - intros q t E Hq. right. destruct q as [|x [|y [|z q]]]; [easy| | |]; cbn in E; [injection E as <- _|injection E as <- <- _|discriminate E]; reflexivity. }
  split; [intros p E; discriminate E|]. split; [vm_compute; reflexivity|].
  split; exists 0; vm_compute; auto.
Qed.
Print Assumptions C32_overwrite_through_link_refuted.

(** With newer, an archived time of 2^63 s or more aborts the extraction when the file exists. *)
Definition late_demo : list entry := [mkEntry (b "x") (Ok (Some (KFile 5 (mkAddr 1 0)))) (mkMeta 0 0 0 (2^63))].
Definition late_arx : archive := Eval vm_compute in match write_archive (after late_demo) demo_fetch with Some a => a | None => dummy_archive end.
Definition host_x : hostfs := host_of [(at_t, HDir); (at_out, HDir); (at_out ++ [b "x"], HFile 0)] [b "old"].
Theorem C32_newer_aborts_refuted : exists g, archive_of late_demo demo_fetch late_arx /\
  extract_range late_arx (a_root late_arx) (cfg_all Newer) idle all_turns host_x = (g, Panic).
Proof. eexists. split; vm_compute; reflexivity. Qed.
Print Assumptions C32_newer_aborts_refuted.

(** Existing "l" (a file, to be replaced by a link) and "a/z". *)
Example C32_meets_hypotheses :
  (exists g, extract_range demo_arx (a_root demo_arx) (cfg_all Overwrite) idle all_turns host1 = (g, Ok tt) /\
     h_names g (at_out ++ [b "l"]) = Some (HLink (b "a/b") 5000000000000%Z) /\ h_data g 1 = b "xyz" /\ h_data g 2 = b "mine") /\
  (exists g, extract_range demo_arx (a_root demo_arx) (cfg_all Warn) idle all_turns host1 = (g, Ok tt) /\
     h_names g (at_out ++ [b "l"]) = Some (HFile 0) /\ h_data g 1 = b "old z" /\ has_file g (at_out ++ [b "a"; b "b"; b "f.txt"]) (b "hello")) /\
  (exists g, extract_range demo_arx (a_root demo_arx) (cfg_all Newer) idle all_turns host1 = (g, Ok tt) /\ h_data g 1 = b "xyz") /\
  (exists g e, extract_range demo_arx (a_root demo_arx) (cfg_all Error) idle all_turns host1 = (g, Err e) /\ h_data g 1 = b "old z").
Proof.
  split; [|split; [|split]].
  - eexists. split; [vm_compute; reflexivity|]. vm_compute. auto.
  - eexists. split; [vm_compute; reflexivity|]. split; [reflexivity|]. split; [reflexivity|]. exists 3. vm_compute. auto.
  - eexists. split; [vm_compute; reflexivity|]. vm_compute. auto.
  - eexists. eexists. split; [vm_compute; reflexivity|]. vm_compute. auto.
Qed.

(** C33: only what is at or below the output directory changes (the directory itself, and those
    above it when missing, are created). *)
Theorem C33_stays_below : forall l fetch a rg d f cfg out sched last g res q,
  setting l fetch a rg d f (x_base cfg) out ->
  extract_range a rg cfg sched last f = (g, res) -> ~ below out q ->
  unchanged f g q \/ (h_names f q = None /\ h_names g q = Some HDir /\ exists t, out = q ++ t).
Proof.
  intros l fetch a rg d f cfg out sched last g res q HS Hrun Hnb.
  destruct (session_run l fetch a rg d out f cfg HS sched last g res Hrun) as (_ & A2 & _).
  destruct (A2 q) as [H|(_ & H1 & H2 & H3)]; auto.
  intros p nd Hp _ _ ->. apply Hnb. destruct p as [|x p]; [easy|]. now exists x, p.
Qed.
Print Assumptions C33_stays_below.

(** An archive may hold the name "..": extracting it writes outside. *)
Definition up_demo : list entry := [d_file (b "../x") 0 5].
Definition up_arx : archive := Eval vm_compute in match write_archive (after up_demo) demo_fetch with Some a => a | None => dummy_archive end.
Theorem C33_dotdot_refuted : exists g, answers up_demo = [Ok tt] /\ archive_of up_demo demo_fetch up_arx /\
  extract_range up_arx (a_root up_arx) (cfg_all Skip) idle all_turns host0 = (g, Ok tt) /\
  h_names host0 (at_t ++ [b "x"]) = None /\ has_file g (at_t ++ [b "x"]) (b "hello").
Proof. eexists. split; [vm_compute; reflexivity|]. split; [vm_compute; reflexivity|]. split; [vm_compute; reflexivity|]. split; [reflexivity|]. exists 0. vm_compute. auto. Qed.
Print Assumptions C33_dotdot_refuted.

(** A symbolic link to a directory, found at the destination under the name of an archived directory,
    is followed by every policy. *)
Definition host_dirlink : hostfs := host_of
  [(at_t, HDir); (at_out, HDir); (at_t ++ [b "else"], HDir); (at_out ++ [b "a"], HLink (b "../else") 0)] [].
Theorem C33_directory_link_refuted : forall pol, exists g,
  extract_range demo_arx (a_root demo_arx) (cfg_all pol) idle all_turns host_dirlink = (g, Ok tt) /\
  has_file g (at_t ++ [b "else"; b "z"]) (b "xyz").
Proof. intros []; (eexists; split; [vm_compute; reflexivity|]; exists 1; vm_compute; auto). Qed.
Print Assumptions C33_directory_link_refuted.

Example C33_meets_hypotheses : ~ below at_out (at_t ++ [b "other"]) /\
  setting demo demo_fetch demo_arx (a_root demo_arx) [] host1 (x_base (cfg_all Overwrite)) at_out.
Proof. split; [|exact (demo_setting1 Overwrite)]. intros (x & t & E). discriminate E. Qed.

(** C34: the result does not depend on the scheduling nor on the sizes of the writes, and a schedule
    that completes always exists. *)
Theorem C34_schedules_agree : forall l fetch a rg d f cfg out sched last g res sched' last' g' res',
  setting l fetch a rg d f (x_base cfg) out ->
  extract_range a rg cfg sched last f = (g, res) -> quiet sched last -> res <> Diverge ->
  extract_range a rg cfg sched' last' f = (g', res') -> quiet sched' last' -> res' <> Diverge ->
  res = res' /\ same_fs g g'.
Proof.
  intros l fetch a rg d f cfg out sched last g res sched' last' g' res' HS R1 [Q1 Q2] D1 R2 [Q3 Q4] D2.
  pose proof (session_wf l fetch a rg d out f cfg HS) as Hw. destruct HS as [H1 H2 H3 H4 H5 H6 H7].
  exact (extract_same_tidy a cfg rg d out f Hw H3 H4 H5 H6 H7 sched last g res sched' last' g' res' R1 R2 Q1 Q2 D1 Q3 Q4 D2).
Qed.
Print Assumptions C34_schedules_agree.

(** For the policies that never replace: on any destination. *)
Theorem C34_schedules_agree_preserving : forall l fetch a rg d f cfg sched last g res sched' last' g' res',
  small l -> archive_of l fetch a -> dir_range a rg d ->
  (forall i p n, apath a i (d ++ p) -> In n p -> n <> [] /\ ~ In 47 n /\ n <> b "." /\ utf8 n = true) ->
  x_policy cfg = Skip \/ x_policy cfg = Warn \/ x_policy cfg = Error ->
  extract_range a rg cfg sched last f = (g, res) -> quiet sched last -> res <> Diverge ->
  extract_range a rg cfg sched' last' f = (g', res') -> quiet sched' last' -> res' <> Diverge ->
  res = res' /\ same_fs g g'.
Proof.
  intros l fetch a rg d f cfg sched last g res sched' last' g' res' Hs Ha Hrg Hn Hpol R1 [Q1 Q2] D1 R2 [Q3 Q4] D2.
  destruct (archive_ok l fetch a Hs Ha) as (m & _ & _ & _ & Hw & _).
  assert (Hh : handled_below a d).
  { intros i p Hp. apply Forall_forall. intros n Hi. destruct (Hn i p n Hp Hi) as (H1 & H2 & H3 & H4). repeat split; auto. }
  exact (extract_same_kept a cfg Hpol rg d f Hw Hrg Hh sched last g res sched' last' g' res' R1 R2 Q1 Q2 D1 Q3 Q4 D2).
Qed.
Print Assumptions C34_schedules_agree_preserving.

Theorem C34_completes : forall l fetch a rg d cfg sched f, small l -> archive_of l fetch a -> dir_range a rg d ->
  exists last, no_failure last /\ snd (extract_range a rg cfg sched last f) <> Diverge.
Proof.
  intros l fetch a rg d cfg sched f Hs Ha Hrg. destruct (archive_ok l fetch a Hs Ha) as (m & _ & _ & _ & Hw & _).
  eapply extract_completes; eauto.
Qed.
Print Assumptions C34_completes.

(** With hard links at the destination and overwrite, two writers share one file: the result depends
    on the schedule. *)
Definition two_demo : list entry := [d_file (b "x") 0 5; d_file (b "y") 1 3].
Definition two_arx : archive := Eval vm_compute in match write_archive (after two_demo) demo_fetch with Some a => a | None => dummy_archive end.
Definition host_hard : hostfs := host_of [(at_t, HDir); (at_out, HDir); (at_out ++ [b "x"], HFile 0); (at_out ++ [b "y"], HFile 0)] [b "old"].
Theorem C34_hard_links_refuted : exists g g',
  extract_range two_arx (a_root two_arx) (cfg_all Overwrite) idle [(0, Some 9); (1, Some 9)]%nat host_hard = (g, Ok tt) /\
  extract_range two_arx (a_root two_arx) (cfg_all Overwrite) idle [(1, Some 9); (0, Some 9)]%nat host_hard = (g', Ok tt) /\
  h_data g 0 = b "xyzlo" /\ h_data g' 0 = b "hello".
Proof. eexists. eexists. split; [vm_compute; reflexivity|]. split; [vm_compute; reflexivity|]. vm_compute. auto. Qed.
Print Assumptions C34_hard_links_refuted.

(** Two different schedules: writers run at the end, byte by byte, or meanwhile. *)
Example C34_meets_hypotheses :
  exists g g', extract_range demo_arx (a_root demo_arx) (cfg_all Overwrite) idle all_turns host1 = (g, Ok tt) /\
    extract_range demo_arx (a_root demo_arx) (cfg_all Overwrite) (fun _ => [(0, Some 2); (1, Some 1)])%nat (rev all_turns) host1 = (g', Ok tt) /\
    has_file g (at_out ++ [b "a"; b "b"; b "f.txt"]) (b "hello") /\ has_file g' (at_out ++ [b "a"; b "b"; b "f.txt"]) (b "hello").
Proof.
  eexists. eexists. split; [vm_compute; reflexivity|]. split; [vm_compute; reflexivity|]. split; exists 3; vm_compute; auto.
Qed.

(** C35: success means that every selected file was written (unless the policy kept an existing
    one), if the packs are there. *)
Theorem C35_success_means_written : forall l fetch a rg d f cfg out sched last g p size addr mt,
  setting l fetch a rg d f (x_base cfg) out -> plain_list (x_files cfg) ->
  extract_range a rg cfg sched last f = (g, Ok tt) ->
  p <> [] -> has l (d ++ p) (KFile size addr, mt) -> selected (x_files cfg) (x_recurse cfg) p false ->
  fetch addr <> MissingPack ->
  h_names f (out ++ p) = None \/ x_policy cfg = Overwrite ->
  exists data, fetch addr = Found data /\ has_file g (out ++ p) data.
Proof.
  intros l fetch a rg d f cfg out sched last g p size addr mt HS Hpl Hrun Hp Hh Hsel Hm Hex.
  pose proof (C30_selected_extracted l fetch a rg d f cfg out sched last g p _ HS Hpl Hrun Hp Hh Hsel) as H.
  unfold placed, by_policy in H. rewrite (session_fetch l fetch a rg d out f cfg HS) in H. cbn [fst snd] in H.
  destruct (fetch addr) as [data| | |]; try easy. exists data. split; auto.
  unfold time_of in H. destruct Hex as [Hex|Hex]; rewrite Hex in H; auto.
  now destruct (match h_names f (out ++ p) with Some HDir => _ | _ => _ end).
Qed.
Print Assumptions C35_success_means_written.

(** With a missing pack, success is reported and the file is not there. *)
Definition part_fetch : caddr -> fetched := fun c => match ca_content c with 0 => MissingPack | 1 => Found (b "xyz") | _ => NoContent end.
Definition part_arx : archive := Eval vm_compute in match write_archive (after demo) part_fetch with Some a => a | None => dummy_archive end.
Theorem C35_missing_pack_refuted : exists g,
  archive_of demo part_fetch part_arx /\
  extract_range part_arx (a_root part_arx) (cfg_all Skip) idle all_turns host0 = (g, Ok tt) /\
  has demo [b "a"; b "b"; b "f.txt"] (KFile 5 (mkAddr 1 0), d_meta) /\
  h_names g (at_out ++ [b "a"; b "b"; b "f.txt"]) = None.
Proof.
  eexists. split; [vm_compute; reflexivity|]. split; [vm_compute; reflexivity|]. split; [exact demo_has|]. vm_compute. reflexivity.
Qed.
Print Assumptions C35_missing_pack_refuted.

Example C35_meets_hypotheses : demo_fetch (mkAddr 1 0) <> MissingPack /\ h_names host1 (at_out ++ [b "a"; b "b"; b "f.txt"]) = None /\
  selected [] true [b "a"; b "b"; b "f.txt"] false.
Proof. split; [easy|]. split; [reflexivity|]. now left. Qed.

(** C36: what can be archived can be extracted, when link targets are non-empty UTF-8. *)
Theorem C36_extractable : forall l fetch a rg d f cfg out sched,
  setting l fetch a rg d f (x_base cfg) out ->
  (forall p, p <> [] -> h_names f (out ++ p) = None) ->
  (forall p size addr mt, p <> [] -> has l (d ++ p) (KFile size addr, mt) -> exists data, fetch addr = Found data) ->
  (forall p t mt, p <> [] -> has l (d ++ p) (KLink t, mt) -> utf8 t = true /\ t <> []) ->
  (forall k, no_failure (sched k)) ->
  exists last g, no_failure last /\ extract_range a rg cfg sched last f = (g, Ok tt).
Proof.
  intros l fetch a rg d f cfg out sched HS Hempty Hpk Htg Hq.
  destruct (C34_completes l fetch a rg d cfg sched f (se_small _ _ _ _ _ _ _ _ HS) (se_built _ _ _ _ _ _ _ _ HS) (se_range _ _ _ _ _ _ _ _ HS)) as (last & Hl & Hd).
  destruct (extract_range a rg cfg sched last f) as [g res] eqn:Hrun. cbn [snd] in Hd.
  destruct (session_run l fetch a rg d out f cfg HS sched last g res Hrun) as (_ & _ & _ & _ & A5 & _).
  assert (res = Ok tt) as ->.
  { apply A5; auto; [now split| |].
    - intros p t mt Hp Hh. now destruct (Htg p t mt Hp Hh).
    - intros p nd Hp Hh _. eapply empty_fits; eauto. intros p' t mt Hp' Hh'. now destruct (Htg p' t mt Hp' Hh'). }
  exists last, g. rewrite Hrun. auto.
Qed.
Print Assumptions C36_extractable.

(** A target that is not UTF-8, or empty, is accepted at creation and stops extraction; the first one
    even when the link is not selected. *)
Definition bad_demo : list entry := [mkEntry (b "l") (Ok (Some (KLink [255]))) d_meta; d_file (b "z") 0 5].
Definition bad_arx : archive := Eval vm_compute in match write_archive (after bad_demo) demo_fetch with Some a => a | None => dummy_archive end.
Definition void_demo : list entry := [d_link (b "l") []].
Definition void_arx : archive := Eval vm_compute in match write_archive (after void_demo) demo_fetch with Some a => a | None => dummy_archive end.
Theorem C36_not_utf8_refuted : exists g, answers bad_demo = [Ok tt; Ok tt] /\ archive_of bad_demo demo_fetch bad_arx /\
  extract_range bad_arx (a_root bad_arx) (mkConfig [b "z"] (x_base (cfg_all Skip)) true Skip) idle all_turns host0 = (g, Err EUtf8).
Proof. eexists. split; [|split]; vm_compute; reflexivity. Qed.
Print Assumptions C36_not_utf8_refuted.
Theorem C36_empty_target_refuted : exists g e, answers void_demo = [Ok tt] /\ archive_of void_demo demo_fetch void_arx /\
  extract_range void_arx (a_root void_arx) (cfg_all Skip) idle all_turns host0 = (g, Err e).
Proof. eexists. eexists. split; [|split]; vm_compute; reflexivity. Qed.
Print Assumptions C36_empty_target_refuted.

Example C36_meets_hypotheses : setting demo demo_fetch demo_arx (a_root demo_arx) [] host0 (x_base (cfg_all Overwrite)) at_out /\ utf8 (b "a/b") = true.
Proof. split; [exact demo_setting|reflexivity]. Qed.

(** C37: extracting again over a complete extraction changes nothing but times. *)
Theorem C37_extract_twice : forall l fetch a rg d out f cfg cfg2 sched last g sched2 last2 g2 res2,
  setting l fetch a rg d f (x_base cfg) out ->
  (forall p, p <> [] -> h_names f (out ++ p) = None) ->
  x_files cfg2 = x_files cfg /\ x_recurse cfg2 = x_recurse cfg /\ x_base cfg2 = x_base cfg ->
  (forall p size addr mt, p <> [] -> has l (d ++ p) (KFile size addr, mt) -> exists data, fetch addr = Found data) ->
  (forall p t mt, p <> [] -> has l (d ++ p) (KLink t, mt) -> utf8 t = true /\ t <> []) ->
  x_policy cfg2 <> Error ->
  (x_policy cfg2 = Newer -> forall p nd, p <> [] -> has l (d ++ p) nd -> m_mtime (snd nd) < 2^63) ->
  extract_range a rg cfg sched last f = (g, Ok tt) ->
  extract_range a rg cfg2 sched2 last2 g = (g2, res2) -> quiet sched2 last2 -> res2 <> Diverge ->
  res2 = Ok tt /\ forall q, same_node g g2 q.
Proof.
  intros l fetch a rg d out f cfg cfg2 sched last g sched2 last2 g2 res2 HS He Hsame.
  apply (extract_again l fetch a rg d out f cfg cfg2 HS He Hsame sched last g sched2 last2 g2 res2).
Qed.
Print Assumptions C37_extract_twice.

Example C37_meets_hypotheses : exists g g2,
  extract_range demo_arx (a_root demo_arx) (cfg_all Skip) idle all_turns host0 = (g, Ok tt) /\
  extract_range demo_arx (a_root demo_arx) (cfg_all Overwrite) idle all_turns g = (g2, Ok tt) /\
  h_data g2 0 = b "hello" /\ h_data g2 1 = b "xyz".
Proof. eexists. eexists. split; [vm_compute; reflexivity|]. split; [vm_compute; reflexivity|]. vm_compute. auto. Qed.
