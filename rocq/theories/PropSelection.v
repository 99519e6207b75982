(** C105: only what is selected matters; the text of [arx list] as a file list. *)
From Verif Require Export SelectionFacts PropExtractable PropList.
From Verif Require FindFacts PropRemount.

(** Two selections that agree on what is stored give the same extraction - the same result and the same
    host afterwards - for every host, policy and schedule of the writers. *)
Theorem C105_selection : forall l fetch a rg d files files2 rc rc2 base pol sched last f,
  small l -> archive_of l fetch a -> dir_range a rg d -> plain_names a d -> plain_list files -> plain_list files2 ->
  same_choice l d files rc files2 rc2 ->
  extract_range a rg (mkConfig files2 base rc2 pol) sched last f = extract_range a rg (mkConfig files base rc pol) sched last f.
Proof.
  intros l fetch a rg d files files2 rc rc2 base pol sched last f Hs Ha Hrg Hn Hl Hl2 Hc.
  destruct (archive_ok l fetch a Hs Ha) as (m & _ & _ & _ & Hwf & _). pose proof (plain_handled a d Hn) as Hh.
  apply (extract_same a files files2 rc rc2 base pol sched last rg d f Hwf Hrg Hh).
  intros i p nd Hp Hst. assert (Hhp : handled p) by (eapply Hh, stored_apath, Hst).
  assert (Hhas : has l (d ++ p) nd) by (apply (archive_has l fetch a); auto; now exists i).
  pose proof (is_selected (mkConfig files base rc pol) p (is_dir_node nd) Hl Hp Hhp) as E1.
  pose proof (is_selected (mkConfig files2 base rc2 pol) p (is_dir_node nd) Hl2 Hp Hhp) as E2. cbn [x_files x_recurse] in E1, E2.
  pose proof (Hc p nd Hp Hhas) as E3.
  destruct (should_extract (mkConfig files2 base rc2 pol) (join p) (is_dir_node nd)), (should_extract (mkConfig files base rc pol) (join p) (is_dir_node nd)); try exact eq_refl.
  - symmetry. tauto.
  - tauto.
Qed.
Print Assumptions C105_selection.

(** The command, with any --root-dir. *)
Theorem C105_command : forall w l fetch a root d od files files2 rc rc2 pol sched last,
  small l -> archive_of l fetch a -> root_given root d ->
  (forall p nd n, p <> [] -> has l (d ++ p) nd -> In n p -> ordinary n /\ utf8 n = true) ->
  plain_list files -> plain_list files2 -> same_choice l d files rc files2 rc2 ->
  extract_cmd w a od files2 None root rc2 pol sched last = extract_cmd w a od files None root rc pol sched last.
Proof.
  intros w l fetch a root d od files files2 rc rc2 pol sched last Hs Ha Hroot Hnames Hl Hl2 Hc.
  destruct (root_found l fetch a root d Hs Ha Hroot) as [_ Hdr].
  unfold extract_cmd. cbn [files_to_extract]. destruct (extract_root a root) as [rg|e| |] eqn:Em; try exact eq_refl.
  apply (C105_selection l fetch a rg d); auto.
  intros i p Hp Hne. apply (ReadFacts.apath_has l fetch a) in Hp as [nd Hh]; auto. apply Forall_forall. intros n Hn. eapply Hnames; eauto.
Qed.
Print Assumptions C105_command.

(** Order, repetitions and spellings of the arguments do not matter. *)
Theorem C105_order : forall w l fetch a root d od files files2 rc pol sched last,
  small l -> archive_of l fetch a -> root_given root d ->
  (forall p nd n, p <> [] -> has l (d ++ p) nd -> In n p -> ordinary n /\ utf8 n = true) ->
  plain_list files ->
  (forall s, In s files -> exists s2, In s2 files2 /\ pieces s2 = pieces s) ->
  (forall s2, In s2 files2 -> exists s, In s files /\ pieces s = pieces s2) ->
  extract_cmd w a od files2 None root rc pol sched last = extract_cmd w a od files None root rc pol sched last.
Proof.
  intros w l fetch a root d od files files2 rc pol sched last Hs Ha Hroot Hnames Hl H1 H2.
  apply (C105_command w l fetch a root d); auto.
  - intros s2 Hi. destruct (H2 s2 Hi) as (s & Hin & E). rewrite <- E. now apply Hl.
  - intros p nd _ _. unfold selected. split; (intros [E|(s & Hi & Hx)]).
    + left. destruct files2 as [|s2 r]; [exact eq_refl|]. destruct (H2 s2 (or_introl eq_refl)) as (s & Hi & _). rewrite E in Hi. destruct Hi.
    + right. destruct (H1 s Hi) as (s2 & Hi2 & E). exists s2. split; [exact Hi2|]. now rewrite E.
    + left. destruct files as [|s r]; [exact eq_refl|]. destruct (H1 s (or_introl eq_refl)) as (s2 & Hi & _). rewrite E in Hi. destruct Hi.
    + right. destruct (H2 s Hi) as (s2 & Hi2 & E). exists s2. split; [exact Hi2|]. now rewrite E.
Qed.
Print Assumptions C105_order.

Lemma join_one_line p : (forall n, In n p -> ordinary n /\ one_line n) -> p <> [] -> ~ In 10 (join p) /\ forall y, join p <> y ++ [13].
Proof.
  intros H Hp. split; [apply join_newline; intros n Hn; now apply H|]. intros y E.
  destruct (exists_last Hp) as (q & n & ->). destruct (H n) as [(Hn & _) [_ Hcr]]; [apply in_app_iff; right; now left|].
  assert (Ej : exists u, join (q ++ [n]) = u ++ n).
  { clear. destruct q as [|x q]; [exists []; reflexivity|]. cbn [app]. rewrite join_parts, map_app, concat_app. cbn [map concat].
    exists (x ++ concat (map (fun n0 => sep :: n0) q) ++ [sep]). rewrite <- !app_assoc. cbn [app]. now rewrite app_nil_r. }
  destruct Ej as [u Ej]. rewrite Ej in E. destruct (exists_last Hn) as (n' & c & ->). rewrite app_assoc in E. apply app_inj_tail in E as [_ ->].
  now apply (Hcr n').
Qed.

(** Some lines of [arx list] in a file given with -L: the same as the paths given as arguments. *)
Theorem C105_lines : forall w a od fl paths root rc pol sched last,
  (forall p n, In p paths -> p <> [] /\ (In n p -> ordinary n /\ utf8 n = true /\ one_line n)) ->
  read_file w fl = Ok (text (map join paths)) ->
  extract_cmd w a od [] (Some fl) root rc pol sched last = extract_cmd w a od (map join paths) None root rc pol sched last.
Proof.
  intros w a od fl paths root rc pol sched last H Hr. apply (C56_file_list w a od fl (text (map join paths))); [exact Hr|].
  pose proof (C56_lines (map join paths) []) as E. cbn [app] in E. rewrite !app_nil_r in E. apply E.
  - intros s Hs. apply in_map_iff in Hs as (p & <- & Hp). apply join_one_line; [intros n Hn; destruct (H p n Hp) as [_ Hx]; now destruct (Hx Hn) as (? & _ & ?)|].
    now destruct (H p [] Hp).
  - intros [].
  - apply forallb_forall. intros s Hs. apply in_map_iff in Hs as (p & <- & Hp). apply FindFacts.utf8_of_pieces.
    rewrite pieces_join; [apply forallb_forall|apply Forall_forall]; intros n Hn; destruct (H p n Hp) as [_ Hx]; destruct (Hx Hn) as ((? & ? & _) & ? & _); [assumption|now split].
  - exact eq_refl.
Qed.
Print Assumptions C105_lines.

(** [arx list A > L; arx extract -L L A] extracts everything, with and without --recurse. *)
Theorem C105_list_all : forall w l fetch a od fl rc rc2 pol sched last t,
  small l -> archive_of l fetch a ->
  (forall p nd n, has l p nd -> In n p -> ordinary n /\ utf8 n = true /\ one_line n) ->
  list_cmd a None = (t, Ok tt) -> read_file w fl = Ok t ->
  extract_cmd w a od [] (Some fl) None rc pol sched last = extract_cmd w a od [] None None rc2 pol sched last.
Proof.
  intros w l fetch a od fl rc rc2 pol sched last t Hs Ha Hnames Ht Hr.
  destruct (C42_plain_listing l fetch a Hs Ha) as (ps & _ & Hps & E). rewrite E in Ht. injection Ht as <-.
  assert (Hne : forall p nd, has l p nd -> p <> []).
  { intros p nd Hh. apply (archive_has l fetch a) in Hh as (i & r & _ & Hi & _); auto. now apply apath_nonempty in Hi. }
  rewrite (C105_lines w a od fl (map fst ps)); [|intros p n Hp; apply in_map_iff in Hp as ((q & nd) & <- & Hq); apply Hps in Hq; split; [now apply (Hne q nd)|intros Hn; eapply Hnames; eauto]|now rewrite map_map].
  apply (C105_command w l fetch a None []); auto.
  - exact eq_refl.
  - intros p nd n _ Hh Hn. destruct (Hnames p nd n Hh Hn) as (? & ? & _). auto.
  - intros s [].
  - intros s Hi. rewrite map_map in Hi. apply in_map_iff in Hi as ((p & nd) & <- & Hp). cbn [fst]. apply Hps in Hp.
    rewrite pieces_join; [intros Hd; destruct (Hnames p nd _ Hp Hd) as ((_ & _ & Hx & _) & _); now apply Hx|].
    apply Forall_forall. intros n Hn. destruct (Hnames p nd n Hp Hn) as ((? & ? & _) & _). now split.
  - intros p nd _ Hh. cbn [app] in Hh. split; [intros _|intros _; now left]. right. exists (join p). split; [rewrite map_map; apply in_map_iff; exists (p, nd); split; [exact eq_refl|now apply Hps]|].
    left. apply pieces_join. apply Forall_forall. intros n Hn. destruct (Hnames p nd n Hh Hn) as ((? & ? & _) & _). now split.
Qed.
Print Assumptions C105_list_all.

(** Refuted for names that end in a carriage return, or contain a newline: what is listed is then not
    extracted, and the command succeeds all the same. *)
Definition odd_names : list entry := [d_file (b "a" ++ [13]) 0 5; d_file (b "x" ++ [10] ++ b "y") 1 3; d_file (b "z") 1 3].
Definition odd_arx : archive :=
  Eval vm_compute in match write_archive (after odd_names) demo_fetch with Some a => a | None => dummy_archive end.
Definition list_world (t : bytes) : world :=
  mkWorld (host_of [(at_t, HDir); (at_t ++ [b "L"], HFile 0)] [t]) src_attr src_list at_t.
Definition five_turns : turns := map (fun k => (k, Some 5000%nat)) [0; 1; 2; 3; 4]%nat.

Theorem C105_odd_names_refuted : exists l fetch a t g g2,
  small l /\ archive_of l fetch a /\ (forall p nd n, has l p nd -> In n p -> ordinary n /\ utf8 n = true) /\
  list_cmd a None = (t, Ok tt) /\ read_file (list_world t) (b "L") = Ok t /\
  extract_cmd (list_world t) a (Some (b "out")) [] None None false Warn idle five_turns = (g, Ok tt) /\
  extract_cmd (list_world t) a (Some (b "out")) [] (Some (b "L")) None false Warn idle five_turns = (g2, Ok tt) /\
  has_file g (at_out ++ [b "a" ++ [13]]) (b "hello") /\ has_file g (at_out ++ [b "x" ++ [10] ++ b "y"]) (b "xyz") /\
  h_names g2 (at_out ++ [b "a" ++ [13]]) = None /\ h_names g2 (at_out ++ [b "x" ++ [10] ++ b "y"]) = None /\
  has_file g2 (at_out ++ [b "z"]) (b "xyz").
Proof.
  exists odd_names, demo_fetch, odd_arx. do 3 eexists.
  split; [exact eq_refl|]. split; [vm_compute; reflexivity|]. split.
  { assert (Hp : plain_names odd_arx []) by (apply names_plain; vm_compute; reflexivity).
    intros p nd n Hh Hn. apply (archive_has odd_names demo_fetch odd_arx) in Hh as (i & r & _ & Hi & _); [|vm_compute; reflexivity|vm_compute; reflexivity].
    specialize (Hp i p Hi). rewrite Forall_forall in Hp. apply Hp; [|exact Hn]. destruct p; [destruct Hn|intros HH; discriminate HH]. }
  split; [vm_compute; reflexivity|]. split; [vm_compute; reflexivity|]. split; [vm_compute; reflexivity|]. split; [vm_compute; reflexivity|].
  split; [eexists; split; vm_compute; reflexivity|]. split; [eexists; split; vm_compute; reflexivity|].
  split; [vm_compute; reflexivity|]. split; [vm_compute; reflexivity|]. eexists; split; vm_compute; reflexivity.
Qed.
Print Assumptions C105_odd_names_refuted.

(** The archive of the demonstration, its list on the host. *)
Example C105_meets_hypotheses :
  let t := b "a" ++ [10] ++ b "a/b" ++ [10] ++ b "a/b/f.txt" ++ [10] ++ b "a/z" ++ [10] ++ b "l" ++ [10] in
  list_cmd demo_arx None = (t, Ok tt) /\ read_file (list_world t) (b "L") = Ok t /\
  (forall p nd n, has demo p nd -> In n p -> ordinary n /\ utf8 n = true /\ one_line n) /\
  (exists g, extract_cmd (list_world t) demo_arx (Some (b "out")) [] (Some (b "L")) None false Warn idle all_turns = (g, Ok tt) /\
     has_file g (at_out ++ [b "a"; b "b"; b "f.txt"]) (b "hello") /\ has_file g (at_out ++ [b "a"; b "z"]) (b "xyz")) /\
  same_choice demo [] [b "a/b/f.txt"; b "a/z"; b "a"] false [b "a//z"; b "a/b/f.txt/"] false /\
  ~ same_choice demo [] [b "a"] false [b "a"] true.
Proof.
  intros t. split; [vm_compute; reflexivity|]. split; [vm_compute; reflexivity|].
  assert (Hn : forall p nd n, has demo p nd -> In n p -> ordinary n /\ utf8 n = true /\ one_line n).
  { intros p nd n Hh Hn. apply PropRemount.demo_exact in Hh.
    assert (Hin : In n [b "a"; b "b"; b "f.txt"; b "l"; b "z"]).
    { cbn in Hh. repeat (destruct Hh as [Hh|Hh]; [injection Hh as <- _; cbn in Hn; cbn; tauto|]). destruct Hh. }
    cbn in Hin. repeat (destruct Hin as [<-|Hin]; [split; [apply ordinaryb_spec; vm_compute; reflexivity|]; split; [vm_compute; reflexivity|];
      split; [cbn; intros HH; repeat (destruct HH as [HH|HH]; [discriminate HH|]); destruct HH|];
      intros y HH; apply (f_equal (@rev N)) in HH; rewrite rev_app_distr in HH; cbn in HH; discriminate HH|]). destruct Hin. }
  assert (Hsel : forall files rc p nd, plain_list files -> has demo p nd ->
    (should_extract (mkConfig files ([], []) rc Skip) (join p) (is_dir_node nd) = true <-> selected files rc p (is_dir_node nd))).
  { intros files rc p nd Hl Hh. apply (is_selected (mkConfig files ([], []) rc Skip)); [exact Hl| |].
    - intros ->. apply PropRemount.demo_exact in Hh. cbn in Hh. repeat (destruct Hh as [Hh|Hh]; [discriminate Hh|]). destruct Hh.
    - apply Forall_forall. intros n Hi. destruct (Hn p nd n Hh Hi) as ((? & ? & ? & _) & ? & _). split; [now split|]. now split. }
  assert (P1 : plain_list [b "a/b/f.txt"; b "a/z"; b "a"]) by (intros s Hs HH; cbn in Hs; repeat (destruct Hs as [<-|Hs]; [vm_compute in HH; repeat (destruct HH as [HH|HH]; [discriminate HH|]); destruct HH|]); destruct Hs).
  assert (P2 : plain_list [b "a//z"; b "a/b/f.txt/"]) by (intros s Hs HH; cbn in Hs; repeat (destruct Hs as [<-|Hs]; [vm_compute in HH; repeat (destruct HH as [HH|HH]; [discriminate HH|]); destruct HH|]); destruct Hs).
  assert (P3 : plain_list [b "a"]) by (intros s Hs HH; cbn in Hs; destruct Hs as [<-|[]]; vm_compute in HH; destruct HH as [HH|[]]; discriminate HH).
  split; [exact Hn|]. split; [|split].
  - eexists. split; [vm_compute; reflexivity|]. split; eexists; split; vm_compute; reflexivity.
  - intros p nd _ Hh. pose proof (Hsel [b "a/b/f.txt"; b "a/z"; b "a"] false p nd P1 Hh) as E1. pose proof (Hsel [b "a//z"; b "a/b/f.txt/"] false p nd P2 Hh) as E2.
    rewrite <- E1, <- E2. clear E1 E2. apply PropRemount.demo_exact in Hh. cbn in Hh.
    repeat (destruct Hh as [Hh|Hh]; [injection Hh as <- <-; vm_compute; split; intros HH; first [exact HH|discriminate HH|exact eq_refl]|]). destruct Hh.
  - intros Hc. assert (Hh : has demo [b "a"; b "z"] (KFile 3 (mkAddr 1 1), d_meta)) by (apply PropRemount.demo_exact; cbn; tauto).
    specialize (Hc [b "a"; b "z"] _ ltac:(intros HH; discriminate HH) Hh).
    pose proof (Hsel [b "a"] false _ _ P3 Hh) as E1. pose proof (Hsel [b "a"] true _ _ P3 Hh) as E2.
    rewrite <- E1, <- E2 in Hc. destruct Hc as [_ Hc]. vm_compute in Hc. specialize (Hc eq_refl). discriminate Hc.
Qed.
