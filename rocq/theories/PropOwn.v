(** C89: [arx create] and the temporary files it makes beside its output before it reads its inputs. *)
From Verif Require Export OwnFacts SpecCreateHost.
From Verif Require Import DemoHost DemoAdd PropCli.

Local Ltac bad := let H := fresh in intros H; discriminate H.

(** The host [w1] seen from the directory that the creation runs in. *)
Notation seen_from_dir w1 w' := (mkWorld (w_fs w1) (w_attr w1) (w_list w1) (w_cwd w')) (only parsing).

Lemma create_own_shape fuel w w1 o evs : create_own fuel w w1 o = (evs, Ok tt) -> o_list_compressions o = false ->
  exists m a c w', evs = [Opened m; Written a] /\ fill fuel w1 (seen_from_dir w1 w') o = (c, Ok tt) /\ finalize c = Some a /\
    entered w (o_base o) w'.
Proof.
  intros H Hl. unfold create_own in H. rewrite Hl in H. destruct (check_output_path_writable w (o_out o) (o_force o)) as [u| | |]; try discriminate H.
  assert (G : forall w', (match o_base o with Some d => chdir w d | None => Ok w end) = Ok w' -> entered w (o_base o) w').
  { intros w' E. unfold entered. destruct (o_base o) as [d|]; [|congruence]. unfold chdir in E. destruct (look_str w true d) as [q [|i|t m]|q|e]; try discriminate E.
    injection E as <-. cbn [w_cwd]. auto. }
  destruct (match o_base o with Some d => chdir w d | None => Ok w end) as [w'| | |] eqn:Ew; try discriminate H. specialize (G w' eq_refl).
  destruct (create_concat (o_concat o)) as [m| | |]; try discriminate H.
  destruct (fill fuel w1 (seen_from_dir w1 w') o) as [c r] eqn:Ef. destruct r as [[]| | |]; try discriminate H.
  destruct (finalize c) as [a|] eqn:Ea; [|discriminate H]. injection H as <-. exists m, a, c, w'. auto.
Qed.

(** When none of the paths gone through leads to the directory of the temporary files, nothing changes:
    what succeeds on the host as it was writes the same archive. *)
Theorem C89_apart : forall fuel w w1 o w' files dir names evs, inodes_given (w_fs w) -> possible w -> opened dir names w w1 ->
  entered w (o_base o) w' -> lines_of w o files -> proper_listing w' ->
  (forall s follow q n, taken w' o files s follow -> look_str w' follow s = At q n -> q <> dir) ->
  create fuel w true o = (evs, Ok tt) -> create_own fuel w w1 o = (evs, Ok tt).
Proof.
  intros fuel w w1 o w' files dir names evs Hi P O He Hl Hp Hd H.
  pose proof (opened_more dir names w w1 Hi O) as M. pose proof (possible_entered w o w' P He) as P'.
  assert (Ew : w' = from w (w_cwd w')) by (unfold entered in He; destruct (o_base o); [exact (proj2 He)|subst w'; now destruct w]).
  unfold create in H. unfold create_own. destruct (o_list_compressions o); [exact H|].
  destruct (check_output_path_writable w (o_out o) (o_force o)) as [u| | |]; try discriminate H.
  assert (E : (match o_base o with Some d => chdir w d | None => Ok w end) = Ok w').
  { unfold entered in He. destruct (o_base o) as [d|]; [|congruence]. destruct He as [H1 H2]. unfold chdir. rewrite H1. congruence. }
  rewrite E in *. destruct (create_concat (o_concat o)) as [m| | |]; try discriminate H. cbn [negb] in H.
  destruct (fill fuel w w' o) as [c r] eqn:Ef. destruct r as [[]| | |]; try discriminate H.
  rewrite Ew in Ef, P', Hp, Hd.
  pose proof (fill_more dir fuel w w1 (w_cwd w') o files c M P P' Hp Hl Hd Ef) as G. unfold from in G. rewrite G. exact H.
Qed.
Print Assumptions C89_apart.

(** With no temporary file at all it is the creation of the other properties. *)
Theorem C89_same : forall fuel w o, create_own fuel w w o = create fuel w true o.
Proof.
  intros fuel w o. unfold create_own, create. destruct (o_list_compressions o); [reflexivity|].
  destruct (check_output_path_writable w (o_out o) (o_force o)) as [u| | |]; auto.
  assert (G : forall w', (match o_base o with Some d => chdir w d | None => Ok w end) = Ok w' -> seen_from_dir w w' = w').
  { intros w'. destruct (o_base o) as [d|]; [|intros H; injection H as <-; now destruct w].
    unfold chdir. destruct (look_str w true d) as [q [|i|t m]|q|e]; try bad. intros H. injection H as <-. reflexivity. }
  destruct (match o_base o with Some d => chdir w d | None => Ok w end) as [w'| | |]; auto. rewrite (G w' eq_refl).
  destruct (create_concat (o_concat o)); auto.
Qed.
Print Assumptions C89_same.

(** Where a path gone through leads, physically. *)
Lemma walked_root w rc x s fl q0 n0 q n : proper_listing w -> look_str w true x = At q0 n0 -> walked w rc x s -> (fl = true <-> s = x) ->
  look_str w fl s = At q n -> exists r, q = q0 ++ r.
Proof.
  intros Hp Hx Hv. revert fl q n. induction Hv as [|d qd names nm Hrc Hv IH He Hl Hn]; intros fl q n Hf Hq.
  - assert (fl = true) as -> by tauto. exists []. rewrite app_nil_r. congruence.
  - assert (Hne : path_join d nm <> x) by (eapply join_not_self; eauto). assert (fl = false) as -> by (destruct fl; [tauto|reflexivity]).
    assert (Hd : exists r, qd = q0 ++ r).
    { destruct He as [[-> He]|He]; [exists []; rewrite app_nil_r; congruence|]. destruct (bytes_eqb_spec d x) as [->|Hdx].
      - exists []. rewrite app_nil_r. assert (Ht : look_str w true x = At qd HDir) by (apply look_nonlink; [intros ? ? HH; discriminate HH|exact He]). congruence.
      - apply (IH false qd HDir); [split; [bad|contradiction]|exact He]. }
    destruct Hd as [r ->]. exists (r ++ [nm]). rewrite app_assoc.
    destruct (look_join w d (q0 ++ r) nm false (Hp _ _ _ Hl Hn) (enters_look w x d _ He)) as [H1 H2].
    rewrite H1 in Hq. destruct (h_names (w_fs w) ((q0 ++ r) ++ [nm])) as [[|i|t m]|] eqn:E; try discriminate Hq; try congruence.
    rewrite (H2 t m eq_refl) in Hq. congruence.
Qed.

(** So it is enough that the directory of the output is neither an input nor below one. *)
Theorem C89_output_elsewhere : forall fuel w w1 o w' dir names evs, inodes_given (w_fs w) -> possible w -> opened dir names w w1 ->
  entered w (o_base o) w' -> proper_listing w' -> o_file_list o = None ->
  (forall x q n r, In x (o_infiles o) -> look_str w' true x = At q n -> dir <> q ++ r) ->
  create fuel w true o = (evs, Ok tt) -> create_own fuel w w1 o = (evs, Ok tt).
Proof.
  intros fuel w w1 o w' dir names evs Hi P O He Hp Hf Hd H.
  destruct (o_list_compressions o) eqn:Hlc; [unfold create in H; unfold create_own; rewrite Hlc in *; exact H|].
  assert (Hl : lines_of w o None) by (unfold lines_of; rewrite Hf; reflexivity).
  apply (C89_apart fuel w w1 o w' None dir names evs Hi P O He Hl Hp); [|exact H].
  intros s fl q n (x & Hx & Hv & Hfo) Hq ->.
  destruct (create_shape _ _ _ _ _ _ H) as [[_ K]|[(m & _ & K)|(m & a & c & w'' & _ & _ & Hfill & _ & _ & Hcd)]]; [rewrite K in Hlc by reflexivity; discriminate Hlc|easy|].
  assert (w'' = w') as ->.
  { unfold entered in He. destruct (o_base o) as [d|]; [|congruence]. destruct He as [H1 H2]. unfold chdir in Hcd. rewrite H1 in Hcd. congruence. }
  unfold fill in Hfill. rewrite Hf in Hfill. destruct (existsb is_abs (o_infiles o)); [discriminate Hfill|].
  unfold check_input_paths_exist in Hfill. destruct (forallb (exists_path w') (o_infiles o)) eqn:Ex; [|discriminate Hfill].
  rewrite forallb_forall in Ex. specialize (Ex x Hx). unfold exists_path in Ex. destruct (look_str w' true x) as [q0 n0| |] eqn:E0; try discriminate Ex.
  destruct (walked_root w' (o_recurse o) x s fl q0 n0 dir n Hp E0 Hv Hfo Hq) as [r Hr]. exact (Hd x q0 n0 r Hx E0 Hr).
Qed.
Print Assumptions C89_output_elsewhere.

(** And when the walk does enter it, each of the temporary files is archived, with the bytes it has. *)
Theorem C89_inside : forall fuel w w1 o w' dir names evs a x d k i, opened dir names w w1 ->
  entered w (o_base o) w' -> proper_listing (seen_from_dir w1 w') -> all_listable (seen_from_dir w1 w') o ->
  o_file_list o = None -> o_recurse o = true -> In x (o_infiles o) ->
  walked (seen_from_dir w1 w') true x d -> enters (seen_from_dir w1 w') x d dir ->
  h_names (w_fs w) (dir ++ [k]) = None -> h_names (w_fs w1) (dir ++ [k]) = Some (HFile i) -> at_special (w_attr w1 (dir ++ [k])) = false ->
  create_own fuel w w1 o = (evs, Ok tt) -> In (Written a) evs -> N.of_nat (length (a_recs a)) < 2^32 ->
  exists l contents p, small l /\ archive_of l (fetch_of contents) a /\ stands_for (path_join d k) (pieces (prefix_of o) ++ p) /\
    (p <> [] -> exists addr mt, has l p (KFile (N.of_nat (length (h_data (w_fs w1) i))) addr, mt) /\ fetch_of contents addr = Found (h_data (w_fs w1) i)).
Proof.
  intros fuel w w1 o w' dir names evs a x d k i O He Hp HL Hf Hr Hx Hv Hen Hk0 Hk1 Hsp H Hin Hsm.
  assert (Hlc : o_list_compressions o = false) by (destruct (o_list_compressions o) eqn:Ec; [unfold create_own in H; rewrite Ec in H; injection H as <-; destruct Hin|reflexivity]).
  destruct (create_own_shape fuel w w1 o evs H Hlc) as (m & a' & c & w'' & -> & Hfill & Hfin & He').
  assert (w'' = w') as -> by (unfold entered in *; destruct (o_base o); [destruct He as [E1 E2], He' as [E3 E4]; rewrite E2, E4; congruence|congruence]).
  destruct Hin as [Hin|[Hin|[]]]; [discriminate Hin|]. injection Hin as ->.
  assert (Hl : lines_of w1 o None) by (unfold lines_of; rewrite Hf; reflexivity).
  destruct (fill_takes fuel w1 _ o None c Hfill Hl Hp) as (l & Hc & Hok & _ & Hall). specialize (Hall HL).
  destruct (w_list w1 dir) as [l1|] eqn:El; [|exfalso; apply (HL Hf Hr x d dir Hx Hv Hen); exact El].
  assert (Hkl : In k l1) by (apply (op_list_dir _ _ _ _ O l1 El k Hk0); rewrite Hk1; discriminate).
  pose proof (Hp dir l1 k El Hkl) as Hord.
  assert (Hne : path_join d k <> x) by (eapply join_not_self; eauto).
  assert (Hvk : walked (seen_from_dir w1 w') true x (path_join d k)) by (eapply vis_below; eauto).
  destruct (Hall (path_join d k) false) as (p & Hst & Hpp).
  { exists x. split; [exact Hx|]. rewrite Hr. split; [exact Hvk|]. split; [bad|contradiction]. }
  exists l, (cr_contents c), p. unfold finalize in Hfin. rewrite Hc in Hfin. split; [eapply archive_small; eauto|]. split; [exact Hfin|]. split; [exact Hst|].
  intros Hpe. destruct (Hpp Hpe) as (q & n & Hq & Hm).
  destruct (look_join (seen_from_dir w1 w') d dir k false Hord (enters_look _ x d _ Hen)) as [E1 _]. cbn [w_fs] in E1. rewrite Hk1 in E1.
  rewrite E1 in Hq. injection Hq as <- <-. cbn [w_attr] in Hm. destruct Hm as [Hm|(_ & [kd mt] & Hh & Hmir)]; [congruence|].
  destruct Hmir as (_ & _ & _ & _ & Hmir). cbn [fst w_fs] in Hmir. destruct Hmir as (addr & -> & Hft). exists addr, mt. auto.
Qed.
Print Assumptions C89_inside.

(** [arx create -C src -r -o src/out.arx .]: the temporary file ".tmp" is made in the input. *)
Definition own_fs : hostfs := make_temp src_fs (src_root ++ [b ".tmp"]).
Definition own_list (q : path) : option (list bytes) := if path_eqb' q src_root then Some [b ".tmp"; b "z"; b "a"] else src_list q.
Definition own_world : world := mkWorld own_fs src_attr own_list [b "h"].
Definition o_own : create_opts := mkOpts false (b "src/out.arx") None (Some (b "src")) [b "."] None true None false false.
(** [arx create -r -o out.arx src]: it is made beside. *)
Definition beside_fs : hostfs := make_temp src_fs [b "h"; b ".tmp"].
Definition beside_list (q : path) : option (list bytes) := if path_eqb' q [b "h"] then Some [b ".tmp"] else src_list q.
Definition beside_world : world := mkWorld beside_fs src_attr beside_list [b "h"].

Lemma own_opened : opened src_root [b "out.arx"] src_world own_world.
Proof.
  constructor.
  - exists (mkWriting own_fs [(src_root ++ [b ".tmp"], h_next src_fs)] []). split; [|reflexivity].
    eapply calls_more; [apply calls_none|]. apply call_temp; [intros [E|[]]; discriminate E|reflexivity].
  - reflexivity.
  - reflexivity.
  - reflexivity.
  - intros q Hq. cbn [own_world w_list src_world]. unfold own_list. destruct (path_eqb' q src_root) eqn:E; [now apply path_eqb'_true in E|reflexivity].
  - intros l1 H1 k Hk0 Hk1. cbn [own_world w_list] in H1. injection H1 as <-. cbn [own_world w_fs src_world] in *. unfold own_fs, make_temp, touch, set_data, bump, set_name in Hk1. cbn [h_names] in Hk1.
    destruct (path_eqb' (src_root ++ [k]) (src_root ++ [b ".tmp"])) eqn:E; [|now rewrite Hk0 in Hk1]. apply path_eqb'_true, app_inj_tail in E as [_ ->]. now left.
Qed.
Lemma beside_opened : opened [b "h"] [b "out.arx"] src_world beside_world.
Proof.
  constructor.
  - exists (mkWriting beside_fs [([b "h"; b ".tmp"], h_next src_fs)] []). split; [|reflexivity].
    eapply calls_more; [apply calls_none|]. apply (call_temp [b "h"]); [intros [E|[]]; discriminate E|reflexivity].
  - reflexivity.
  - reflexivity.
  - reflexivity.
  - intros q Hq. cbn [beside_world w_list src_world]. unfold beside_list. destruct (path_eqb' q [b "h"]) eqn:E; [now apply path_eqb'_true in E|reflexivity].
  - intros l1 H1 k Hk0 Hk1. cbn [beside_world w_list] in H1. injection H1 as <-. cbn [beside_world w_fs src_world] in *. unfold beside_fs, make_temp, touch, set_data, bump, set_name in Hk1. cbn [h_names] in Hk1.
    destruct (path_eqb' ([b "h"] ++ [k]) [b "h"; b ".tmp"]) eqn:E; [|now rewrite Hk0 in Hk1]. apply path_eqb'_true in E. injection E as ->. now left.
Qed.

(** The archive of a directory made in the directory itself holds a file that was not there before and
    that is gone afterwards. *)
Theorem C89_own_temporary_refuted : exists fuel w w1 dir names o m a, opened dir names w w1 /\ o_list_compressions o = false /\
  (exists n, out_place w (o_out o) = Some (dir, n)) /\
  create_own fuel w w1 o = ([Opened m; Written a], Ok tt) /\ h_names (w_fs w) (dir ++ [b ".tmp"]) = None /\
  In (b ".tmp") (map r_name (a_recs a)) /\
  exists a0, create fuel w true o = ([Opened m; Written a0], Ok tt) /\ ~ In (b ".tmp") (map r_name (a_recs a0)).
Proof.
  exists 3%nat, src_world, own_world, src_root, [b "out.arx"], o_own. eexists. eexists. split; [apply own_opened|]. split; [reflexivity|].
  split; [eexists; vm_compute; reflexivity|]. split; [vm_compute; reflexivity|]. split; [reflexivity|].
  split; [vm_compute; now left|]. eexists. split; [vm_compute; reflexivity|]. vm_compute. intros H. repeat (destruct H as [H|H]; [discriminate H|]). exact H.
Qed.
Print Assumptions C89_own_temporary_refuted.

Lemma src_given : inodes_given src_fs.
Proof.
  intros q i H. cbn [src_fs host_of h_names] in H. apply lookup_in in H. cbn [src_names In] in H.
  repeat (destruct H as [H|H]; [try discriminate H; injection H as _ <-; vm_compute; reflexivity|]). destruct H.
Qed.
Lemma src_possible : possible src_world.
Proof.
  split; cbn [src_world w_fs w_cwd].
  - intros q n H. cbn [src_fs host_of h_names] in H. apply lookup_in in H. cbn [src_names In] in H.
    repeat (destruct H as [H|H]; [injection H as <- _; repeat constructor; apply ordinaryb_spec; reflexivity|]). destruct H.
  - intros p r E Hp. destruct p as [|x p]; [easy|]. injection E as <- E. destruct p as [|y p]; [reflexivity|discriminate E].
Qed.

Example C89_meets_hypotheses :
  inodes_given (w_fs src_world) /\ possible src_world /\ opened [b "h"] [b "out.arx"] src_world beside_world /\
  entered src_world (o_base o_src) src_world /\ lines_of src_world o_src None /\ proper_listing src_world /\
  (forall x q n r, In x (o_infiles o_src) -> look_str src_world true x = At q n -> [b "h"] <> q ++ r) /\
  (exists evs, create 3 src_world true o_src = (evs, Ok tt)) /\
  proper_listing (seen_from_dir own_world (mkWorld src_fs src_attr src_list src_root)) /\
  enters (seen_from_dir own_world (mkWorld src_fs src_attr src_list src_root)) (b ".") (b ".") src_root /\
  all_listable (seen_from_dir own_world (mkWorld src_fs src_attr src_list src_root)) o_own.
Proof.
  split; [apply src_given|]. split; [apply src_possible|]. split; [apply beside_opened|]. split; [reflexivity|]. split; [reflexivity|]. split; [apply src_listing|].
  split.
  { intros x q n r [<-|[]] H. assert (E : look_str src_world true (b "src") = At src_root HDir) by (vm_compute; reflexivity). rewrite E in H. injection H as <- _.
    intros H. discriminate H. }
  split; [eexists; vm_compute; reflexivity|]. split.
  { intros q names n. cbn [w_list own_world]. unfold own_list. destruct (path_eqb' q src_root).
    - intros H. injection H as <-. cbn [In]. intros Hn. repeat (destruct Hn as [<-|Hn]; [apply ordinaryb_spec; reflexivity|]); destruct Hn.
    - apply (src_listing src_fs src_attr []). }
  split; [left; split; [reflexivity|vm_compute; reflexivity]|].
  intros _ _ x d q _ _ _. cbn [w_list own_world]. unfold own_list. destruct (path_eqb' q src_root); [discriminate|]. unfold src_list. destruct (path_eqb' q [b "h"; b "src"]); [discriminate|]. destruct (path_eqb' q [b "h"; b "src"; b "a"]); discriminate.
Qed.
