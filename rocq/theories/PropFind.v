(** C82: [find DIR > LIST] then [arx create -L LIST]. *)
From Verif Require Export FindFacts PropSame.

(** [arx create -L fl]: no links are followed, the output can be written. *)
Record proper_list (w : world) (o : create_opts) (w' : world) (inputs : list input) (fl : bytes) : Prop := {
  pl_compressions : o_list_compressions o = false;
  pl_list : o_file_list o = Some fl;
  pl_follow : o_follow o = false;
  pl_concat : exists g, parse_concat g = Some (o_concat o);
  pl_out : exists d x, from_root w (o_out o) = d ++ [x] /\ is_directory w d /\ (leads_to_something w (o_out o) -> o_force o = true);
  pl_base : entered w (o_base o) w';
  pl_inputs : Forall (good_input w' (match o_prefix o with Some p => p | None => [] end)) inputs;
  pl_no_link : forall x, In x inputs -> look_str w' false (in_arg x) = At (in_root x) (in_node x);
  pl_apart : apart inputs }.

Lemma printed_lines w pre inputs items : Forall (good_input w pre) inputs ->
  (forall x, In x inputs -> look_str w false (in_arg x) = At (in_root x) (in_node x)) ->
  (forall x q, In (x, q) items -> In x inputs /\ exists n, at_input w x q n) ->
  forall lines, Forall2 (fun xq s => prints (in_arg (fst xq)) (snd xq) s) items lines ->
  lines = map (fun xq => str (in_arg (fst xq)) (snd xq)) items /\ forallb utf8 lines = true.
Proof.
  intros Hg Hnl Hin lines F. induction F as [|[x q] s items lines Hp F IH]; [split; reflexivity|].
  destruct IH as [IH1 IH2]; [intros y r H; apply Hin; now right|]. destruct (Hin x q) as [Hx [n Hn]]; [now left|]. cbn [fst snd map forallb] in *.
  destruct (item_ordinary w pre inputs Hg x q n Hx Hn) as [Ho _].
  assert (s = str (in_arg x) q) as -> by (eapply prints_str; eauto; eapply arg_nonempty; eauto).
  rewrite IH2, (line_utf8 w pre inputs Hg x q n Hx Hn). split; [now f_equal|reflexivity].
Qed.

(** Any list of things below the inputs, directories before what they contain (for example what
    [find] prints, filtered): the creation succeeds and archives exactly these. *)
Theorem C82_listed : forall fuel w o w' inputs fl items,
  proper_list w o w' inputs fl -> found_list w' inputs items -> holds_lines w fl items ->
  exists m a, create fuel w true o = ([Opened m; Written a], Ok tt) /\
    (N.of_nat (length (a_recs a)) < 2^32 -> exists l contents, small l /\ archive_of l (fetch_of contents) a /\ archives_items w' items l contents).
Proof.
  intros fuel w o w' inputs fl items [Hc Hfl Hfo [flags Hcm] (d & x & Hout & Hdir & Hforce) Hbase Hg Hnl Hap] Hlist (q & i & lines & Hq & Hr & F & Hsep & Hdata).
  assert (Hchk : check_output_path_writable w (o_out o) (o_force o) = Ok tt).
  { unfold check_output_path_writable. change (out_comps w (o_out o)) with (from_root w (o_out o)).
    apply is_dir_path_spec in Hdir. destruct (from_root w (o_out o)) as [|c0 r1]; [now destruct d|].
    rewrite Hout, removelast_last, Hdir. cbn [negb].
    destruct (exists_path w (o_out o)) eqn:Ee; [|reflexivity]. apply exists_spec in Ee. now rewrite (Hforce Ee). }
  assert (Hm : exists m, create_concat (o_concat o) = Ok m).
  { pose proof (C46_concat flags) as H. destruct flags as [|f0 [|]]; [| |congruence]; destruct H as (f & H1 & H2); rewrite Hcm in H1; injection H1 as ->; eauto. }
  destruct Hm as [m Hm].
  assert (Hb : match o_base o with Some d => chdir w d | None => Ok w end = Ok w').
  { unfold entered in Hbase. destruct (o_base o) as [dd|]; [|now subst]. destruct Hbase as [H1 H2]. unfold chdir. rewrite H1. now rewrite <- H2. }
  destruct (printed_lines w' _ inputs items Hg Hnl (proj1 (proj2 Hlist)) lines F) as [El Hu].
  assert (Hread : read_lines (text lines) = Ok lines).
  { pose proof (C56_lines lines [] Hsep) as H. rewrite !app_nil_r in H. apply H; auto. }
  destruct (listed_added w' (match o_prefix o with Some p => p | None => [] end) inputs Hg Hap Hnl items Hlist) as (c & l & E & Ec & Hok & Har).
  assert (Hfill : fill fuel w w' o = (c, Ok tt)).
  { unfold fill. rewrite Hfl. unfold read_file. rewrite Hq, Hr. cbn [bind]. rewrite Hdata, Hread, Hfo, El. exact E. }
  assert (Hfin : exists a, finalize c = Some a).
  { unfold finalize, write_archive. rewrite Ec. destruct (layout_ok (after l) (run_adds_inv l)) as (ord & -> & _). eauto. }
  destruct Hfin as [a Hfin]. exists m, a. split.
  { unfold create. now rewrite Hc, Hchk, Hb, Hm, Hfill, Hfin. }
  intros Hn. exists l, (cr_contents c). unfold finalize in Hfin. rewrite Ec in Hfin. split; [eapply archive_small; eauto|]. auto.
Qed.
Print Assumptions C82_listed.

Lemma items_all w inputs items l contents : found_all w inputs items -> archives_items w items l contents -> archives w inputs l contents.
Proof.
  intros [(_ & Hin & _) Hall] [H1 H2]. split.
  - intros x q n Hx Hn Hne. apply (H1 x q n); auto. eauto.
  - intros p nd Hh. destruct (H2 p nd Hh) as [(x & q & n & Hi & G)|(G1 & G2 & x & q & y & t & Hi & G3)].
    + left. exists x, q, n. split; [now apply (Hin x q)|exact G].
    + right. split; [exact G1|]. split; [exact G2|]. exists x, y, t. split; [now apply (Hin x q)|exact G3].
Qed.

(** With the complete list, the archive has the table of the recursive creation: no reader (C65) can tell them
    apart. *)
Theorem C82_find : forall fuel w o1 a1 o2 w' inputs fl items,
  created_archive w o1 w' inputs a1 -> proper_list w o2 w' inputs fl -> found_all w' inputs items -> holds_lines w fl items ->
  exists m a2, create fuel w true o2 = ([Opened m; Written a2], Ok tt) /\
    (N.of_nat (length (a_recs a2)) < 2^32 -> same_table a1 a2).
Proof.
  intros fuel w o1 a1 o2 w' inputs fl items K1 K2 Hall Hlines.
  destruct (C82_listed fuel w o2 w' inputs fl items K2 (proj1 Hall) Hlines) as (m & a2 & E & Hs). exists m, a2. split; [exact E|]. intros Hn.
  destruct (Hs Hn) as (l2 & c2 & S2 & E2 & A2). apply (items_all _ _ _ _ _ Hall) in A2.
  destruct (created_session _ _ _ _ _ K1) as (l1 & c1 & S1 & E1 & A1).
  assert (G : forall l c l' c', archives w' inputs l c -> archives w' inputs l' c' -> forall p nd, has l p nd ->
    exists nd', has l' p nd' /\ like_node (fetch_of c) nd (fetch_of c') nd').
  { intros l c l' c' A A' p nd Hh. pose proof (has_nonempty _ _ _ Hh) as Hne. destruct (stored_source _ _ _ _ A _ _ Hh) as [(q & n & Hsrc & Hm)|[-> Hmade]].
    - destruct (source_stored _ _ _ _ A' _ _ _ Hsrc Hne) as (nd' & Hh' & Hm'). exists nd'. split; [exact Hh'|]. eapply same_mirrors; eauto.
      repeat split. destruct n; auto.
    - destruct (made_stored _ _ _ _ A' p Hmade) as (mt & Hd). exists (KDir, mt). split; [exact Hd|].
      destruct (stored_source _ _ _ _ A' _ _ Hd) as [(q & n & Hsrc & _)|[Eq _]].
      + exfalso. eapply not_source_and_made; [apply (pl_apart _ _ _ _ _ K2)|exact Hsrc|exact Hmade].
      + injection Eq as ->. split; reflexivity. }
  apply (same_session l1 (fetch_of c1) a1 l2 (fetch_of c2) a2); auto.
  - apply G; auto.
  - intros p n2 H. destruct (G l2 c2 l1 c1 A2 A1 p n2 H) as (n1 & Hn1 & _). eauto.
Qed.
Print Assumptions C82_find.

(** The hypotheses are met by [find src > lst] on the tree of C38, in the order of the OS, and
    [arx create -L lst]. *)
Definition find_fs (lines : list bytes) : hostfs := host_of (([b "h"; b "lst"], HFile 3) :: src_names) [b "hello"; b "xyz"; []; text lines].
Definition find_world (lines : list bytes) : world := mkWorld (find_fs lines) src_attr src_list [b "h"].
Definition find_lines : list bytes := [b "src"; b "src/z"; b "src/a"; b "src/a/f.txt"; b "src/a/l"].
Definition find_input : input := mkInput (b "src") src_root HDir [b "src"] 2.
Definition find_items : list (input * path) :=
  [(find_input, []); (find_input, [b "z"]); (find_input, [b "a"]); (find_input, [b "a"; b "f.txt"]); (find_input, [b "a"; b "l"])].
Definition o_find : create_opts := mkOpts false (b "out.arx") None None [] (Some (b "lst")) true None false false.
Definition o_walk : create_opts := mkOpts false (b "out.arx") None None [b "src"] None true None false false.

Lemma find_names lines p : h_names (find_fs lines) (src_root ++ p) = h_names src_fs (src_root ++ p).
Proof. reflexivity. Qed.
Lemma find_tree lines : source_tree (find_world lines) src_root 2.
Proof.
  destruct src_tree as [H1 H2 H3 H4 H5 H6]. cbn [src_world w_fs w_list w_attr] in *.
  constructor; cbn [find_world w_fs w_list w_attr]; intros *; rewrite ?find_names.
  - apply H1.
  - intros H. destruct (H2 p H) as (names & E & Hnd & Hn). exists names. split; [exact E|]. split; [exact Hnd|]. intros n. rewrite find_names. apply Hn.
  - apply H3.
  - apply H4.
  - apply H5.
  - apply H6.
Qed.

Lemma find_good lines : good_input (find_world lines) [] find_input.
Proof.
  split; [vm_compute; auto|]. split; [reflexivity|]. split.
  { constructor; [apply ordinaryb_spec; reflexivity|constructor]. }
  split; [vm_compute; reflexivity|]. exact (find_tree lines).
Qed.

Lemma find_there lines x q n : In x [find_input] -> at_input (find_world lines) x q n -> In (x, q) find_items.
Proof.
  intros [<-|[]] H. destruct q as [|y q]; [left; reflexivity|]. destruct H as [_ H]. cbn [find_world w_fs find_input in_root] in H.
  rewrite find_names in H. apply src_cases in H.
  destruct H as [[H _]|[[-> _]|[[-> _]|[[-> _]|[-> _]]]]]; [discriminate H| | | |]; unfold find_items; cbn [In]; auto 10.
Qed.

Fixpoint parents_first (seen paths : list path) : bool :=
  match paths with
  | [] => true
  | p :: r => match rev p with [] => true | _ :: t => existsb (path_eqb' (rev t)) seen end && parents_first (p :: seen) r
  end.
Lemma parents_listed (i : input) paths : forall seen, parents_first seen paths = true -> forall l1 x q n l2,
  map (pair i) paths = l1 ++ (x, q ++ [n]) :: l2 -> In (x, q) (map (pair i) seen ++ l1).
Proof.
  induction paths as [|p r IH]; intros seen H l1 x q n l2 E; [destruct l1; discriminate E|].
  cbn [parents_first map] in H, E. apply andb_true_iff in H as [H1 H2]. destruct l1 as [|y l1]; cbn [app] in E; injection E.
  - intros _ Ep Ei. rewrite Ep, rev_app_distr in H1. cbn [rev app] in H1. apply existsb_exists in H1 as (z & Hz & Hq).
    apply path_eqb'_true in Hq. rewrite rev_involutive in Hq. subst z x. rewrite app_nil_r. now apply in_map.
  - intros Er Ey. specialize (IH _ H2 _ _ _ _ _ Er). cbn [map app] in IH. destruct IH as [IH|IH].
    + apply in_or_app. right. left. congruence.
    + apply in_app_or in IH as [IH|IH]; apply in_or_app; [now left|right; now right].
Qed.

Example C82_meets_hypotheses : let w := find_world find_lines in exists a1 m a2,
  created_archive w o_walk w [find_input] a1 /\ proper_list w o_find w [find_input] (b "lst") /\
  found_all w [find_input] find_items /\ holds_lines w (b "lst") find_items /\
  create 0 w true o_find = ([Opened m; Written a2], Ok tt) /\ N.of_nat (length (a_recs a2)) < 2^32 /\
  map r_name (a_recs a2) = [b "src"; b "a"; b "z"; b "f.txt"; b "l"].
Proof.
  intros w. eexists. eexists. eexists.
  assert (Hout : exists d x, from_root w (b "out.arx") = d ++ [x] /\ is_directory w d /\ (leads_to_something w (b "out.arx") -> false = true)).
  { exists [b "h"], (b "out.arx"). split; [reflexivity|]. split; [eexists; vm_compute; reflexivity|].
    intros (q & n & H). vm_compute in H. discriminate H. }
  assert (Hg : Forall (good_input w []) [find_input]) by (constructor; [apply find_good|constructor]).
  assert (Hap : apart [find_input]) by (repeat constructor).
  split.
  { split.
    - constructor; try exact Hout; try exact Hg; try exact Hap; try reflexivity. exists []. reflexivity.
    - split; [|exists 3%nat; eexists; split; [repeat constructor|]; split; [vm_compute; reflexivity|right; left; reflexivity]].
      vm_compute. reflexivity. }
  split.
  { constructor; try exact Hout; try exact Hg; try exact Hap; try reflexivity. { exists []. reflexivity. }
    intros x [<-|[]]. vm_compute. reflexivity. }
  split.
  { split; [|intros x q n; apply find_there]. split.
    - unfold find_items. repeat (apply NoDup_cons; [cbn [In]; intros H; repeat (destruct H as [H|H]; [discriminate H|]); exact H|]). apply NoDup_nil.
    - split.
      + intros x q H. unfold find_items in H. cbn [In] in H.
        destruct H as [H|[H|[H|[H|[H|[]]]]]]; injection H as <- <-; (split; [left; reflexivity|]); eexists; (reflexivity || (split; reflexivity)).
      + intros l1 x q n l2 E.
        apply (parents_listed find_input [[]; [b "z"]; [b "a"]; [b "a"; b "f.txt"]; [b "a"; b "l"]] [] eq_refl l1 x q n l2 E). }
  split.
  { exists [b "h"; b "lst"], 3, find_lines. split; [vm_compute; reflexivity|]. split; [reflexivity|]. split.
    - unfold find_items, find_lines.
      assert (Hns : ~ ends_in_slash (b "src")).
      { intros [t H]. change (b "src") with ([115; 114] ++ [99]) in H. apply app_inj_tail in H as [_ H]. discriminate H. }
      assert (Hb : forall q, q <> [] -> prints (b "src") q (b "src" ++ 47 :: join q)) by (intros q Hq; now apply pr_below).
      apply Forall2_cons; [exact (pr_self (b "src"))|].
      repeat (apply Forall2_cons; [apply Hb; discriminate|]). apply Forall2_nil.
    - split; [|reflexivity]. intros s Hs. unfold find_lines in Hs. cbn [In] in Hs.
      destruct Hs as [<-|[<-|[<-|[<-|[<-|[]]]]]]; (split; [vm_compute; intuition discriminate|]); intros t H;
        apply (f_equal (fun l => List.last l 0)) in H; rewrite last_last in H; vm_compute in H; discriminate H. }
  split; [vm_compute; reflexivity|]. split; vm_compute; reflexivity.
Qed.

(** "A directory before what it contains" is needed: the list of [find -depth] prints every directory after its
    content; the creation succeeds, but the directories are stored with the metadata of a made-up parent. *)
Definition depth_lines : list bytes := [b "src/z"; b "src/a/f.txt"; b "src/a/l"; b "src/a"; b "src"].
Theorem C82_depth_refuted : exists lines o m a, (forall s, In s lines <-> In s find_lines) /\
  create 0 (find_world lines) true o = ([Opened m; Written a], Ok tt) /\
  (forall q, FsAdder.at_uid (w_attr (find_world lines) q) = 1001) /\
  map (fun r => (r_name r, r_owner r)) (a_recs a) = [(b "src", 1000); (b "a", 1000); (b "z", 1001); (b "f.txt", 1001); (b "l", 1001)].
Proof.
  exists depth_lines, o_find. eexists. eexists. split.
  { intros s. unfold depth_lines, find_lines. cbn [In]. tauto. }
  split; [vm_compute; reflexivity|]. split; [reflexivity|]. vm_compute. reflexivity.
Qed.
Print Assumptions C82_depth_refuted.
