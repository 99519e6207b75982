(** C71: a successful [arx create] archived what it was asked, whatever the host. *)
From Verif Require Export FaithfulFacts PropCreated.

Local Ltac bad := let H := fresh in intros H; discriminate H.

(** The system lists proper names (never "." nor ".."). *)
Definition proper_listing (w : world) : Prop := forall q names n, w_list w q = Some names -> In n names -> ordinary n.
(** Every directory that the creation meets can be listed. *)
Definition all_listable (w : world) (o : create_opts) : Prop :=
  o_file_list o = None -> o_recurse o = true ->
  forall x d q, In x (o_infiles o) -> walked w true x d -> enters w x d q -> w_list w q <> None.
Notation prefix_of o := (match o_prefix o with Some s => s | None => [] end) (only parsing).

Lemma fill_takes fuel w w' o files c : fill fuel w w' o = (c, Ok tt) -> lines_of w o files -> proper_listing w' ->
  exists l, cr_entries c = after l /\ all_ok l /\ only_from w' (prefix_of o) (taken w' o files) l (cr_contents c) /\
    (all_listable w' o -> all_of w' (prefix_of o) (taken w' o files) l (cr_contents c)).
Proof.
  intros Hfill Hlines Hnames. unfold fill in Hfill. unfold lines_of in Hlines. unfold taken, all_listable. destruct (o_file_list o) as [fl|] eqn:Efl.
    - destruct Hlines as (q & i & ls & Hq & Hl1 & Hl2 & ->). assert (Hl : read_lines (h_data (w_fs w) i) = Ok ls) by (apply read_lines_spec; auto). unfold read_file in Hfill. rewrite Hq in Hfill.
      destruct (at_readable (w_attr w q)); cbn [bind] in Hfill; [|discriminate Hfill]. rewrite Hl in Hfill. unfold add_from_list in Hfill.
      apply (filled_each w' _ _ []) in Hfill; [|apply filled_nil]. cbn [app] in Hfill. destruct Hfill as (l & H1 & H2 & H3 & H4).
      exists l. split; [exact H1|]. split; [exact H2|].
      assert (Hiff : forall s f, from_list (map (fun s => (s, o_follow o)) ls) s f <-> In s ls /\ f = o_follow o).
      { intros s f. unfold from_list. rewrite in_map_iff. split; [intros (x & Hx & Hin); injection Hx as -> <-; auto|intros [Hin ->]; eauto]. }
      split; [|intros _]; eapply from_mono; eauto.
    - subst files. destruct (existsb is_abs (o_infiles o)) eqn:Eabs; [discriminate Hfill|].
      destruct (check_input_paths_exist w' (o_infiles o)) as [u| | |] eqn:Echk; try discriminate Hfill.
      assert (Hx : Forall (fun x => is_abs x = false /\ exists q n, look_str w' true x = At q n) (o_infiles o)).
      { unfold check_input_paths_exist in Echk. destruct (forallb (exists_path w') (o_infiles o)) eqn:Eex; [|discriminate Echk].
        apply Forall_forall. intros x Hin. split.
        - destruct (is_abs x) eqn:Ex; auto. assert (existsb is_abs (o_infiles o) = true) by (apply existsb_exists; eauto). congruence.
        - rewrite forallb_forall in Eex. specialize (Eex x Hin). unfold exists_path in Eex. destruct (look_str w' true x) as [q n| |] eqn:Eq; [|discriminate Eex|discriminate Eex]. eauto. }
      destruct (infiles_filled w' _ (o_recurse o) Hnames fuel (o_infiles o) [] _ _ Hx (filled_nil _ _) Hfill) as (S & (l & H1 & H2 & H3 & H4) & G1 & G2).
      cbn [app] in *. exists l. split; [exact H1|]. split; [exact H2|]. split.
      + eapply only_from_weaken; [|exact H3]. intros s f Hs. now apply G1.
      + intros HL s f (x & Hin & Hv & Hf). apply H4. eapply G2; eauto. intros y Hy d q Hrc Hd He. rewrite Hrc in *. eapply HL; eauto.
Qed.

Lemma succeeded fuel w can_open o w' files evs : create fuel w can_open o = (evs, Ok tt) -> o_list_compressions o = false ->
  entered w (o_base o) w' -> lines_of w o files -> proper_listing w' ->
  exists m a l contents, evs = [Opened m; Written a] /\ archive_of l (fetch_of contents) a /\ all_ok l /\
    only_from w' (prefix_of o) (taken w' o files) l contents /\
    (all_listable w' o -> all_of w' (prefix_of o) (taken w' o files) l contents).
Proof.
  intros E Hlc Hent Hlines Hnames.
  destruct (create_shape _ _ _ _ _ _ E) as [[_ H]|[(m & _ & Hr)|(m & a & c & w'' & -> & _ & Hfill & Hfin & _ & Hcd)]]; [now rewrite H in Hlc|easy|].
  assert (w'' = w') as ->.
  { unfold entered in Hent. destruct (o_base o) as [d|]; [|congruence]. destruct Hent as [H1 H2]. unfold chdir in Hcd. rewrite H1 in Hcd. congruence. }
  destruct (fill_takes fuel w w' o files c Hfill Hlines Hnames) as (l & H1 & H2 & H3 & H4). exists m, a, l, (cr_contents c). split; [reflexivity|].
  unfold finalize in Hfin. rewrite H1 in Hfin. auto.
Qed.

(** Nothing is invented: everything in the archive comes from a path of the inputs. *)
Theorem C71_nothing_else : forall fuel w can_open o w' files evs a, create fuel w can_open o = (evs, Ok tt) -> In (Written a) evs ->
  entered w (o_base o) w' -> lines_of w o files -> proper_listing w' -> N.of_nat (length (a_recs a)) < 2^32 ->
  exists l contents, small l /\ archive_of l (fetch_of contents) a /\
    only_from w' (prefix_of o) (taken w' o files) l contents.
Proof.
  intros fuel w can_open o w' files evs a E Hin Hent Hlines Hnames Hn.
  assert (Hlc : o_list_compressions o = false). { destruct (o_list_compressions o) eqn:Ec; auto. unfold create in E. rewrite Ec in E. injection E as <-. destruct Hin. }
  destruct (succeeded fuel w can_open o w' files evs E Hlc Hent Hlines Hnames) as (m & a' & l & contents & -> & H1 & H2 & H3 & _).
  destruct Hin as [Hin|[Hin|[]]]; [discriminate Hin|]. injection Hin as ->. exists l, contents. split; [eapply archive_small; eauto|]. auto.
Qed.
Print Assumptions C71_nothing_else.

(** Nothing is left out, when the directories can be listed. *)
Theorem C71_everything : forall fuel w can_open o w' files evs a, create fuel w can_open o = (evs, Ok tt) -> In (Written a) evs ->
  entered w (o_base o) w' -> lines_of w o files -> proper_listing w' -> all_listable w' o -> N.of_nat (length (a_recs a)) < 2^32 ->
  exists l contents, small l /\ archive_of l (fetch_of contents) a /\
    only_from w' (prefix_of o) (taken w' o files) l contents /\ all_of w' (prefix_of o) (taken w' o files) l contents.
Proof.
  intros fuel w can_open o w' files evs a E Hin Hent Hlines Hnames HL Hn.
  assert (Hlc : o_list_compressions o = false). { destruct (o_list_compressions o) eqn:Ec; auto. unfold create in E. rewrite Ec in E. injection E as <-. destruct Hin. }
  destruct (succeeded fuel w can_open o w' files evs E Hlc Hent Hlines Hnames) as (m & a' & l & contents & -> & H1 & H2 & H3 & H4).
  destruct Hin as [Hin|[Hin|[]]]; [discriminate Hin|]. injection Hin as ->. exists l, contents. split; [eapply archive_small; eauto|]. auto.
Qed.
Print Assumptions C71_everything.

(** One path that cannot be archived is enough to fail, and then no archive is written: a path outside
    the prefix or absolute, or one that leads nowhere or to a regular file that cannot be read. *)
Theorem C71_one_bad_path : forall fuel w can_open o w' files s follow, o_list_compressions o = false ->
  entered w (o_base o) w' -> lines_of w o files -> proper_listing w' -> all_listable w' o -> taken w' o files s follow ->
  (forall p, ~ stands_for s (pieces (prefix_of o) ++ p)) \/
  (~ stands_for s (pieces (prefix_of o)) /\
   ((forall q n, look_str w' follow s <> At q n) \/
    exists q i, look_str w' follow s = At q (HFile i) /\ at_special (w_attr w' q) = false /\ at_readable (w_attr w' q) = false)) ->
  snd (create fuel w can_open o) <> Ok tt /\ (forall a, ~ In (Written a) (fst (create fuel w can_open o))).
Proof.
  intros fuel w can_open o w' files s follow Hlc Hent Hlines Hnames HL Ht Hbad.
  destruct (create fuel w can_open o) as [evs r] eqn:E. cbn [fst snd].
  assert (Hr : r <> Ok tt).
  { intros ->. destruct (succeeded fuel w can_open o w' files evs E Hlc Hent Hlines Hnames) as (m & a' & l & contents & -> & H1 & H2 & H3 & H4).
    destruct (H4 HL s follow Ht) as (p & Hst & Hp). destruct Hbad as [Hbad|[Hne Hbad]]; [now apply Hbad in Hst|].
    assert (Hp0 : p <> []) by (intros ->; rewrite app_nil_r in Hst; now apply Hne).
    destruct (Hp Hp0) as (q & n & Hl & Hn). destruct Hbad as [Hbad|(q' & i & Hl' & Hsp & Hrd)]; [now apply Hbad in Hl|].
    rewrite Hl in Hl'. injection Hl' as -> ->. destruct Hn as [Hn|[Hn _]]; congruence. }
  split; [exact Hr|]. intros a Hin.
  destruct (create_shape _ _ _ _ _ _ E) as [[-> _]|[(m & -> & _)|(m & a' & c & w'' & _ & Hr' & _)]]; [destruct Hin|destruct Hin as [Hin|[]]; discriminate Hin|easy].
Qed.
Print Assumptions C71_one_bad_path.

(** Nor with a list that is no file, cannot be read or has a line that is not UTF-8. *)
Theorem C48_bad_list : forall fuel w can_open o fl, o_list_compressions o = false -> o_file_list o = Some fl ->
  (forall q i l, look_str w true fl = At q (HFile i) -> at_readable (w_attr w q) = true ->
     text_lines (h_data (w_fs w) i) l -> Forall (fun x => utf8 x = true) l -> False) ->
  snd (create fuel w can_open o) <> Ok tt /\ (forall a, ~ In (Written a) (fst (create fuel w can_open o))).
Proof.
  intros fuel w can_open o fl Hlc Hf Hbad. destruct (create fuel w can_open o) as [evs r] eqn:E. cbn [fst snd].
  destruct (create_shape _ _ _ _ _ _ E) as [[-> H]|[(m & -> & Hr)|(m & a' & c & w'' & _ & _ & Hfill & _)]].
  - split; [intros ->; rewrite H in Hlc by reflexivity; discriminate Hlc|intros a []].
  - split; [exact Hr|]. intros a [Hin|[]]. discriminate Hin.
  - exfalso. unfold fill in Hfill. rewrite Hf in Hfill. destruct (read_file w fl) as [d| | |] eqn:Er; cbn [bind] in Hfill; try discriminate Hfill.
    destruct (read_lines d) as [ls| | |] eqn:El; try discriminate Hfill. apply read_lines_spec in El as [H1 H2].
    unfold read_file in Er. destruct (look_str w true fl) as [q [|i|t m']|q|e] eqn:Eq; try discriminate Er.
    destruct (at_readable (w_attr w q)) eqn:Ea; [|discriminate Er]. injection Er as <-. eapply Hbad; eauto.
Qed.
Print Assumptions C48_bad_list.

Lemma src_listing fs at_ cwd : proper_listing (mkWorld fs at_ src_list cwd).
Proof.
  intros q names n. cbn [w_list]. unfold src_list. destruct (path_eqb' q [b "h"; b "src"]); [|destruct (path_eqb' q [b "h"; b "src"; b "a"])];
    intros H; injection H as <-; cbn [In]; intros Hn; repeat (destruct Hn as [<-|Hn]; [apply ordinaryb_spec; reflexivity|]); destruct Hn.
Qed.
Lemma src_listable fs at_ cwd o : all_listable (mkWorld fs at_ src_list cwd) o.
Proof.
  intros _ _ x d q _ _ _. cbn [w_list]. unfold src_list. destruct (path_eqb' q [b "h"; b "src"]); [discriminate|]. destruct (path_eqb' q [b "h"; b "src"; b "a"]); discriminate.
Qed.

(** The tree "src", the list of two files of C48, and the tree with a file that cannot be read. *)
Definition secret_attr (q : path) : FsAdder.attr := FsAdder.mkAttr 1001 100 33188 1234567%Z false (negb (path_eqb' q [b "h"; b "src"; b "a"; b "f.txt"])).
Definition secret_world : world := mkWorld src_fs secret_attr src_list [b "h"].
Example C71_meets_hypotheses :
  (exists a, create 3 src_world true o_src = ([Opened OneFile; Written a], Ok tt) /\ N.of_nat (length (a_recs a)) < 2^32) /\
  proper_listing src_world /\ all_listable src_world o_src /\ lines_of src_world o_src None /\
  taken src_world o_src None (b "src/a/l") false /\ stands_for (b "src/a/l") (pieces (b "src") ++ [b "a"; b "l"]) /\
  look_str src_world false (b "src/a/l") = At (src_root ++ [b "a"; b "l"]) (HLink (b "f.txt") 7%Z) /\
  (exists a, create 0 lst_world true o_lst = ([Opened OneFile; Written a], Ok tt)) /\
  lines_of lst_world o_lst (Some [b "src/a"; b "src/z"]) /\ taken lst_world o_lst (Some [b "src/a"; b "src/z"]) (b "src/z") false /\
  proper_listing secret_world /\ all_listable secret_world o_src /\ taken secret_world o_src None (b "src/a/f.txt") false /\
  look_str secret_world false (b "src/a/f.txt") = At (src_root ++ [b "a"; b "f.txt"]) (HFile 0) /\
  at_readable (w_attr secret_world (src_root ++ [b "a"; b "f.txt"])) = false /\
  snd (create 3 secret_world true o_src) <> Ok tt.
Proof.
  assert (Hw : forall at_ n, In n [b "f.txt"; b "l"] -> walked (mkWorld src_fs at_ src_list [b "h"]) true (b "src") (path_join (b "src/a") n)).
  { intros at_ n Hn. eapply (vis_below _ _ _ (b "src/a") (src_root ++ [b "a"]) [b "f.txt"; b "l"]); [reflexivity| |right; vm_compute; reflexivity|reflexivity|exact Hn].
    change (b "src/a") with (path_join (b "src") (b "a")).
    eapply (vis_below _ _ _ (b "src") src_root [b "z"; b "a"]); [reflexivity|constructor|right; vm_compute; reflexivity|reflexivity|right; now left]. }
  split; [eexists; split; [vm_compute; reflexivity|vm_compute; reflexivity]|]. split; [apply src_listing|]. split; [apply src_listable|]. split; [reflexivity|].
  split. { exists (b "src"). split; [now left|]. split; [apply (Hw src_attr (b "l")); right; now left|]. split; [bad|discriminate]. }
  split; [split; vm_compute; reflexivity|]. split; [vm_compute; reflexivity|]. split; [eexists; vm_compute; reflexivity|].
  split. { exists [b "h"; b "lst"], 3, [b "src/a"; b "src/z"]. split; [vm_compute; reflexivity|]. rewrite <- and_assoc, <- read_lines_spec. split; [vm_compute; reflexivity|reflexivity]. }
  split; [split; [right; now left|reflexivity]|]. split; [apply src_listing|]. split; [apply src_listable|].
  split. { exists (b "src"). split; [now left|]. split; [apply (Hw secret_attr (b "f.txt")); now left|]. split; [bad|discriminate]. }
  split; [vm_compute; reflexivity|]. split; [vm_compute; reflexivity|]. vm_compute. discriminate.
Qed.

(** Lists that cannot be used: unreadable, not UTF-8, missing. *)
Definition hid_attr (q : path) : FsAdder.attr := FsAdder.mkAttr 1001 100 33188 1234567%Z false (negb (path_eqb' q [b "h"; b "lst"])).
Definition bad_fs : hostfs := host_of (([b "h"; b "lst"], HFile 3) :: src_names) [b "hello"; b "xyz"; []; [115; 255; 10]].
Example C48_bad_list_meets :
  (look_str (mkWorld lst_fs hid_attr src_list [b "h"]) true (b "lst") = At [b "h"; b "lst"] (HFile 3) /\ at_readable (hid_attr [b "h"; b "lst"]) = false) /\
  (text_lines (h_data bad_fs 3) [[115; 255]] /\ utf8 [115; 255] = false) /\
  text_lines (h_data lst_fs 3) [b "src/a"; b "src/z"].
Proof.
  split; [split; [vm_compute; reflexivity|reflexivity]|]. split; [split; [apply split_lines_spec; vm_compute; reflexivity|reflexivity]|]. apply split_lines_spec. vm_compute. reflexivity.
Qed.
