(** C85: links lead to the same things in the tree archived, in an extraction and in a mount. *)
From Verif Require Export SpecLinks PropRemount.

Lemma removelast_snoc {A} (l : list A) x : removelast (l ++ [x]) = l.
Proof. apply removelast_last. Qed.

Lemma same_way_namei f root g out : (forall q, q <> [] -> same_at f (root ++ q) g (out ++ q)) ->
  forall k cur comps, stays_in f root k cur comps ->
  same_way f root (namei k f true (root ++ cur) comps) g out (namei k g true (out ++ cur) comps).
Proof.
  intros Hsame k cur comps H.
  assert (Hd : forall c, c <> b "." -> bytes_eqb c (b ".") = false) by (intros c Hc; now destruct (bytes_eqb_spec c (b "."))).
  assert (Hdd : forall c, c <> b ".." -> bytes_eqb c (b "..") = false) by (intros c Hc; now destruct (bytes_eqb_spec c (b ".."))).
  assert (Hat : forall cur c, same_at f (root ++ cur ++ [c]) g (out ++ cur ++ [c])) by (intros u c; apply Hsame; now destruct u).
  induction H as [k cur|k cur r H IH|k cur x r H IH|k cur c r H1 H2 Hn|k cur c r i H1 H2 Hn|k cur c r H1 H2 Hn H IH|k cur c r t m H1 H2 Hn Ha H IH|cur c r t m H1 H2 Hn].
  - destruct k; cbn; exists cur, HDir; repeat split.
  - destruct k; exact IH.
  - replace (namei k f true (root ++ cur ++ [x]) (b ".." :: r)) with (namei k f true (root ++ cur) r).
    + replace (namei k g true (out ++ cur ++ [x]) (b ".." :: r)) with (namei k g true (out ++ cur) r); [exact IH|].
      rewrite app_assoc. destruct k; cbn [namei]; rewrite removelast_snoc; reflexivity.
    + rewrite app_assoc. destruct k; cbn [namei]; rewrite removelast_snoc; reflexivity.
  - specialize (Hat cur c). unfold same_at in Hat. rewrite Hn in Hat.
    destruct k; cbn [namei]; rewrite (Hd c H1), (Hdd c H2), <- !app_assoc, Hn, Hat; (destruct r as [|y r]; [now exists (cur ++ [c])|reflexivity]).
  - specialize (Hat cur c). unfold same_at in Hat. rewrite Hn in Hat. destruct Hat as (j & Hj & Ej).
    destruct k; cbn [namei]; rewrite (Hd c H1), (Hdd c H2), <- !app_assoc, Hn, Hj; (destruct r as [|y r]; [|reflexivity]); exists (cur ++ [c]), (HFile j); repeat split; cbn; now symmetry.
  - specialize (Hat cur c). unfold same_at in Hat. rewrite Hn in Hat.
    destruct k; cbn [namei]; rewrite (Hd c H1), (Hdd c H2), <- !app_assoc, Hn, Hat; exact IH.
  - specialize (Hat cur c). unfold same_at in Hat. rewrite Hn in Hat. destruct Hat as (m' & Hm).
    cbn [namei]. rewrite (Hd c H1), (Hdd c H2), <- !app_assoc, Hn, Hm, Ha. destruct r as [|y r]; exact IH.
  - specialize (Hat cur c). unfold same_at in Hat. rewrite Hn in Hat. destruct Hat as (m' & Hm).
    cbn [namei]. rewrite (Hd c H1), (Hdd c H2), <- !app_assoc, Hn, Hm. destruct r as [|y r]; reflexivity.
Qed.

(** [arx create] of a directory, then [arx extract] into an empty one: from every directory of the tree, every path (that
    stays in the tree) leads to the same place in both, whatever links it goes through. *)
Theorem C85_extracted : forall fuel w o s root r0 depth pre d x,
  o_list_compressions o = false -> o_infiles o = [s] -> o_file_list o = None -> o_base o = None -> o_recurse o = true ->
  pre = match o_prefix o with Some p => p | None => [] end -> (exists g, parse_concat g = Some (o_concat o)) ->
  from_root w (o_out o) = d ++ [x] -> is_directory w d -> (leads_to_something w (o_out o) -> o_force o = true) ->
  stands_for s (pieces pre ++ r0) -> forallb utf8 (pieces s) = true -> Forall ordinary r0 ->
  look_str w true s = At root HDir -> source_tree w root depth -> (depth < fuel)%nat ->
  exists m a, create fuel w true o = ([Opened m; Written a], Ok tt) /\
    (N.of_nat (length (a_recs a)) < 2^32 ->
    forall w2 od out rc pol sched last g res,
    tidy (w_fs w2) -> outdir (w_fs w2) (base_of w2 od) out -> (forall p, p <> [] -> h_names (w_fs w2) (out ++ p) = None) ->
    extract_cmd w2 a od [] None None rc pol sched last = (g, res) -> quiet sched last -> res <> Diverge ->
    res = Ok tt /\
    forall cur comps, stays_in (w_fs w) root max_links cur comps ->
      same_way (w_fs w) root (look (w_fs w) true (root ++ cur, comps)) g (out ++ r0) (look g true ((out ++ r0) ++ cur, comps))).
Proof.
  intros fuel w o s root r0 depth pre d x H1 H2 H3 H4 H5 H6 H7 H8 H9 H10 H11 H12 H13 H14 H15 H16.
  destruct (C57_create_extract fuel w o s root r0 depth pre d x H1 H2 H3 H4 H5 H6 H7 H8 H9 H10 H11 H12 H13 H14 H15 H16) as (m & a & E & H).
  exists m, a. split; [exact E|]. intros Hn w2 od out rc pol sched last g res Ht Ho He Hx Hq Hd.
  destruct (H Hn w2 od out rc pol sched last g res Ht Ho He Hx Hq Hd) as (Hr & Hs & _). split; [exact Hr|].
  intros cur comps Hst. apply same_way_namei; [|exact Hst]. intros q Hq'. rewrite <- app_assoc. now apply Hs.
Qed.
Print Assumptions C85_extracted.

(** A mount of the directory of an archive that holds a tree shows the tree: the same names, bytes and targets ... *)
Theorem C85_mounted_tree : forall w root r0 arg depth l contents a rg w2 M,
  archives w [mkInput arg root HDir r0 depth] l contents ->
  mount_of l (fetch_of contents) a rg r0 -> whole l (fetch_of contents) -> narrow a -> mount_seen a rg w2 M ->
  forall q, q <> [] -> same_at (w_fs w) (root ++ q) (w_fs w2) (M ++ q).
Proof.
  intros w root r0 arg depth l contents a rg w2 M [A1 A2] HM HW Hnar Hseen q Hq.
  pose proof (seen_agrees l _ a rg r0 w2 M HM HW Hnar Hseen) as HA.
  set (x := mkInput arg root HDir r0 depth) in *.
  assert (Hat : forall n, at_input w x q n <-> h_names (w_fs w) (root ++ q) = Some n).
  { intros n. destruct q as [|y q]; [easy|]. cbn [at_input x in_node in_root]. split; [now intros [_ H]|intros H; split; [reflexivity|exact H]]. }
  unfold same_at. destruct (h_names (w_fs w) (root ++ q)) as [n|] eqn:En.
  - destruct (A1 x q n) as (nd & Hh & Hm); [now left|now apply Hat|cbn [x in_path]; intros E; apply app_eq_nil in E as [_ E]; easy|].
    destruct (ag_some _ _ _ _ _ HA q nd Hq Hh) as (n2 & Hn2 & _ & _ & _ & _ & Hk). destruct Hm as (_ & _ & _ & _ & Hm). destruct n as [|i|t mt].
    + rewrite Hm in Hk. now subst n2.
    + destruct Hm as (addr & Ek & Hf). rewrite Ek in Hk. destruct Hk as (j & -> & Hf2 & _). exists j. split; [exact Hn2|]. rewrite Hf in Hf2. now injection Hf2 as ->.
    + rewrite Hm in Hk. destruct Hk as [m ->]. now exists m.
  - apply (ag_none _ _ _ _ _ HA q Hq). intros nd Hh. destruct (A2 _ _ Hh) as [(y & q' & n & [<-|[]] & Ep & Hn & _)|(_ & _ & y & z & t & [<-|[]] & Ep)]; cbn [x in_path] in Ep.
    + apply app_inv_head in Ep. subst q'. apply Hat in Hn. discriminate Hn.
    + rewrite <- (app_nil_r r0) in Ep at 1. rewrite <- app_assoc in Ep. apply app_inv_head in Ep. destruct q; [easy|discriminate Ep].
Qed.
Print Assumptions C85_mounted_tree.

(** ... and paths lead to the same places. *)
Theorem C85_mounted : forall w root r0 arg depth l contents a rg w2 M,
  archives w [mkInput arg root HDir r0 depth] l contents ->
  mount_of l (fetch_of contents) a rg r0 -> whole l (fetch_of contents) -> narrow a -> mount_seen a rg w2 M ->
  forall cur comps, stays_in (w_fs w) root max_links cur comps ->
    same_way (w_fs w) root (look (w_fs w) true (root ++ cur, comps)) (w_fs w2) M (look (w_fs w2) true (M ++ cur, comps)).
Proof.
  intros w root r0 arg depth l contents a rg w2 M H1 H2 H3 H4 H5 cur comps Hst. apply same_way_namei; [|exact Hst].
  exact (C85_mounted_tree w root r0 arg depth l contents a rg w2 M H1 H2 H3 H4 H5).
Qed.
Print Assumptions C85_mounted.

(** An absolute link into the tree leads out of the copy, to the original. *)
Definition abs_names : list (path * hnode) :=
  [([b "h"], HDir); ([b "h"; b "src"], HDir); ([b "h"; b "src"; b "l"], HLink (b "/h/src/z") 7%Z); ([b "h"; b "src"; b "z"], HFile 0)].
Definition abs_world : world :=
  mkWorld (host_of abs_names [b "xyz"]) (fun _ => FsAdder.mkAttr 1001 100 33188 1234567%Z false true)
    (fun q => if path_eqb' q [b "h"; b "src"] then Some [b "z"; b "l"] else Some []) [b "h"].
Theorem C85_absolute_refuted : exists a g,
  create 3 abs_world true o_src = ([Opened OneFile; Written a], Ok tt) /\
  extract_cmd abs_world a (Some (b "out")) [] None None false Warn idle all_turns = (g, Ok tt) /\
  look (w_fs abs_world) true (src_root, [b "l"]) = At (src_root ++ [b "z"]) (HFile 0) /\
  has_file g ([b "h"; b "out"; b "z"]) (b "xyz") /\
  look g true ([b "h"; b "out"], [b "l"]) = At (src_root ++ [b "z"]) (HFile 0).
Proof.
  eexists. eexists. split; [vm_compute; reflexivity|]. split; [vm_compute; reflexivity|]. split; [vm_compute; reflexivity|].
  split; [eexists; split; vm_compute; reflexivity|]. vm_compute. reflexivity.
Qed.
Print Assumptions C85_absolute_refuted.

(** The hypotheses are met: "../a/./l" from the directory a of the demo tree goes up, through a link, to f.txt. *)
Example C85_meets_hypotheses : exists a g, create 3 src_world true o_src = ([Opened OneFile; Written a], Ok tt) /\ source_tree src_world src_root 2 /\
  extract_cmd t_world a (Some (b "out")) [] None None false Warn idle all_turns = (g, Ok tt) /\
  stays_in (w_fs src_world) src_root max_links [b "a"] [b ".."; b "a"; b "."; b "l"] /\
  look (w_fs src_world) true (src_root ++ [b "a"], [b ".."; b "a"; b "."; b "l"]) = At (src_root ++ [b "a"; b "f.txt"]) (HFile 0) /\
  exists i, look g true (at_out ++ [b "a"], [b ".."; b "a"; b "."; b "l"]) = At (at_out ++ [b "a"; b "f.txt"]) (HFile i).
Proof.
  eexists. eexists. split; [vm_compute; reflexivity|]. split; [exact src_tree|]. split; [vm_compute; reflexivity|]. split.
  - apply (stay_up _ _ _ [] (b "a")). apply stay_dir; [discriminate|discriminate|vm_compute; reflexivity|]. apply stay_dot.
    apply (stay_link _ _ 39 _ (b "l") [] (b "f.txt") 7%Z); [discriminate|discriminate|vm_compute; reflexivity|vm_compute; reflexivity|].
    change (pieces (b "f.txt") ++ []) with [b "f.txt"]. apply (stay_file _ _ _ _ _ _ 0); [discriminate|discriminate|vm_compute; reflexivity].
  - split; [vm_compute; reflexivity|]. eexists. vm_compute. reflexivity.
Qed.

(** For the mount: the demo tree at /h/m of another host. *)
Definition m_data : list bytes := [b "hello"; b "xyz"].
Definition m_arx : archive := mkArchive (a_recs demo_arx) (a_root demo_arx) (a_entries demo_arx) (fetch_of m_data).
Definition m_source : world :=
  mkWorld mnt_fs (fun q => match lookup_name mnt_names q with
                           | Some HDir => FsAdder.mkAttr 1000 1000 493 0%Z false true
                           | _ => FsAdder.mkAttr 1001 100 420 1234567%Z false true
                           end) mnt_list [b "h"].
Lemma m_fetch p size addr mt : has demo p (KFile size addr, mt) -> fetch_of m_data addr = demo_fetch addr.
Proof. intros H. apply demo_exact in H. destruct H as [E|[E|[E|[E|[E|[]]]]]]; try discriminate E; injection E as <- <- <- <-; reflexivity. Qed.
Lemma m_built : archive_of demo (fetch_of m_data) m_arx.
Proof. unfold archive_of. vm_compute. reflexivity. Qed.
Lemma m_mount : mount_of demo (fetch_of m_data) m_arx (a_root m_arx) [].
Proof. split; [exact demo_small|]. split; [exact m_built|]. now left. Qed.
Lemma m_whole : whole demo (fetch_of m_data).
Proof.
  intros p nd Hh. destruct (demo_whole p nd Hh) as (H1 & H2 & H3). split; [exact H1|]. split; [exact H2|].
  destruct nd as [[|size addr|t] mt]; cbn [fst] in *; [exact H3| |exact H3]. rewrite (m_fetch _ _ _ _ Hh). exact H3.
Qed.
Example C85_mounted_meets : archives m_source [mkInput (b "m") mnt HDir [] 3] demo m_data /\
  mount_of demo (fetch_of m_data) m_arx (a_root m_arx) [] /\ whole demo (fetch_of m_data) /\ narrow m_arx /\
  mount_seen m_arx (a_root m_arx) (mnt_world mnt) mnt /\
  stays_in (w_fs m_source) mnt max_links [] [b "l"; b "f.txt"] /\
  look (w_fs (mnt_world mnt)) true (mnt, [b "l"; b "f.txt"]) = At (mnt ++ [b "a"; b "b"; b "f.txt"]) (HFile 0).
Proof.
  assert (Hc : forall q n, h_names mnt_fs (mnt ++ q) = Some n -> q <> [] -> exists nd, In (q, nd) demo_nodes) by exact mnt_cases.
  split; [|split; [exact m_mount|split; [exact m_whole|split; [reflexivity|split; [|split]]]]].
  - split.
    + intros x q n [<-|[]] Hq Hne. cbn [in_path app] in *. destruct q as [|y q]; [easy|]. destruct Hq as [_ Hq]. cbn [in_root] in Hq.
      destruct (Hc _ _ Hq (fun E => ltac:(discriminate E))) as [nd Hi]. exists nd. split; [now apply demo_exact|]. cbn [m_source w_fs] in Hq.
      destruct Hi as [E|[E|[E|[E|[E|[]]]]]]; injection E as <- <- <-; vm_compute in Hq; injection Hq as <-;
        (split; [reflexivity|]; split; [reflexivity|]; split; [reflexivity|]; split; [reflexivity|]); try reflexivity; eexists; split; reflexivity.
    + intros p nd Hh. apply demo_exact in Hh. left. exists (mkInput (b "m") mnt HDir [] 3), p.
      destruct Hh as [E|[E|[E|[E|[E|[]]]]]]; injection E as <- <-; eexists; (split; [now left|]; split; [reflexivity|]; split; [split; reflexivity|]);
        (split; [reflexivity|]; split; [reflexivity|]; split; [reflexivity|]; split; [reflexivity|]); try reflexivity; eexists; split; reflexivity.
  - apply (agrees_seen demo (fetch_of m_data) m_arx (a_root m_arx) []); [exact m_mount|exact m_whole|reflexivity|].
    pose proof (seen_agrees demo demo_fetch demo_arx (a_root demo_arx) [] (mnt_world mnt) mnt demo_mount demo_whole eq_refl (mnt_seen mnt)) as HA.
    constructor; [exact (ag_none _ _ _ _ _ HA)| |exact (ag_list _ _ _ _ _ HA)].
    intros q nd Hq Hh. destruct (ag_some _ _ _ _ _ HA q nd Hq Hh) as (n & Hn & K1 & K2 & K3 & K4 & K5). exists n. split; [exact Hn|].
    split; [exact K1|]. split; [exact K2|]. split; [exact K3|]. split; [exact K4|]. destruct nd as [[|size addr|t] mt]; cbn [fst] in *; [exact K5| |exact K5].
    cbn [app] in Hh. rewrite (m_fetch _ _ _ _ Hh). exact K5.
  - apply (stay_link _ _ 39 [] (b "l") [b "f.txt"] (b "a/b") 1234567%Z); [discriminate|discriminate|vm_compute; reflexivity|vm_compute; reflexivity|].
    change (pieces (b "a/b") ++ [b "f.txt"]) with [b "a"; b "b"; b "f.txt"].
    do 2 (apply stay_dir; [discriminate|discriminate|vm_compute; reflexivity|]). apply (stay_file _ _ _ _ _ _ 0); [discriminate|discriminate|vm_compute; reflexivity].
  - vm_compute. reflexivity.
Qed.
