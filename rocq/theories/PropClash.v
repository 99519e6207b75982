(** C99: two inputs for one place in the archive. *)
From Verif Require Export ClashFacts PropFaithful.

Local Ltac bad := let H := fresh in intros H; discriminate H.

Lemma fill_apart fuel w w' o files c : fill fuel w w' o = (c, Ok tt) -> lines_of w o files -> proper_listing w' -> all_listable w' o ->
  forall i j s fs t ft, (i < j)%nat -> taken_at w' o files i s fs -> taken_at w' o files j t ft ->
    ~ in_the_way w' (prefix_of o) s fs t ft /\ ~ in_the_way w' (prefix_of o) t ft s fs.
Proof.
  intros Hfill Hlines Hnames HL i j s fs t ft Hij Hs Ht. unfold fill in Hfill. unfold lines_of in Hlines. unfold taken_at in Hs, Ht. unfold all_listable in HL. destruct (o_file_list o) as [fl|] eqn:Efl.
  - destruct Hlines as (q & i0 & ls & Hq & Hl1 & Hl2 & ->). assert (Hl : read_lines (h_data (w_fs w) i0) = Ok ls) by (apply read_lines_spec; auto). unfold read_file in Hfill. rewrite Hq in Hfill.
    destruct (at_readable (w_attr w q)); cbn [bind] in Hfill; [|discriminate Hfill]. rewrite Hl in Hfill. unfold add_from_list in Hfill.
    destruct Hs as [Hs ->], Ht as [Ht ->]. destruct (nth_two ls i j s t Hij Hs Ht) as (l1 & l2 & l3 & ->). rewrite map_app in Hfill.
    destruct (add_each_app _ _ _ _ _ _ Hfill) as (c1 & E1 & E2).
    apply (apart_each w' _ _ _ _ _ (filled_each w' _ _ [] _ _ (filled_nil _ _) E1) E2 s (o_follow o) t (o_follow o)); cbn [app].
    + apply in_map_iff. exists s. split; [reflexivity|]. apply in_app_iff. right. now left.
    + now left.
  - subst files. destruct (existsb is_abs (o_infiles o)) eqn:Eabs; [discriminate Hfill|].
    destruct (check_input_paths_exist w' (o_infiles o)) as [u| | |] eqn:Echk; try discriminate Hfill.
    assert (Hx : Forall (fun x => is_abs x = false /\ exists q n, look_str w' true x = At q n) (o_infiles o)).
    { unfold check_input_paths_exist in Echk. destruct (forallb (exists_path w') (o_infiles o)) eqn:Eex; [|discriminate Echk].
      apply Forall_forall. intros x Hin. split.
      - destruct (is_abs x) eqn:Ex; auto. assert (existsb is_abs (o_infiles o) = true) by (apply existsb_exists; eauto). congruence.
      - rewrite forallb_forall in Eex. specialize (Eex x Hin). unfold exists_path in Eex. destruct (look_str w' true x) as [q n| |] eqn:Eq; [|discriminate Eex|discriminate Eex]. eauto. }
    destruct Hs as (x & Hs1 & Hs2 & Hs3), Ht as (y & Ht1 & Ht2 & Ht3). destruct (nth_two _ i j x y Hij Hs1 Ht1) as (l1 & l2 & l3 & El).
    assert (HLx : forall z, In z (o_infiles o) -> listable w' z (o_recurse o)).
    { intros z Hz d q Hrc Hd He. rewrite Hrc in *. eapply HL; eauto. }
    rewrite El in Hfill, Hx, HLx. destruct (add_infiles_app _ _ _ _ _ _ _ _ Hfill) as (c1 & E1 & E2).
    apply Forall_app in Hx as [Hx1 Hx2]. apply Forall_cons_iff in Hx2 as [[Hrel Hex] _].
    destruct (infiles_filled w' (prefix_of o) (o_recurse o) Hnames fuel _ [] _ _ Hx1 (filled_nil _ _) E1) as (S & Hf & _ & G). cbn [app] in Hf.
    cbn [add_infiles] in E2. destruct (add_from_path fuel w' (prefix_of o) y (o_recurse o) c1) as [c2 [[]| | |]] eqn:E; try discriminate E2.
    unfold add_from_path in E. destruct (walk fuel w' y (o_recurse o)) as [items|] eqn:Ew; [|discriminate E].
    apply (apart_each w' (prefix_of o) S c1 _ c2 Hf E).
    + apply (G (fun z Hz => HLx z (proj2 (in_app_iff _ _ _) (or_introl Hz))) s fs x); [apply in_app_iff; right; now left|exact Hs2|exact Hs3].
    + apply in_map_iff. exists t. assert (Hne : y <> []) by (intros ->; destruct Hex as (q & n & Hex); discriminate Hex). split.
      * f_equal. pose proof (walked_follow w' y Hnames (o_recurse o) t Hne Hrel Ht2) as Hiff. destruct ft; [apply Hiff, Ht3; reflexivity|]. destruct (std_path_eqb t y); [|reflexivity]. symmetry. apply Ht3, Hiff. reflexivity.
      * eapply walk_complete; eauto. apply HLx. apply in_app_iff. right. now left.
Qed.

(** A regular file or link and another thing, given by different inputs (or lines of the list), that
    would be archived at the same place or below it: the creation fails, and no archive is written. *)
Theorem C99_clash_refused : forall fuel w can_open o w' files i j s fs t ft, o_list_compressions o = false ->
  entered w (o_base o) w' -> lines_of w o files -> proper_listing w' -> all_listable w' o ->
  i <> j -> taken_at w' o files i s fs -> taken_at w' o files j t ft -> in_the_way w' (prefix_of o) s fs t ft ->
  snd (create fuel w can_open o) <> Ok tt /\ (forall a, ~ In (Written a) (fst (create fuel w can_open o))).
Proof.
  intros fuel w can_open o w' files i j s fs t ft Hlc Hent Hlines Hnames HL Hij Hs Ht Hway.
  destruct (create fuel w can_open o) as [evs r] eqn:E. cbn [fst snd].
  assert (Hr : r <> Ok tt).
  { intros ->. destruct (create_shape _ _ _ _ _ _ E) as [[_ H]|[(m & _ & Hr)|(m & a & c & w'' & -> & _ & Hfill & _ & _ & Hcd)]]; [rewrite H in Hlc by reflexivity; discriminate Hlc|now apply Hr|].
    assert (w'' = w') as ->.
    { unfold entered in Hent. destruct (o_base o) as [d|]; [|congruence]. destruct Hent as [H1 H2]. unfold chdir in Hcd. rewrite H1 in Hcd. congruence. }
    assert (Hlt : (i < j)%nat \/ (j < i)%nat) by lia. destruct Hlt as [Hlt|Hlt].
    - exact (proj1 (fill_apart fuel w w' o files c Hfill Hlines Hnames HL i j s fs t ft Hlt Hs Ht) Hway).
    - exact (proj2 (fill_apart fuel w w' o files c Hfill Hlines Hnames HL j i t ft s fs Hlt Ht Hs) Hway). }
  split; [exact Hr|]. intros a Hin.
  destruct (create_shape _ _ _ _ _ _ E) as [[-> _]|[(m & -> & _)|(m & a' & c & w'' & _ & Hr' & _)]]; [destruct Hin|destruct Hin as [Hin|[]]; discriminate Hin|now apply Hr].
Qed.
Print Assumptions C99_clash_refused.

(** In particular a file or link given twice; except for the path of --strip-prefix itself, which is
    never archived. *)
Theorem C99_given_twice : forall fuel w can_open o w' files i j s f, o_list_compressions o = false ->
  entered w (o_base o) w' -> lines_of w o files -> proper_listing w' -> all_listable w' o ->
  i <> j -> taken_at w' o files i s f -> taken_at w' o files j s f -> plain w' f s -> ~ stands_for s (pieces (prefix_of o)) ->
  snd (create fuel w can_open o) <> Ok tt /\ (forall a, ~ In (Written a) (fst (create fuel w can_open o))).
Proof.
  intros fuel w can_open o w' files i j s f Hlc Hent Hlines Hnames HL Hij Hi Hj Hpl Hne.
  assert (Htk : taken w' o files s f).
  { unfold taken_at in Hi. unfold taken. destruct files as [l|]; [destruct Hi as [Hi ->]; split; [eapply nth_error_In; eauto|reflexivity]|].
    destruct Hi as (x & Hi & H1). exists x. split; [eapply nth_error_In; eauto|exact H1]. }
  destruct (create fuel w can_open o) as [evs r] eqn:E. destruct r as [[]|e| |] eqn:Er.
  - destruct (succeeded fuel w can_open o w' files evs E Hlc Hent Hlines Hnames) as (m & a' & l & contents & -> & H1 & H2 & H3 & H4).
    destruct (H4 HL s f Htk) as (p & Hst & _). assert (Hp : p <> []) by (intros ->; rewrite app_nil_r in Hst; contradiction).
    pose proof (C99_clash_refused fuel w can_open o w' files i j s f s f Hlc Hent Hlines Hnames HL Hij Hi Hj) as H. rewrite E in H. cbn [fst snd] in *.
    apply H. split; [exact Hpl|]. split; [destruct Hpl as (q & n & P1 & _ & P2); exists q, n; auto|]. exists p, []. rewrite app_nil_r. auto.
  - split; [bad|]. intros a Hin. destruct (create_shape _ _ _ _ _ _ E) as [[-> _]|[(m & -> & _)|(m & a' & c & w'' & _ & Hr' & _)]]; [destruct Hin|destruct Hin as [Hin|[]]; discriminate Hin|discriminate Hr'].
  - split; [bad|]. intros a Hin. destruct (create_shape _ _ _ _ _ _ E) as [[-> _]|[(m & -> & _)|(m & a' & c & w'' & _ & Hr' & _)]]; [destruct Hin|destruct Hin as [Hin|[]]; discriminate Hin|discriminate Hr'].
  - split; [bad|]. intros a Hin. destruct (create_shape _ _ _ _ _ _ E) as [[-> _]|[(m & -> & _)|(m & a' & c & w'' & _ & Hr' & _)]]; [destruct Hin|destruct Hin as [Hin|[]]; discriminate Hin|discriminate Hr'].
Qed.
Print Assumptions C99_given_twice.

(** "arx create -r src ./src/a/f.txt": the file would be archived twice. *)
Definition o_over : create_opts := mkOpts false (b "out.arx") None None [b "src"; b "./src/a/f.txt"] None true None false false.
(** Directories given twice are no problem: "arx create src src" without -r. *)
Definition o_same : create_opts := mkOpts false (b "out.arx") None None [b "src"; b "src"] None false None false false.
Example C99_meets_hypotheses : proper_listing src_world /\ all_listable src_world o_over /\ lines_of src_world o_over None /\
  taken_at src_world o_over None 0 (b "src/a/f.txt") false /\ taken_at src_world o_over None 1 (b "./src/a/f.txt") true /\
  in_the_way src_world [] (b "src/a/f.txt") false (b "./src/a/f.txt") true /\
  snd (create 3 src_world true o_over) = Err EFileClash /\
  (exists a, create 3 src_world true o_same = ([Opened OneFile; Written a], Ok tt)).
Proof.
  split; [apply src_listing|]. split; [apply src_listable|]. split; [reflexivity|]. split; [|split; [|split; [|split]]].
  - exists (b "src"). split; [reflexivity|]. split; [|split; [bad|discriminate]].
    change (b "src/a/f.txt") with (path_join (b "src/a") (b "f.txt")).
    eapply (vis_below _ _ _ (b "src/a") (src_root ++ [b "a"]) [b "f.txt"; b "l"]); [reflexivity| |right; vm_compute; reflexivity|reflexivity|now left].
    change (b "src/a") with (path_join (b "src") (b "a")).
    eapply (vis_below _ _ _ (b "src") src_root [b "z"; b "a"]); [reflexivity|constructor|right; vm_compute; reflexivity|reflexivity|right; now left].
  - exists (b "./src/a/f.txt"). split; [reflexivity|]. split; [constructor|]. split; reflexivity.
  - split; [|split].
    + exists (src_root ++ [b "a"; b "f.txt"]), (HFile 0). split; [vm_compute; reflexivity|]. split; [discriminate|]. intros i H. reflexivity.
    + exists (src_root ++ [b "a"; b "f.txt"]), (HFile 0). split; [vm_compute; reflexivity|]. intros i H. reflexivity.
    + exists [b "src"; b "a"; b "f.txt"], []. split; [discriminate|]. split; (split; [reflexivity|vm_compute; reflexivity]).
  - vm_compute. reflexivity.
  - eexists. vm_compute. reflexivity.
Qed.
