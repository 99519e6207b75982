(** C100: when [arx create] succeeds. *)
From Verif Require Export SucceedsFacts PropClash.

Local Ltac bad := let H := fresh in intros H; discriminate H.

(** Enough fuel for the walk. *)
Lemma walk_in_some w s : proper_listing w -> forall fuel d q, walked w true s d -> enters w s d q ->
  (forall t q', walked w true s t -> enters w s t q' -> (length (pieces t) < length (pieces d) + fuel)%nat) -> walk_in fuel w d <> None.
Proof.
  intros Hnames. induction fuel as [|k IH]; intros d q Hv He Hsh; [specialize (Hsh d q Hv He); lia|]. cbn [walk_in].
  unfold read_dir. rewrite (enters_look w s _ _ He). destruct (w_list w q) as [names|] eqn:El; [|discriminate].
  assert (Hd : forall n, In n names -> ordinary n /\ walked w true s (path_join d n) /\
    (h_names (w_fs w) (q ++ [n]) = Some HDir -> enters w s (path_join d n) (q ++ [n]))).
  { intros n Hn. pose proof (Hnames _ _ _ El Hn) as Ho. split; [exact Ho|]. split; [eapply vis_below; eauto|]. intros E.
    apply (enters_below w s d q n (q ++ [n])); [exact Ho|exact (enters_look w s _ _ He)|exact (join_not_self w s Hnames true d q names n Hv El Hn)|auto]. }
  clear El. induction names as [|n names IHn]; cbn [opt_concat]; [discriminate|].
  assert (Hone : match h_names (w_fs w) (q ++ [n]) with
      | Some HDir => match walk_in k w (path_join d n) with Some l => Some (WEntry (path_join d n) :: l) | None => None end
      | _ => Some [WEntry (path_join d n)] end <> None).
  { destruct (Hd n (or_introl eq_refl)) as (Ho & H1 & H2). destruct (h_names (w_fs w) (q ++ [n])) as [[|i|t m]|] eqn:En; try discriminate.
    destruct (walk_in k w (path_join d n)) as [l|] eqn:Ew; [discriminate|]. exfalso. revert Ew. apply (IH (path_join d n) (q ++ [n]) H1 (H2 eq_refl)).
    intros t q' Ht Hq'. specialize (Hsh t q' Ht Hq'). change (path_join d n) with (str d [n]). rewrite str_pieces by auto. rewrite app_length. cbn [length]. lia. }
  match goal with |- match ?x with _ => _ end <> None => destruct x as [z|] eqn:Ez; [|now destruct Hone] end.
  match goal with |- match ?x with _ => _ end <> None => destruct x as [z'|] eqn:Ez'; [discriminate|] end.
  exfalso. apply IHn; [intros n' Hn'; apply Hd; now right|reflexivity].
Qed.

Lemma walk_some w s rc fuel : proper_listing w -> (exists q n, look_str w true s = At q n) -> shallow w rc s fuel -> exists l, walk fuel w s rc = Some l.
Proof.
  intros Hnames (q & n & Hl) Hsh. unfold walk. rewrite Hl. destruct (stat_lstat w s q n Hl) as (q' & n' & E). rewrite E.
  assert (Hent : n = HDir -> exists l, (if rc then match walk_in fuel w s with Some l => Some (WEntry s :: l) | None => None end else Some [WEntry s]) = Some l).
  { intros ->. destruct rc; [|eauto]. destruct (walk_in fuel w s) as [l|] eqn:Ew; [eauto|]. exfalso. revert Ew.
    apply (walk_in_some w s Hnames fuel s q); [constructor|left; auto|]. intros t q0 H1 H2. exact (Hsh eq_refl t q0 H1 H2). }
  destruct n' as [|i|t m].
  - apply (look_nonlink w s) in E; [|intros ? ? HH; discriminate HH]. rewrite Hl in E. injection E as <- ->. now apply Hent.
  - eauto.
  - destruct n; [now apply Hent|eauto|eauto].
Qed.

(** The items of an input. *)
Notation items fuel w rc x := (match walk fuel w x rc with Some l => map (fun p => (p, std_path_eqb p x)) (before_fail l) | None => [] end) (only parsing).

Lemma infiles_items fuel w pre rc : forall xs c, (forall x, In x xs -> exists l, walk fuel w x rc = Some l) ->
  add_infiles fuel w pre xs rc c = add_each w pre (flat_map (fun x => items fuel w rc x) xs) c.
Proof.
  induction xs as [|x xs IH]; intros c Hw; cbn [add_infiles flat_map]; [reflexivity|].
  rewrite add_each_join. unfold add_from_path. destruct (Hw x (or_introl eq_refl)) as [l ->].
  destruct (add_each w pre _ c) as [c1 [u|e| |]]; [apply IH; intros y Hy; apply Hw; now right|reflexivity..].
Qed.

Lemma forall_iff {A} (P : A -> Prop) l : Forall P l <-> forall x, In x l -> P x.
Proof. apply Forall_forall. Qed.

Section Fill.
  Variables (fuel : nat) (w w' : world) (o : create_opts) (files : option (list bytes)).
  Hypothesis Hlines : lines_of w o files.
  Hypothesis Hnames : proper_listing w'.
  Hypothesis Hdist : forall q names, w_list w' q = Some names -> NoDup names.
  Hypothesis HL : all_listable w' o.
  Hypothesis Hdepth : o_file_list o = None -> forall x, In x (o_infiles o) -> shallow w' (o_recurse o) x fuel.

  Lemma fill_iff : snd (fill fuel w w' o) = Ok tt <->
    inputs_there w w' o /\ (forall s f, taken w' o files s f -> fit w' (prefix_of o) s f) /\
    (forall i j s fs t ft, i <> j -> taken_at w' o files i s fs -> taken_at w' o files j t ft -> ~ blocks w' (prefix_of o) s fs t ft).
  Proof.
    unfold fill, lines_of, inputs_there, taken, taken_at, all_listable in *. destruct (o_file_list o) as [fl|] eqn:Efl.
    - destruct Hlines as (q & i0 & ls & Hq & Hl1 & Hl2 & ->). assert (Hl : read_lines (h_data (w_fs w) i0) = Ok ls) by (apply read_lines_spec; auto).
      unfold read_file. rewrite Hq. destruct (at_readable (w_attr w q)) eqn:Er.
      2:{ cbn [bind snd]. split; [bad|]. intros [(q1 & n1 & H1 & H2) _]. injection H1 as <- _. congruence. }
      cbn [bind]. rewrite Hl. unfold add_from_list.
      destruct (add_each w' (prefix_of o) (map (fun s => (s, o_follow o)) ls) creator_empty) as [c r] eqn:E. cbn [snd].
      rewrite (all_iff w' (prefix_of o) _ c r E), forall_iff, pairs_nth. split.
      + intros [H1 H2]. split; [eauto|]. split.
        * intros s f [Hs ->]. apply (H1 (s, o_follow o)). apply in_map_iff. eauto.
        * intros i j s fs t ft Hij [Hs ->] [Ht ->].
          assert (Hs' : nth_error (map (fun s => (s, o_follow o)) ls) i = Some (s, o_follow o)) by (rewrite nth_error_map, Hs; reflexivity).
          assert (Ht' : nth_error (map (fun s => (s, o_follow o)) ls) j = Some (t, o_follow o)) by (rewrite nth_error_map, Ht; reflexivity).
          assert (Hlt : (i < j)%nat \/ (j < i)%nat) by lia. destruct Hlt as [Hlt|Hlt]; [exact (proj1 (H2 i j _ _ Hlt Hs' Ht'))|exact (proj2 (H2 j i _ _ Hlt Ht' Hs'))].
      + intros (_ & H1 & H2). split.
        * intros x Hx. apply in_map_iff in Hx as (s & <- & Hs). apply H1. auto.
        * intros i j x y Hij Hx Hy. rewrite nth_error_map in Hx, Hy. destruct (nth_error ls i) as [s|] eqn:Ei; [|discriminate Hx]. destruct (nth_error ls j) as [t|] eqn:Ej; [|discriminate Hy].
          injection Hx as <-. injection Hy as <-. split; cbn [fst snd].
          -- apply (H2 i j); auto; lia.
          -- apply (H2 j i); auto; lia.
    - rewrite Hlines. clear Hlines. destruct (existsb is_abs (o_infiles o)) eqn:Eabs.
      { cbn [snd]. split; [bad|]. intros [H _]. apply existsb_exists in Eabs as (x & Hx & Ha). destruct (H x Hx) as [H1 _]. congruence. }
      unfold check_input_paths_exist. destruct (forallb (exists_path w') (o_infiles o)) eqn:Eex.
      2:{ cbn [snd]. split; [bad|]. intros [H _]. exfalso. assert (forallb (exists_path w') (o_infiles o) = true); [|congruence]. apply forallb_forall. intros x Hx. apply exists_spec. now apply H. }
      assert (Hx : forall x, In x (o_infiles o) -> is_abs x = false /\ leads_to_something w' x).
      { intros x Hin. split.
        - destruct (is_abs x) eqn:Ex; auto. assert (existsb is_abs (o_infiles o) = true) by (apply existsb_exists; eauto). congruence.
        - rewrite forallb_forall in Eex. apply exists_spec. now apply Eex. }
      assert (Hw : forall x, In x (o_infiles o) -> exists l, walk fuel w' x (o_recurse o) = Some l).
      { intros x Hin. apply walk_some; [exact Hnames|exact (proj2 (Hx x Hin))|now apply Hdepth]. }
      assert (Hitems : forall x s f, In x (o_infiles o) -> (In (s, f) (items fuel w' (o_recurse o) x) <-> walked w' (o_recurse o) x s /\ (f = true <-> s = x))).
      { intros x s f Hin. destruct (Hw x Hin) as [l El]. rewrite El. destruct (Hx x Hin) as [Hrel Hex].
        assert (Hne : x <> []) by (intros ->; destruct Hex as (q & n & Hex); discriminate Hex).
        assert (HLx : listable w' x (o_recurse o)). { intros d q Hrc Hd He. rewrite Hrc in *. exact (HL eq_refl eq_refl x d q Hin Hd He). }
        rewrite in_map_iff. split.
        - intros (p & Ep & Hp). injection Ep as -> <-. pose proof (walk_sound w' x Hnames Hex fuel _ l s El Hp) as Hv. split; [exact Hv|].
          exact (walked_follow w' x Hnames (o_recurse o) s Hne Hrel Hv).
        - intros [Hv Hf]. exists s. split; [|exact (walk_complete w' x Hnames Hex fuel _ l s HLx El Hv)]. f_equal.
          pose proof (walked_follow w' x Hnames (o_recurse o) s Hne Hrel Hv) as Hiff. destruct f; [apply Hiff, Hf; reflexivity|].
          destruct (std_path_eqb s x); [|reflexivity]. symmetry. apply Hf, Hiff. reflexivity. }
      rewrite (infiles_items fuel w' (prefix_of o) (o_recurse o) (o_infiles o) creator_empty Hw).
      destruct (add_each w' (prefix_of o) (flat_map (fun x => items fuel w' (o_recurse o) x) (o_infiles o)) creator_empty) as [c r] eqn:E. cbn [snd].
      rewrite (all_iff w' (prefix_of o) _ c r E), forall_iff, pairs_flat. split.
      + intros [H1 [_ H2]]. split; [exact Hx|]. split.
        * intros s f (x & Hin & Hv & Hf). apply (H1 (s, f)). apply in_flat_map. exists x. split; [exact Hin|]. apply Hitems; auto.
        * intros i j s fs t ft Hij (x & Hi & Hs) (y & Hj & Ht). pose proof (nth_error_In _ _ Hi) as Hxi. pose proof (nth_error_In _ _ Hj) as Hyj.
          apply (Hitems x s fs Hxi) in Hs. apply (Hitems y t ft Hyj) in Ht.
          assert (Hlt : (i < j)%nat \/ (j < i)%nat) by lia. destruct Hlt as [Hlt|Hlt]; [exact (proj1 (H2 i j _ _ _ _ Hlt Hi Hj Hs Ht))|exact (proj2 (H2 j i _ _ _ _ Hlt Hj Hi Ht Hs))].
      + intros (_ & H1 & H2). split; [|split].
        * intros [s f] Hin. apply in_flat_map in Hin as (x & Hxi & Hin). apply (Hitems x s f Hxi) in Hin. apply (H1 s f). exists x. auto.
        * intros x Hin. destruct (Hx x Hin) as [Hrel Hex]. apply pairs_distinct.
          -- destruct (Hw x Hin) as [l El]. rewrite El. pose proof (walk_distinct w' Hnames Hdist x Hex fuel (o_recurse o) l El) as Hnd.
             apply FinFun.Injective_map_NoDup; [|exact Hnd]. intros p1 p2 Hp. now injection Hp.
          -- intros [s fs] [t ft] Hs Ht Hne. apply (Hitems x s fs Hin) in Hs as [Hs1 Hs2]. apply (Hitems x t ft Hin) in Ht as [Ht1 Ht2].
             assert (Hst : s <> t). { intros ->. apply Hne. f_equal. destruct fs, ft; try reflexivity; [symmetry|]; [apply Ht2, Hs2|apply Hs2, Ht2]; reflexivity. }
             split; cbn [fst snd]; eapply (walked_apart w' Hnames x); eauto.
        * intros i j x y [s fs] [t ft] Hij Hi Hj Hs Ht. pose proof (nth_error_In _ _ Hi) as Hxi. pose proof (nth_error_In _ _ Hj) as Hyj.
          apply (Hitems x s fs Hxi) in Hs. apply (Hitems y t ft Hyj) in Ht. split; cbn [fst snd].
          -- apply (H2 i j); [lia|exists x; auto|exists y; auto].
          -- apply (H2 j i); [lia|exists y; auto|exists x; auto].
  Qed.
End Fill.

(** [arx create] succeeds exactly when: the output path is free or to be overwritten; the list or the
    inputs are there; each path gone through can be archived; and no regular file or link given by
    one input (or line) is in the way of what is given by another. *)
Theorem C100_create_iff : forall fuel w o w' files given, o_list_compressions o = false -> parse_concat given = Some (o_concat o) ->
  entered w (o_base o) w' -> lines_of w o files -> proper_listing w' -> (forall q names, w_list w' q = Some names -> NoDup names) ->
  all_listable w' o -> (o_file_list o = None -> forall x, In x (o_infiles o) -> shallow w' (o_recurse o) x fuel) ->
  (snd (create fuel w true o) = Ok tt <->
   output_free w o /\ inputs_there w w' o /\
   (forall s f, taken w' o files s f -> fit w' (prefix_of o) s f) /\
   (forall i j s fs t ft, i <> j -> taken_at w' o files i s fs -> taken_at w' o files j t ft -> ~ blocks w' (prefix_of o) s fs t ft)).
Proof.
  intros fuel w o w' files given Hlc Hgiven Hent Hlines Hnames Hdist HL Hdepth.
  rewrite <- (fill_iff fuel w w' o files Hlines Hnames Hdist HL Hdepth).
  assert (Hm : exists m, create_concat (o_concat o) = Ok m).
  { pose proof (C46_concat given) as H. destruct given as [|f0 [|]]; [| |congruence]; destruct H as (f & H1 & H2); rewrite Hgiven in H1; injection H1 as ->; eauto. }
  destruct Hm as [m Hm].
  assert (Hb : match o_base o with Some d => chdir w d | None => Ok w end = Ok w').
  { unfold entered in Hent. destruct (o_base o) as [dd|]; [|now subst]. destruct Hent as [H1 H2]. unfold chdir. rewrite H1. now rewrite <- H2. }
  assert (Hchk : check_output_path_writable w (o_out o) (o_force o) = Ok tt <-> output_free w o).
  { unfold check_output_path_writable, output_free. change (out_comps w (o_out o)) with (from_root w (o_out o)). split.
    - destruct (from_root w (o_out o)) as [|c0 r1] eqn:Ef; [bad|]. destruct (is_dir_path (w_fs w) ([], removelast (c0 :: r1))) eqn:Ed; [|bad]. cbn [negb].
      destruct (exists_last (l := c0 :: r1)) as (d & x & Edx); [discriminate|]. rewrite Edx, removelast_last in Ed. apply is_dir_path_spec in Ed.
      destruct (exists_path w (o_out o)) eqn:Ee; cbn [andb].
      + destruct (o_force o) eqn:Efo; [|bad]. intros _. exists d, x. auto.
      + intros _. exists d, x. split; [exact Edx|]. split; [exact Ed|]. intros Hx. apply exists_spec in Hx. congruence.
    - intros (d & x & Hout & Hdir & Hforce). apply is_dir_path_spec in Hdir. destruct (from_root w (o_out o)) as [|c0 r1]; [now destruct d|].
      rewrite Hout, removelast_last, Hdir. cbn [negb].
      destruct (exists_path w (o_out o)) eqn:Ee; [|reflexivity]. apply exists_spec in Ee. now rewrite (Hforce Ee). }
  rewrite <- Hchk. unfold create. rewrite Hlc, Hb, Hm. destruct (check_output_path_writable w (o_out o) (o_force o)) as [[]|e| |].
  - destruct (fill fuel w w' o) as [c [[]|e| |]] eqn:Efill; cbn [snd].
    + destruct (fill_session _ _ _ _ _ Efill) as (l & El & _). destruct (finalize_some c l El) as [a ->]. cbn [snd]. tauto.
    + split; [bad|]. intros [_ H]. discriminate H.
    + split; [bad|]. intros [_ H]. discriminate H.
    + split; [bad|]. intros [_ H]. discriminate H.
  - cbn [snd]. split; [bad|]. intros [H _]. discriminate H.
  - cbn [snd]. split; [bad|]. intros [H _]. discriminate H.
  - cbn [snd]. split; [bad|]. intros [H _]. discriminate H.
Qed.
Print Assumptions C100_create_iff.

(** So whether it succeeds does not depend on the order of the inputs. *)
Theorem C100_order : forall fuel w o o' w' given, o_list_compressions o = false -> o_file_list o = None -> parse_concat given = Some (o_concat o) ->
  Permutation (o_infiles o) (o_infiles o') ->
  o' = mkOpts (o_list_compressions o) (o_out o) (o_prefix o) (o_base o) (o_infiles o') (o_file_list o) (o_recurse o) (o_concat o) (o_force o) (o_follow o) ->
  entered w (o_base o) w' -> proper_listing w' -> (forall q names, w_list w' q = Some names -> NoDup names) ->
  all_listable w' o -> (forall x, In x (o_infiles o) -> shallow w' (o_recurse o) x fuel) ->
  snd (create fuel w true o) = Ok tt -> snd (create fuel w true o') = Ok tt.
Proof.
  intros fuel w o o' w' given Hlc Hfl Hgiven Hperm Ho Hent Hnames Hdist HL Hdepth.
  assert (Hin : forall x, In x (o_infiles o') -> In x (o_infiles o)). { intros x. apply Permutation_in. now apply Permutation_sym. }
  remember (o_infiles o') as xs eqn:Exs. clear Exs.
  rewrite (C100_create_iff fuel w o w' None given Hlc Hgiven Hent); [|unfold lines_of; now rewrite Hfl|exact Hnames|exact Hdist|exact HL|intros _; exact Hdepth].
  rewrite (C100_create_iff fuel w o' w' None given); try (first [assumption|rewrite Ho; cbn [o_list_compressions o_concat o_base o_file_list o_infiles o_recurse]; assumption]).
  - unfold output_free, inputs_there, taken, taken_at. rewrite Ho. cbn [o_list_compressions o_concat o_base o_file_list o_infiles o_recurse o_out o_force o_prefix o_follow]. rewrite Hfl.
    intros (H1 & H2 & H3 & H4). split; [exact H1|]. split; [auto|]. split.
    + intros s f (x & Hx & Hs). apply H3. exists x. auto.
    + intros i j s fs t ft Hij (x & Hi & Hs) (y & Hj & Ht).
      apply Permutation_nth_error in Hperm as [_ (g & Hg & Hng)].
      apply (H4 (g i) (g j)); [intros E; apply Hij, Hg, E| |].
      * exists x. rewrite <- Hng. auto.
      * exists y. rewrite <- Hng. auto.
  - unfold lines_of. rewrite Ho. cbn [o_file_list]. now rewrite Hfl.
  - unfold all_listable in *. rewrite Ho. cbn [o_file_list o_recurse o_infiles]. intros A B x d q Hx. exact (HL A B x d q (Hin x Hx)).
  - rewrite Ho. cbn [o_file_list o_recurse o_infiles]. intros _ x Hx. apply Hdepth. auto.
Qed.
Print Assumptions C100_order.

(** ** Concrete runs *)
Lemma src_distinct : forall q names, w_list src_world q = Some names -> NoDup names.
Proof.
  intros q names. cbn [src_world w_list]. unfold src_list. destruct (path_eqb' q [b "h"; b "src"]); [|destruct (path_eqb' q [b "h"; b "src"; b "a"])];
    intros H; injection H as <-; repeat constructor; cbn [In]; intros H; repeat (destruct H as [H|H]; [discriminate H|]); destruct H.
Qed.
Lemma src_walked rc s : walked src_world rc (b "src") s -> In s [b "src"; b "src/z"; b "src/a"; b "src/a/f.txt"; b "src/a/l"].
Proof.
  induction 1 as [|d q names n Hrc Hd IH He Hl Hn]; [now left|]. apply enters_look in He. cbn [In] in IH.
  destruct IH as [<-|[<-|[<-|[<-|[<-|[]]]]]]; vm_compute in He; try discriminate He; injection He as <-; cbv in Hl; injection Hl as <-;
    repeat (destruct Hn as [<-|Hn]; [cbn; tauto|]); destruct Hn.
Qed.
Lemma src_shallow rc : shallow src_world rc (b "src") 3.
Proof.
  intros _ s q Hs _. apply src_walked in Hs. repeat (destruct Hs as [<-|Hs]; [vm_compute; lia|]). destruct Hs.
Qed.

(** "arx create -r src --strip-prefix src" works; "arx create -r src ./src/a/f.txt" gives a file twice;
    a file that cannot be read is not [fit]. *)
Example C100_meets_hypotheses :
  parse_concat [] = Some (o_concat o_src) /\ entered src_world (o_base o_src) src_world /\ lines_of src_world o_src None /\ proper_listing src_world /\
  all_listable src_world o_src /\ (forall x, In x (o_infiles o_src) -> shallow src_world (o_recurse o_src) x 3) /\
  snd (create 3 src_world true o_src) = Ok tt /\ output_free src_world o_src /\ inputs_there src_world src_world o_src /\
  fit src_world (b "src") (b "src/a/f.txt") false /\
  blocks src_world [] (b "src/a/f.txt") false (b "./src/a/f.txt") true /\ snd (create 3 src_world true o_over) = Err EFileClash /\
  ~ fit secret_world (b "src") (b "src/a/f.txt") false /\ snd (create 3 secret_world true o_src) <> Ok tt.
Proof.
  split; [reflexivity|]. split; [reflexivity|]. split; [reflexivity|]. split; [apply src_listing|]. split; [apply src_listable|].
  split; [intros x [<-|[]]; apply src_shallow|].
  assert (Hok : snd (create 3 src_world true o_src) = Ok tt) by (vm_compute; reflexivity). split; [exact Hok|].
  assert (H : output_free src_world o_src /\ inputs_there src_world src_world o_src /\ (forall s f, taken src_world o_src None s f -> fit src_world (b "src") s f) /\
    (forall i j s fs t ft, i <> j -> taken_at src_world o_src None i s fs -> taken_at src_world o_src None j t ft -> ~ blocks src_world (b "src") s fs t ft)).
  { apply (C100_create_iff 3 src_world o_src src_world None []); [reflexivity|reflexivity|reflexivity|reflexivity|apply src_listing|exact src_distinct|apply src_listable|intros _ x [<-|[]]; apply src_shallow|exact Hok]. }
  destruct H as (H1 & H2 & H3 & _). split; [exact H1|]. split; [exact H2|]. destruct C99_meets_hypotheses as (_ & _ & _ & Ht & _ & Hway & Hclash & _).
  split. { apply H3. destruct Ht as (x & Hx & Hv & Hf). injection Hx as <-. exists (b "src"). split; [now left|]. split; [exact Hv|exact Hf]. }
  split. { destruct Hway as (A & B & p & r & C & D & E). split; [exact A|]. exists p, r. auto. }
  split; [exact Hclash|]. split.
  - intros (p & Hs & _ & Hp). assert (Hlk : look_str secret_world false (b "src/a/f.txt") = At [b "h"; b "src"; b "a"; b "f.txt"] (HFile 0)) by (vm_compute; reflexivity).
    destruct Hp as (q & n & Hq & Hn); [intros ->; destruct Hs as [_ Hs]; vm_compute in Hs; discriminate Hs|]. rewrite Hlk in Hq. injection Hq as <- <-.
    destruct Hn as [(i & _ & Hn)|[Hn _]]; [vm_compute in Hn; discriminate Hn|]. destruct (Hn 0 eq_refl) as [_ Hr]. vm_compute in Hr. discriminate Hr.
  - vm_compute. discriminate.
Qed.
