(** What jbk's temporary files change for the creation. *)
From Verif Require Export Own CreateHostFacts PropFaithful SpecLive.
From Verif Require LiveFacts.

Local Ltac bad := let H := fresh in intros H; discriminate H.

(** [w1] is [w] with more files in [dir]. *)
Record more_files (dir : path) (w w1 : world) : Prop := {
  mf_kept : forall q n, h_names (w_fs w) q = Some n -> h_names (w_fs w1) q = Some n;
  mf_new : forall q, h_names (w_fs w1) q = h_names (w_fs w) q \/ (h_names (w_fs w) q = None /\ exists k i, q = dir ++ [k] /\ h_names (w_fs w1) q = Some (HFile i));
  mf_data : forall q i, h_names (w_fs w) q = Some (HFile i) -> h_data (w_fs w1) i = h_data (w_fs w) i;
  mf_cwd : w_cwd w1 = w_cwd w;
  mf_attr : forall q, h_names (w_fs w1) q = h_names (w_fs w) q -> q <> dir -> w_attr w1 q = w_attr w q;
  mf_readable : forall q, h_names (w_fs w1) q = h_names (w_fs w) q -> at_readable (w_attr w1 q) = at_readable (w_attr w q);
  mf_list : forall q, q <> dir -> w_list w1 q = w_list w q }.

Lemma opened_more dir names w w1 : (forall q i, h_names (w_fs w) q = Some (HFile i) -> i < h_next (w_fs w)) -> opened dir names w w1 -> more_files dir w w1.
Proof.
  intros Hino [(s & Hc & Ef) O2 O3 O4 O5 _].
  assert (I : hinv (w_fs w) dir names None s) by (eapply hinv_calls; [apply hinv_start|exact Hc]).
  pose proof (hinv_unsealed _ _ _ _ I) as Hd.
  assert (Hnew : forall q, h_names (w_fs w1) q = h_names (w_fs w) q \/ (h_names (w_fs w) q = None /\ exists k i, q = dir ++ [k] /\ h_names (w_fs w1) q = Some (HFile i))).
  { intros q. rewrite Ef. destruct (in_dec (list_eq_dec (list_eq_dec N.eq_dec)) q (map fst (wr_temps s))) as [Ht|Ht].
    - right. apply in_map_iff in Ht as ([q' i] & <- & Ht). cbn [fst]. destruct (hv_temp _ _ _ _ _ I q' i Ht) as (H1 & _ & H2 & k & -> & _). split; [exact H2|]. eauto.
    - left. apply (hv_rest _ _ _ _ _ I); [|rewrite Hd; intros n []]. intros i Hi. apply Ht. apply in_map_iff. exists (q, i). auto. }
  constructor; auto.
  - intros q n H. destruct (Hnew q) as [E|[E _]]; congruence.
  - intros q i H. rewrite Ef. apply (hv_old _ _ _ _ _ I). eauto.
Qed.

Lemma namei_more f g : (forall q n, h_names f q = Some n -> h_names g q = Some n) ->
  forall k fl c cur q n, namei k f fl cur c = At q n -> namei k g fl cur c = At q n.
Proof.
  intros Hfg. induction k as [|k IH]; intros fl; (induction c as [|x c IHc]; intros cur q n H; rewrite namei_eq in H; rewrite namei_eq; [exact H|]);
    (destruct (bytes_eqb x (b ".")); [now apply IHc|]); (destruct (bytes_eqb x (b "..")); [now apply IHc|]);
    (destruct (h_names f (cur ++ [x])) as [[|i|t m]|] eqn:E; [rewrite (Hfg _ _ E)..|destruct c; discriminate H]).
  - now apply IHc.
  - exact H.
  - exact H.
  - now apply IHc.
  - exact H.
  - destruct (match c with [] => negb fl | _ => false end); [exact H|]. now apply IH.
Qed.

Section More.
  Variables (dir : path) (w w1 : world).
  Hypothesis M : more_files dir w w1.

  Lemma look_more fl s q n : look_str w fl s = At q n -> look_str w1 fl s = At q n.
  Proof.
    unfold look_str. destruct s as [|c s]; [bad|]. unfold look, opath_of. rewrite (mf_cwd _ _ _ M). apply namei_more. exact (mf_kept _ _ _ M).
  Qed.

  Lemma namei_found f k : forall fl c cur q n, LiveFacts.all_dirs f cur -> namei k f fl cur c = At q n -> (q = [] /\ n = HDir) \/ h_names f q = Some n.
  Proof.
    assert (Hd : forall q, LiveFacts.all_dirs f q -> q = [] \/ h_names f q = Some HDir).
    { intros [|x q] H; [now left|right]. apply (H (x :: q) []); [now rewrite app_nil_r|easy]. }
    induction k as [|k IH]; intros fl; (induction c as [|x c IHc]; intros cur q n Hc H; rewrite namei_eq in H; [injection H as <- <-; destruct (Hd _ Hc) as [->| ->]; auto|]);
      (destruct (bytes_eqb x (b ".")); [now apply (IHc _ _ _ Hc H)|]); (destruct (bytes_eqb x (b "..")); [now apply (IHc _ _ _ (LiveFacts.all_dirs_up f _ Hc) H)|]);
      (destruct (h_names f (cur ++ [x])) as [[|i|t m]|] eqn:E; [now apply (IHc _ _ _ (LiveFacts.all_dirs_snoc f _ _ Hc E) H)|destruct c; [|discriminate H]| |destruct c; discriminate H]).
    - assert (cur ++ [x] = q /\ HFile i = n) as [<- <-] by (split; congruence). auto.
    - destruct (match c with [] => negb fl | _ => false end); [|discriminate H]. assert (cur ++ [x] = q /\ HLink t m = n) as [<- <-] by (split; congruence). auto.
    - assert (cur ++ [x] = q /\ HFile i = n) as [<- <-] by (split; congruence). auto.
    - destruct (match c with [] => negb fl | _ => false end); [assert (cur ++ [x] = q /\ HLink t m = n) as [<- <-] by (split; congruence); auto|].
      refine (IH _ _ _ _ _ _ H). destruct (is_abs t); [apply LiveFacts.all_dirs_nil|exact Hc].
  Qed.
  Hypothesis P : possible w.
  Lemma look_found fl s q n : look_str w fl s = At q n -> (q = [] /\ n = HDir) \/ h_names (w_fs w) q = Some n.
  Proof.
    unfold look_str. destruct s as [|c s]; [bad|]. unfold look. apply namei_found. unfold opath_of. cbn [fst].
    destruct (is_abs (c :: s)); [apply LiveFacts.all_dirs_nil|]. exact (proj2 P).
  Qed.
  Lemma found_same fl s q n : look_str w fl s = At q n -> h_names (w_fs w1) q = h_names (w_fs w) q.
  Proof.
    intros H. destruct (mf_new _ _ _ M q) as [E|(E & k & i & -> & _)]; [exact E|]. exfalso.
    destruct (look_found fl s _ n H) as [[Hq _]|Hq]; [now destruct dir|congruence].
  Qed.

  Lemma kind_more fl s q n : look_str w fl s = At q n -> q <> dir -> kind_at w1 q n = kind_at w q n.
  Proof.
    intros H Hd. unfold kind_at. destruct n as [|i|t m]; auto. rewrite (mf_attr _ _ _ M q (found_same fl s q _ H) Hd).
    destruct (look_found fl s q _ H) as [[_ Hf]|Hf]; [discriminate Hf|]. now rewrite (mf_data _ _ _ M q i Hf).
  Qed.
  Lemma detect_more s fl k q : detect_kind w s fl = Ok (k, q) -> q <> dir -> detect_kind w1 s fl = Ok (k, q).
  Proof.
    unfold detect_kind. destruct (look_str w false s) as [q0 n0|q0|e0] eqn:E; cbn [looked_up bind]; try bad.
    rewrite (look_more _ _ _ _ E). cbn [looked_up bind]. intros H Hd. destruct n0 as [|i|t m].
    - assert (q0 = q) as -> by congruence. rewrite (kind_more false s q _ E Hd). exact H.
    - assert (q0 = q) as -> by congruence. rewrite (kind_more false s q _ E Hd). exact H.
    - destruct fl; [|exact H]. destruct (look_str w true s) as [q1 n1|q1|e1] eqn:E1; cbn [looked_up bind fst snd] in *; try discriminate H.
      rewrite (look_more _ _ _ _ E1). cbn [looked_up bind fst snd]. assert (q1 = q) as -> by congruence. rewrite (kind_more true s q _ E1 Hd). exact H.
  Qed.
  Lemma new_more s p l fl l' e : new_from_path w s p l fl = Ok (l', e) -> (forall q n, look_str w fl s = At q n -> q <> dir) ->
    new_from_path w1 s p l fl = Ok (l', e).
  Proof.
    unfold new_from_path. destruct (detect_kind w s fl) as [[k q]| | |] eqn:E; cbn [bind]; try bad. intros H Hd.
    destruct (FaithfulFacts.detected w s fl k q E) as (n & Hn & _). specialize (Hd q n Hn). rewrite (detect_more s fl k q E Hd). cbn [bind].
    unfold meta_at in *. rewrite (mf_attr _ _ _ M q (found_same fl s q n Hn) Hd). exact H.
  Qed.
  Lemma add_more pre s fl c c' : add_entry_from_path w pre s fl c = (c', Ok tt) -> (forall q n, look_str w fl s = At q n -> q <> dir) ->
    add_entry_from_path w1 pre s fl c = (c', Ok tt).
  Proof.
    unfold add_entry_from_path. destruct (from_path s) as [p| | |]; try bad. destruct (strip_prefix p pre) as [ap|]; [|bad].
    destruct (nonempty ap); [|auto]. intros H Hd. destruct (new_from_path w s ap (cr_contents c) fl) as [[l' e]| | |] eqn:E; try discriminate H.
    now rewrite (new_more s ap _ fl l' e E Hd).
  Qed.
  Lemma each_more pre : forall l c c', add_each w pre l c = (c', Ok tt) -> (forall s fl q n, In (s, fl) l -> look_str w fl s = At q n -> q <> dir) ->
    add_each w1 pre l c = (c', Ok tt).
  Proof.
    induction l as [|[s fl] l IH]; intros c c' H Hd; cbn [add_each] in *; [exact H|].
    destruct (add_entry_from_path w pre s fl c) as [c1 r] eqn:E. destruct r as [[]| | |]; try discriminate H.
    rewrite (add_more pre s fl c c1 E); [|intros q n; apply Hd; now left]. apply IH; [exact H|]. intros s' fl' q n Hin. apply Hd. now right.
  Qed.

  (** The walk. *)
  Hypothesis Hnames : forall q names n, w_list w q = Some names -> In n names -> ordinary n.
  Lemma opt_concat_ext {A B} (f g : A -> option (list B)) : forall l, (forall x, In x l -> f x = g x) -> opt_concat f l = opt_concat g l.
  Proof. induction l as [|x l IH]; intros H; [reflexivity|]. cbn [opt_concat]. rewrite (H x), IH; [reflexivity| |now left]. intros y Hy. apply H. now right. Qed.
  Lemma walk_in_more s : (forall d q, walked w true s d -> enters w s d q -> q <> dir) ->
    forall fuel d q, walked w true s d -> enters w s d q -> walk_in fuel w1 d = walk_in fuel w d.
  Proof.
    intros Hd. induction fuel as [|k IH]; intros d q Hv He; [reflexivity|]. cbn [walk_in]. unfold read_dir.
    pose proof (enters_look w s d q He) as Hl. rewrite Hl, (look_more _ _ _ _ Hl), (mf_list _ _ _ M q (Hd d q Hv He)).
    destruct (w_list w q) as [names|] eqn:El; [|reflexivity]. apply opt_concat_ext. intros n Hn.
    assert (E : h_names (w_fs w1) (q ++ [n]) = h_names (w_fs w) (q ++ [n])).
    { destruct (mf_new _ _ _ M (q ++ [n])) as [E|(_ & k' & i & E & _)]; [exact E|]. apply app_inj_tail in E as [E _]. now apply Hd in He. }
    rewrite E. destruct (h_names (w_fs w) (q ++ [n])) as [[|i|u m]|] eqn:En; auto.
    rewrite (IH (path_join d n) (q ++ [n])); [reflexivity|eapply vis_below; eauto|].
    apply (enters_below w s d q n (q ++ [n])); eauto. eapply join_not_self; eauto.
  Qed.
  Lemma namei_either f k : forall c cur q n, namei k f true cur c = At q n -> exists q' n', namei k f false cur c = At q' n'.
  Proof.
    induction k as [|k IH]; (induction c as [|x c IHc]; intros cur q n H; rewrite namei_eq in H; rewrite namei_eq; [eauto|]);
      (destruct (bytes_eqb x (b ".")); [now apply (IHc _ _ _ H)|]); (destruct (bytes_eqb x (b "..")); [now apply (IHc _ _ _ H)|]);
      (destruct (h_names f (cur ++ [x])) as [[|i|t m]|] eqn:E; [now apply (IHc _ _ _ H)|destruct c; [eauto|discriminate H]| |destruct c; discriminate H]).
    - destruct c; [cbn [negb]; eauto|discriminate H].
    - destruct c; [cbn [negb]; eauto|]. cbn [negb] in H. now apply (IH _ _ _ _ H).
  Qed.
  Lemma look_either s q n : look_str w true s = At q n -> exists q' n', look_str w false s = At q' n'.
  Proof. unfold look_str. destruct s as [|c s]; [bad|]. unfold look. apply namei_either. Qed.
  Lemma walk_more s rc fuel q0 n0 : look_str w true s = At q0 n0 -> (rc = true -> forall d q, walked w true s d -> enters w s d q -> q <> dir) ->
    walk fuel w1 s rc = walk fuel w s rc.
  Proof.
    intros H0 Hd. unfold walk.
    assert (Hin : forall q, look_str w true s = At q HDir -> rc = true -> walk_in fuel w1 s = walk_in fuel w s).
    { intros q Hq E. apply (walk_in_more s (Hd E) fuel s q); [constructor|left; auto]. }
    rewrite (look_more _ _ _ _ H0).
    destruct (look_str w false s) as [q n|q|e] eqn:E.
    - rewrite (look_more _ _ _ _ E). destruct n as [|i|t m].
      + assert (Ht : look_str w true s = At q HDir) by (apply look_nonlink; [intros ? ? HH; discriminate HH|exact E]).
        destruct rc; [rewrite (Hin q Ht eq_refl)|]; reflexivity.
      + reflexivity.
      + rewrite H0. destruct n0 as [|i|t' m']; [|reflexivity|reflexivity]. destruct rc; [rewrite (Hin q0 H0 eq_refl)|]; reflexivity.
    - destruct (look_either s q0 n0 H0) as (q' & n' & H'). congruence.
    - destruct (look_either s q0 n0 H0) as (q' & n' & H'). congruence.
  Qed.

  (** The inputs, one after the other. *)
  Lemma infiles_more fuel pre rc : forall l c c', add_infiles fuel w pre l rc c = (c', Ok tt) ->
    (forall x, In x l -> x <> [] /\ is_abs x = false /\ exists q n, look_str w true x = At q n) ->
    (forall x s fl q n, In x l -> walked w rc x s -> (fl = true <-> s = x) -> look_str w fl s = At q n -> q <> dir) ->
    add_infiles fuel w1 pre l rc c = (c', Ok tt).
  Proof.
    induction l as [|x l IH]; intros c c' H Hx Hd; cbn [add_infiles] in *; [exact H|].
    destruct (add_from_path fuel w pre x rc c) as [c1 r] eqn:E. destruct r as [[]| | |]; try discriminate H.
    destruct (Hx x (or_introl eq_refl)) as (Hne & Hrel & q0 & n0 & H0).
    assert (E1 : add_from_path fuel w1 pre x rc c = (c1, Ok tt)).
    { unfold add_from_path in *. rewrite (walk_more x rc fuel q0 n0 H0).
      - destruct (walk fuel w x rc) as [its|] eqn:Ew; [|discriminate E]. apply each_more; [exact E|].
        intros s fl q n Hin Hl. apply in_map_iff in Hin as (t & Et & Hin). injection Et as -> <-.
        assert (Hv : walked w rc x s) by (eapply walk_sound; eauto).
        apply (Hd x s _ q n (or_introl eq_refl) Hv (walked_follow w x Hnames rc s Hne Hrel Hv) Hl).
      - intros -> d q Hv [[-> Hq]|Hq].
        + apply (Hd x x true q HDir (or_introl eq_refl) Hv); [tauto|exact Hq].
        + destruct (bytes_eqb_spec d x) as [->|Hdx].
          * apply (Hd x x true q HDir (or_introl eq_refl) Hv); [tauto|]. apply look_nonlink; [intros ? ? HH; discriminate HH|exact Hq].
          * apply (Hd x d false q HDir (or_introl eq_refl) Hv); [split; [bad|contradiction]|exact Hq]. }
    rewrite E1. apply IH; [exact H|intros y Hy; apply Hx; now right|]. intros y s fl q n Hy. apply Hd. now right.
  Qed.
  Lemma read_more s d : read_file w s = Ok d -> read_file w1 s = Ok d.
  Proof.
    unfold read_file. destruct (look_str w true s) as [q [|i|t m]|q|e] eqn:E; try bad. rewrite (look_more _ _ _ _ E).
    rewrite (mf_readable _ _ _ M q (found_same true s q _ E)). destruct (look_found true s q _ E) as [[_ Hf]|Hf]; [discriminate Hf|].
    now rewrite (mf_data _ _ _ M q i Hf).
  Qed.
  Lemma exists_more s : exists_path w s = true -> exists_path w1 s = true.
  Proof. unfold exists_path. destruct (look_str w true s) as [q n|q|e] eqn:E; try bad. now rewrite (look_more _ _ _ _ E). Qed.
End More.

Definition from (w : world) (cwd : path) : world := mkWorld (w_fs w) (w_attr w) (w_list w) cwd.
Lemma more_from dir w w1 cwd : more_files dir w w1 -> more_files dir (from w cwd) (from w1 cwd).
Proof. intros [A1 A2 A3 A4 A5 A6 A7]. constructor; cbn [from w_fs w_attr w_list w_cwd]; auto. Qed.

Lemma fill_more dir fuel w w1 cwd o files c : more_files dir w w1 -> possible w -> possible (from w cwd) -> proper_listing (from w cwd) ->
  lines_of w o files -> (forall s fl q n, taken (from w cwd) o files s fl -> look_str (from w cwd) fl s = At q n -> q <> dir) ->
  fill fuel w (from w cwd) o = (c, Ok tt) -> fill fuel w1 (from w1 cwd) o = (c, Ok tt).
Proof.
  intros M P P' Hp Hl Hd. pose proof (more_from dir w w1 cwd M) as M'. unfold fill, lines_of, taken in *.
  destruct (o_file_list o) as [fl|].
  - destruct Hl as (q & i & ls & Hlq & Hl1 & Hl2 & ->). assert (Hls : read_lines (h_data (w_fs w) i) = Ok ls) by (apply read_lines_spec; auto). intros H. destruct (read_file w fl) as [d| | |] eqn:Er; cbn [bind] in H; try discriminate H.
    rewrite (read_more dir w w1 M P fl d Er). cbn [bind]. assert (Hd' : read_lines d = Ok ls).
    { unfold read_file in Er. rewrite Hlq in Er. destruct (at_readable (w_attr w q)); [|discriminate Er]. injection Er as <-. exact Hls. }
    rewrite Hd' in *. unfold add_from_list in *. apply (each_more dir (from w cwd) (from w1 cwd) M' P'); [exact H|].
    intros s f q' n Hin Hlk. apply in_map_iff in Hin as (t & Et & Hin). injection Et as -> <-. apply (Hd s (o_follow o) q' n); auto.
  - subst files. destruct (existsb is_abs (o_infiles o)) eqn:Ea; [bad|].
    unfold check_input_paths_exist. destruct (forallb (exists_path (from w cwd)) (o_infiles o)) eqn:Ee; [|bad]. intros H.
    assert (E1 : forallb (exists_path (from w1 cwd)) (o_infiles o) = true).
    { apply forallb_forall. intros x Hx. rewrite forallb_forall in Ee. apply (exists_more dir (from w cwd) (from w1 cwd) M'). now apply Ee. }
    rewrite E1. apply (infiles_more dir (from w cwd) (from w1 cwd) M' P' Hp); [exact H| |].
    + intros x Hx. rewrite forallb_forall in Ee. specialize (Ee x Hx). unfold exists_path in Ee.
      destruct (look_str (from w cwd) true x) as [q n| |] eqn:El; try discriminate Ee. split; [intros ->; discriminate El|]. split; [|eauto].
      destruct (is_abs x) eqn:Ex; [|reflexivity]. assert (existsb is_abs (o_infiles o) = true) by (apply existsb_exists; eauto). congruence.
    + intros x s f q n Hx Hv Hf Hlk. apply (Hd s f q n); [exists x; auto|exact Hlk].
Qed.

Lemma look_all_dirs w s q : possible w -> look_str w true s = At q HDir -> LiveFacts.all_dirs (w_fs w) q.
Proof.
  intros P. unfold look_str. destruct s as [|c s]; [bad|]. unfold look. intros H.
  assert (Hc : LiveFacts.all_dirs (w_fs w) (fst (opath_of w (c :: s)))).
  { unfold opath_of. cbn [fst]. destruct (is_abs (c :: s)); [apply LiveFacts.all_dirs_nil|exact (proj2 P)]. }
  destruct (LiveFacts.namei_end (w_fs w) max_links _ _ q HDir Hc H) as [[_ G]|(d & x & i & _ & _ & G & _)]; [exact G|discriminate G].
Qed.
Lemma possible_entered w o w' : possible w -> entered w (o_base o) w' -> possible w'.
Proof.
  intros P H. unfold entered in H. destruct (o_base o) as [d|]; [|now subst w']. destruct H as [H ->]. cbn [w_cwd] in H.
  split; cbn [w_fs w_cwd]; [exact (proj1 P)|]. exact (look_all_dirs w d _ P H).
Qed.
