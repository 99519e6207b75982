(** What a successful creation leaves, whatever the host. *)
From Verif Require Export SpecFaithful CreatedFacts.

Local Ltac bad := let H := fresh in intros H; discriminate H.

(** ** Resolution *)
Lemma namei_nonlink k : forall f q n c cur, (forall t m, n <> HLink t m) -> namei k f false cur c = At q n -> namei k f true cur c = At q n.
Proof.
  induction k as [|k IH]; intros f q n c; induction c as [|x c IHc]; intros cur Hn H; rewrite namei_eq in H; rewrite namei_eq; auto;
    (destruct (bytes_eqb x (b ".")); [now apply IHc|]); (destruct (bytes_eqb x (b "..")); [now apply IHc|]);
    (destruct (h_names f (cur ++ [x])) as [[|i|t m]|]; [now apply IHc|exact H| |exact H]).
  - destruct c; [|exact H]. injection H as _ H. exfalso. eapply Hn. symmetry. exact H.
  - destruct c; [injection H as _ H; exfalso; eapply Hn; symmetry; exact H|]. now apply IH.
Qed.
Lemma look_nonlink w s q n : (forall t m, n <> HLink t m) -> look_str w false s = At q n -> look_str w true s = At q n.
Proof. intros Hn. unfold look_str. destruct s; [bad|]. unfold look. apply namei_nonlink. exact Hn. Qed.

Lemma detected w s follow k q : detect_kind w s follow = Ok (k, q) -> exists n, look_str w follow s = At q n /\ k = kind_at w q n.
Proof.
  unfold detect_kind. destruct (look_str w false s) as [q0 n0|q0|e0] eqn:E; cbn [looked_up bind]; try bad.
  destruct n0 as [|i|t m].
  - intros H. injection H as <- <-. exists HDir. split; [|reflexivity]. destruct follow; [apply look_nonlink; [intros ? ? HH; discriminate HH|exact E]|exact E].
  - intros H. assert (k = kind_at w q0 (HFile i) /\ q0 = q) as [-> ->] by (split; congruence). exists (HFile i). split; [|reflexivity]. destruct follow; [apply look_nonlink; [intros ? ? HH; discriminate HH|exact E]|exact E].
  - destruct follow.
    + destruct (look_str w true s) as [q1 n1|q1|e1] eqn:E1; cbn [looked_up bind fst snd]; try bad.
      intros H. assert (k = kind_at w q1 n1 /\ q1 = q) as [-> ->] by (split; congruence). eauto.
    + intros H. injection H as <- <-. exists (HLink t m). auto.
Qed.

Lemma in_split_first (c : N) : forall s, In c s -> exists x r, s = x ++ c :: r /\ ~ In c x.
Proof.
  induction s as [|d s IH]; [intros []|]. intros H. destruct (N.eq_dec d c) as [->|Hd]; [exists [], s; split; [reflexivity|intros []]|].
  destruct H as [H|H]; [contradiction|]. destruct (IH H) as (x & r & -> & Hx). exists (d :: x), r. split; [reflexivity|]. intros [E|E]; contradiction.
Qed.
(** The lines of a text. *)
Lemma strip_crlf x : strip_cr (x ++ [13]) = x.
Proof. unfold strip_cr. rewrite rev_app_distr. cbn [rev app]. now rewrite rev_involutive. Qed.
Lemma strip_other x : (forall y, x <> y ++ [13]) -> strip_cr x = x.
Proof.
  intros H. unfold strip_cr. destruct (rev x) as [|c r] eqn:E; [reflexivity|]. destruct (N.eqb_spec c 13) as [->|]; [|reflexivity].
  exfalso. apply (H (rev r)). rewrite <- (rev_involutive x), E. reflexivity.
Qed.
Lemma split_lines_spec s l : split_lines [] s = l <-> text_lines s l.
Proof.
  assert (To : forall s l, text_lines s l -> split_lines [] s = l).
  { intros s0 l0 H. induction H as [|x s' l' Hx Hc _ IH|x s' l' Hx _ IH|x Hx Hne]; [reflexivity| | |].
    - rewrite split_line by exact Hx. cbn [app]. now rewrite (strip_other x Hc), IH.
    - change (x ++ 13 :: 10 :: s') with (x ++ [13] ++ 10 :: s'). rewrite app_assoc, split_line.
      + cbn [app]. now rewrite strip_crlf, IH.
      + intros Hin. apply in_app_iff in Hin as [Hin|[Hin|[]]]; [now apply Hx|discriminate Hin].
    - rewrite split_rest by exact Hx. cbn [app]. now destruct x. }
  split; [|apply To]. intros <-. 
  remember (length s) as k eqn:Hk. assert (Hle : (length s <= k)%nat) by lia. clear Hk. revert s Hle.
  induction k as [|k IH]; intros s Hle; [destruct s; [constructor|cbn [length] in Hle; lia]|].
  destruct (in_dec N.eq_dec 10 s) as [Hin|Hin].
  - destruct (in_split_first 10 s Hin) as (x & r & -> & Hx). rewrite app_length in Hle. cbn [length] in Hle. rewrite split_line by exact Hx. cbn [app].
    assert (Hr : text_lines r (split_lines [] r)) by (apply IH; lia).
    destruct x as [|c x _] using rev_ind; [apply (lines_lf []); [exact Hx|intros [|? ?]; discriminate|exact Hr]|].
    destruct (N.eq_dec c 13) as [->|Hc].
    + rewrite strip_crlf, <- app_assoc. cbn [app]. apply lines_crlf; [|exact Hr]. intros H. apply Hx. apply in_app_iff. now left.
    + assert (Hn : forall y, x ++ [c] <> y ++ [13]) by (intros y E; apply app_inj_tail in E as [_ E]; contradiction).
      rewrite (strip_other _ Hn). now apply lines_lf.
  - rewrite split_rest by exact Hin. cbn [app]. destruct s; [constructor|now apply lines_last].
Qed.
Lemma read_lines_spec s l : read_lines s = Ok l <-> text_lines s l /\ Forall (fun x => utf8 x = true) l.
Proof.
  rewrite <- split_lines_spec. unfold read_lines. rewrite Forall_forall, <- forallb_forall.
  destruct (forallb utf8 (split_lines [] s)) eqn:E; split.
  - intros H. injection H as <-. auto.
  - intros [-> _]. reflexivity.
  - bad.
  - intros [<- H]. congruence.
Qed.

Lemma look_join w s q n fl : ordinary n -> look_str w true s = At q HDir -> 
  look_str w fl (path_join s n) = match h_names (w_fs w) (q ++ [n]) with
                                  | None => Missing (q ++ [n])
                                  | Some HDir => At (q ++ [n]) HDir
                                  | Some (HFile i) => At (q ++ [n]) (HFile i)
                                  | Some (HLink t m) => look_str w fl (path_join s n)
                                  end /\
  (forall t m, h_names (w_fs w) (q ++ [n]) = Some (HLink t m) -> look_str w false (path_join s n) = At (q ++ [n]) (HLink t m)).
Proof.
  intros Ho Hl. assert (Hs : s <> []) by (intros ->; discriminate Hl).
  assert (G : forall fl, exists k, look_str w fl (path_join s n) = namei k (w_fs w) fl q [n]).
  { intros fl0. unfold look_str in *. pose proof (path_join_nonempty s n Ho) as Hne. destruct (path_join s n) as [|c0 r0] eqn:Ej; [easy|]. rewrite <- Ej.
    unfold look, opath_of in *. rewrite (path_join_end s n Ho), path_join_abs, app_nil_r, path_join_pieces by auto.
    destruct s as [|c1 s1] eqn:Es; [easy|]. rewrite <- Es in *. cbn [fst snd] in *.
    assert (H : namei max_links (w_fs w) true (if is_abs s then [] else w_cwd w) (pieces s) = At q HDir).
    { destruct (ends_with_sep s); [now apply namei_dot|now rewrite app_nil_r in Hl]. }
    now apply (namei_app _ (w_fs w) fl0 q [n]) in H. }
  assert (Hdot : bytes_eqb n (b ".") = false /\ bytes_eqb n (b "..") = false).
  { destruct Ho as (_ & _ & H1 & H2). split; [now destruct (bytes_eqb_spec n (b "."))|now destruct (bytes_eqb_spec n (b ".."))]. }
  destruct Hdot as [D1 D2]. split.
  - destruct (G fl) as [k E]. rewrite E, (namei_eq k), D1, D2. destruct (h_names (w_fs w) (q ++ [n])) as [[|i|t m]|]; auto; now rewrite namei_eq.
  - intros t m H. destruct (G false) as [k E]. rewrite E, (namei_eq k), D1, D2, H. reflexivity.
Qed.

(** ** The walk goes through the walked paths *)
Section Walk.
  Variables (w : world) (s : bytes).
  Hypothesis Hnames : forall q names n, w_list w q = Some names -> In n names -> ordinary n.

  Lemma enters_look d q : enters w s d q -> look_str w true d = At q HDir.
  Proof. intros [[_ H]|H]; [exact H|]. apply look_nonlink; [intros ? ? HH; discriminate HH|exact H]. Qed.

  Lemma enters_below d q n q' : ordinary n -> look_str w true d = At q HDir -> path_join d n <> s ->
    (enters w s (path_join d n) q' <-> q' = q ++ [n] /\ h_names (w_fs w) (q ++ [n]) = Some HDir).
  Proof.
    intros Ho Hl Hne. destruct (look_join w d q n false Ho Hl) as [H1 H2]. split.
    - intros [[H _]|H]; [easy|]. rewrite H1 in H. destruct (h_names (w_fs w) (q ++ [n])) as [[|i|t m]|] eqn:E; try discriminate H.
      + injection H as <-. auto.
      + rewrite (H2 t m eq_refl) in H. discriminate H.
    - intros [-> E]. right. rewrite H1, E. reflexivity.
  Qed.

  Lemma opt_concat_in {A B} (f : A -> option (list B)) : forall l r, opt_concat f l = Some r ->
    forall y, In y r <-> exists x z, In x l /\ f x = Some z /\ In y z.
  Proof.
    induction l as [|x l IH]; intros r; cbn [opt_concat].
    - intros H y. injection H as <-. split; [easy|]. intros (x & z & [] & _).
    - destruct (f x) as [z|] eqn:E; [|bad]. destruct (opt_concat f l) as [r'|] eqn:E2; [|bad]. intros H y. injection H as <-.
      rewrite in_app_iff, (IH r' eq_refl). split.
      + intros [H|(x' & z' & H1 & H2 & H3)]; [exists x, z; cbn; auto|exists x', z'; cbn; auto].
      + intros (x' & z' & [<-|H1] & H2 & H3); [left; congruence|right; eauto].
  Qed.
  Lemma opt_concat_some {A B} (f : A -> option (list B)) : forall l r x, opt_concat f l = Some r -> In x l -> exists z, f x = Some z.
  Proof.
    induction l as [|y l IH]; intros r x; [easy|]. cbn [opt_concat].
    destruct (f y) as [z|] eqn:E; [|bad]. destruct (opt_concat f l) as [r'|] eqn:E2; [|bad]. intros _ [<-|H]; eauto.
  Qed.

  (** [s] with names added is not [s]. *)
  Lemma walked_below rc t : walked w rc s t -> t = s \/ exists q, q <> [] /\ Forall ordinary q /\ t = str s q.
  Proof.
    induction 1 as [|d q names n _ Hd IH He Hl Hn]; auto. right. pose proof (Hnames _ _ _ Hl Hn) as Ho.
    destruct IH as [->|(p & Hp & Hf & ->)].
    - exists [n]. split; [easy|]. split; [auto|]. reflexivity.
    - exists (p ++ [n]). split; [now destruct p|]. split; [apply Forall_app; auto|]. now rewrite str_snoc.
  Qed.
  Lemma str_not_self q : q <> [] -> Forall ordinary q -> str s q <> s.
  Proof.
    intros Hq Hf E. apply (f_equal pieces) in E. rewrite str_pieces in E by auto. apply (f_equal (@length _)) in E.
    rewrite app_length in E. destruct q; [easy|]. cbn in E. lia.
  Qed.
  Lemma join_not_self rc d q names n : walked w rc s d -> w_list w q = Some names -> In n names -> path_join d n <> s.
  Proof.
    intros Hv Hl Hn. pose proof (Hnames _ _ _ Hl Hn) as Ho. destruct (walked_below rc d Hv) as [->|(p & Hp & Hf & ->)].
    - apply (str_not_self [n]); [easy|auto].
    - rewrite <- str_snoc. apply str_not_self; [now destruct p|apply Forall_app; auto].
  Qed.
  (** Only the input itself is followed. *)
  Lemma walked_follow rc t : s <> [] -> is_abs s = false -> walked w rc s t -> (std_path_eqb t s = true <-> t = s).
  Proof.
    intros Hs Ha Hv. destruct (walked_below rc t Hv) as [->|(p & Hp & Hf & ->)].
    - rewrite is_root_self. tauto.
    - rewrite is_root by auto. split; [bad|]. intros E. now apply str_not_self in E.
  Qed.

  Lemma walk_in_walked fuel : forall d q l, walked w true s d -> enters w s d q -> walk_in fuel w d = Some l ->
    forall t, In (WEntry t) l -> walked w true s t.
  Proof.
    induction fuel as [|k IH]; intros d q l Hv He; cbn [walk_in]; [bad|]. unfold read_dir. rewrite (enters_look _ _ He).
    destruct (w_list w q) as [names|] eqn:El; [|intros H t Ht; injection H as <-; destruct Ht as [Ht|[]]; discriminate Ht].
    intros H t Ht. apply (opt_concat_in _ _ _ H) in Ht as (n & z & Hn & Hz & Ht).
    assert (Hv' : walked w true s (path_join d n)) by (eapply vis_below; eauto).
    assert (Hdef : z = [WEntry (path_join d n)] -> walked w true s t).
    { intros ->. destruct Ht as [Ht|[]]. now injection Ht as <-. }
    destruct (h_names (w_fs w) (q ++ [n])) as [[|i|u m]|] eqn:En; try (injection Hz as <-; now apply Hdef).
    destruct (walk_in k w (path_join d n)) as [l'|] eqn:Ew; [|discriminate Hz]. injection Hz as <-.
    destruct Ht as [Ht|Ht]; [now injection Ht as <-|]. apply (IH (path_join d n) (q ++ [n]) l'); auto.
    apply (enters_below d q n (q ++ [n])); eauto; [now apply enters_look|eapply join_not_self; eauto].
  Qed.

  (** No directory met fails to be listed. *)
  Definition listable (rc : bool) : Prop := forall d q, rc = true -> walked w rc s d -> enters w s d q -> w_list w q <> None.

  Lemma walk_in_complete fuel : forall d q l, listable true -> walked w true s d -> enters w s d q -> walk_in fuel w d = Some l ->
    ~ In WFail l /\
    exists names, w_list w q = Some names /\ forall n, In n names -> In (WEntry (path_join d n)) l /\
      (h_names (w_fs w) (q ++ [n]) = Some HDir -> exists k l', walk_in k w (path_join d n) = Some l' /\ incl l' l).
  Proof.
    induction fuel as [|k IH]; intros d q l HL Hv He; cbn [walk_in]; [bad|]. unfold read_dir. rewrite (enters_look _ _ He).
    destruct (w_list w q) as [names|] eqn:El; [|exfalso; eapply HL; eauto].
    intros H. assert (Hd : forall n, In n names -> walked w true s (path_join d n) /\
      (h_names (w_fs w) (q ++ [n]) = Some HDir -> enters w s (path_join d n) (q ++ [n]))).
    { intros n Hn. split; [eapply vis_below; eauto|]. intros E. apply (enters_below d q n (q ++ [n])); eauto; [now apply enters_look|eapply join_not_self; eauto]. }
    split.
    - intros Hf. apply (opt_concat_in _ _ _ H) in Hf as (n & z & Hn & Hz & Hf).
      assert (Hdef : z = [WEntry (path_join d n)] -> False).
      { intros ->. destruct Hf as [Hf|[]]. discriminate Hf. }
      destruct (h_names (w_fs w) (q ++ [n])) as [[|i|u m]|] eqn:En; try (injection Hz as <-; now apply Hdef).
      destruct (walk_in k w (path_join d n)) as [l'|] eqn:Ew; [|discriminate Hz]. injection Hz as <-.
      destruct Hf as [Hf|Hf]; [discriminate Hf|]. destruct (Hd n Hn) as [H1 H2].
      destruct (IH (path_join d n) (q ++ [n]) l' HL H1 (H2 En) Ew) as [Hno _]. now apply Hno.
    - exists names. split; auto. intros n Hn. destruct (opt_concat_some _ _ _ n H Hn) as [z Hz].
      assert (Hall : forall y, In y z -> In y l). { intros y Hy. apply (opt_concat_in _ _ _ H). eauto. }
      destruct (h_names (w_fs w) (q ++ [n])) as [[|i|u m]|] eqn:En; try (injection Hz as <-; split; [apply Hall; now left|bad]).
      destruct (walk_in k w (path_join d n)) as [l'|] eqn:Ew; [|discriminate Hz]. injection Hz as <-. split; [apply Hall; now left|].
      intros _. exists k, l'. split; auto. intros y Hy. apply Hall. now right.
  Qed.

  (** The input exists. *)
  Hypothesis Hex : exists q n, look_str w true s = At q n.

  Lemma walk_cases fuel rc l : walk fuel w s rc = Some l ->
    (l = [WEntry s] /\ (rc = true -> forall q, look_str w true s <> At q HDir)) \/
    (exists q l', rc = true /\ look_str w true s = At q HDir /\ walk_in fuel w s = Some l' /\ l = WEntry s :: l').
  Proof.
    destruct Hex as (q & n & Hl). unfold walk. rewrite Hl. destruct (stat_lstat w s q n Hl) as (q' & n' & E). rewrite E.
    assert (Hent : n = HDir -> (if rc then match walk_in fuel w s with Some l => Some (WEntry s :: l) | None => None end else Some [WEntry s]) = Some l ->
      (l = [WEntry s] /\ (rc = true -> forall q0, At q n <> At q0 HDir)) \/
      (exists q0 l', rc = true /\ At q n = At q0 HDir /\ walk_in fuel w s = Some l' /\ l = WEntry s :: l')).
    { intros ->. destruct rc.
      - destruct (walk_in fuel w s) as [l'|]; [|bad]. intros H. injection H as <-. right. eauto 6.
      - intros H. injection H as <-. left. split; auto. bad. }
    destruct n' as [|i|t m].
    - apply (look_nonlink w s) in E; [|easy]. rewrite Hl in E. injection E as <- ->. now apply Hent.
    - apply (look_nonlink w s) in E; [|easy]. rewrite Hl in E. injection E as <- ->. intros H. injection H as <-. left. split; auto. easy.
    - destruct n; [now apply Hent|intros H; injection H as <-; left; split; auto; easy..].
  Qed.

  Lemma in_before_fail t : forall l, In t (before_fail l) -> In (WEntry t) l.
  Proof. induction l as [|[x|] l IH]; cbn; [easy|intuition congruence|easy]. Qed.
  Lemma before_fail_all t : forall l, ~ In WFail l -> In (WEntry t) l -> In t (before_fail l).
  Proof.
    induction l as [|[x|] l IH]; cbn; [easy| |intros H; exfalso; apply H; now left].
    intros H [Ht|Ht]; [left; congruence|right; apply IH; auto].
  Qed.

  Theorem walk_sound fuel rc l t : walk fuel w s rc = Some l -> In t (before_fail l) -> walked w rc s t.
  Proof.
    intros H Ht. apply in_before_fail in Ht. destruct (walk_cases _ _ _ H) as [[-> _]|(q & l' & -> & Hl & Hw & ->)].
    - destruct Ht as [Ht|[]]. injection Ht as <-. constructor.
    - destruct Ht as [Ht|Ht]; [injection Ht as <-; constructor|]. eapply (walk_in_walked fuel s q l'); eauto; [constructor|left; auto].
  Qed.

  Theorem walk_complete fuel rc l t : listable rc -> walk fuel w s rc = Some l -> walked w rc s t -> In t (before_fail l).
  Proof.
    intros HL H Ht. destruct (walk_cases _ _ _ H) as [[-> Hno]|(q & l' & -> & Hl & Hw & ->)].
    - left. induction Ht as [|d q names n Hrc Hd IH He _ _]; auto. exfalso. subst d. apply (Hno Hrc q). now apply enters_look.
    - assert (He0 : enters w s s q) by (left; auto).
      destruct (walk_in_complete fuel s q l' HL (vis_self _ _ _) He0 Hw) as [Hnf _].
      apply before_fail_all; [intros [Hf|Hf]; [discriminate Hf|auto]|].
      assert (G : In (WEntry t) (WEntry s :: l') /\ forall q', enters w s t q' -> exists k l2, walk_in k w t = Some l2 /\ incl l2 l'); [|exact (proj1 G)].
      induction Ht as [|d q0 names n _ Hd IH He Hn1 Hn2].
      + split; [now left|]. intros q' _. exists fuel, l'. split; auto. intros y Hy. exact Hy.
      + destruct IH as [_ IH]. destruct (IH q0 He) as (k & l2 & Hw2 & Hi).
        destruct (walk_in_complete k d q0 l2 HL Hd He Hw2) as (_ & names' & En & Hall). rewrite Hn1 in En. injection En as <-.
        destruct (Hall n Hn2) as [H1 H2]. split; [right; auto|]. intros q' Hq'.
        apply (enters_below d q0 n q') in Hq'; [|eauto|now apply enters_look|eapply join_not_self; eauto].
        destruct Hq' as [_ Hq']. destruct (H2 Hq') as (k' & l3 & H3 & H4). exists k', l3. split; auto. intros y Hy. auto.
  Qed.
End Walk.

(** ** One path more *)
Definition kept (w : world) (pre : bytes) (l : list entry) (contents : list bytes) (s : bytes) (follow : bool) : Prop :=
  all_of w pre (fun s' f' => s' = s /\ f' = follow) l contents.

Lemma snoc_has l e st p nd : all_ok l -> add_entry (after l) e = (st, Ok tt) -> has (l ++ [e]) p nd -> has l p nd \/ origin [e] p nd.
Proof.
  intros Hok Ha H. destruct (after_snoc l e st Hok Ha) as [<- Hok']. destruct (after_sim l) as (m & Hi & Hr & _). fold (after l) in Hi, Hr.
  pose proof (add_entry_sim (after l) m e Hi Hr) as Hs. rewrite Ha in Hs. destruct (spec_add_entry m e) as [m' o] eqn:E.
  destruct Hs as (Hi' & Hr' & _). apply Hr' in H. destruct (origin_spec_add m e p nd m' o E H) as [G|G]; auto. left. now apply Hr.
Qed.
Lemma has_more l ext p nd : all_ok l -> has l p nd -> has (l ++ ext) p nd.
Proof. intros Hok H. unfold has. rewrite after_app by auto. now apply stored_kept. Qed.

Lemma copied_mono w f s contents ext nd : copied w f s contents nd -> copied w f s (contents ++ ext) nd.
Proof. intros (q & n & H1 & H2). exists q, n. split; [exact H1|]. now apply mirrors_as_mono. Qed.
Lemma kept_mono w pre l contents s f l2 c2 : all_ok l -> kept w pre l contents s f -> kept w pre (l ++ l2) (contents ++ c2) s f.
Proof.
  intros Hok H s' f' Hs. destruct (H s' f' Hs) as (p & H1 & H2). exists p. split; [exact H1|]. intros Hp.
  destruct (H2 Hp) as (q & n & H3 & H4). exists q, n. split; [exact H3|]. destruct n as [|i|t m].
  - destruct H4 as [mt H4]. exists mt. now apply has_more.
  - destruct H4 as [H4|(H4 & nd & H5 & H6)]; [left; exact H4|]. right. split; [exact H4|]. exists nd. split; [now apply has_more|now apply mirrors_as_mono].
  - destruct H4 as (nd & H5 & H6). exists nd. split; [now apply has_more|now apply mirrors_as_mono].
Qed.

(** What one accepted path does. *)
Lemma one_added w pre s follow l contents c' : all_ok l ->
  add_entry_from_path w pre s follow (mkCreator (after l) contents) = (c', Ok tt) ->
  exists l2 c2, cr_entries c' = after (l ++ l2) /\ cr_contents c' = contents ++ c2 /\ all_ok (l ++ l2) /\
    kept w pre (l ++ l2) (contents ++ c2) s follow /\
    (forall p nd, has (l ++ l2) p nd -> has l p nd \/
       (stands_for s (pieces pre ++ p) /\ copied w follow s (contents ++ c2) nd) \/
       (nd = (KDir, mkMeta 1000 1000 493 0) /\ p <> [] /\ exists t, t <> [] /\ stands_for s (pieces pre ++ p ++ t))).
Proof.
  intros Hok Hadd. pose proof Hadd as Hadd0. unfold add_entry_from_path in Hadd.
  destruct (is_abs s) eqn:Ha; [rewrite from_path_abs in Hadd by auto; discriminate Hadd|].
  destruct (forallb utf8 (filter not_dot (pieces s))) eqn:Hu; [|rewrite from_path_bad in Hadd by auto; discriminate Hadd].
  assert (Hpfx : exists p, stands_for s (pieces pre ++ p) /\ (p <> [] -> exists q n, look_str w follow s = At q n)).
  { destruct s as [|c0 s0] eqn:Es.
    - cbn [from_path] in Hadd. pose proof (strip_prefix_pieces [] pre) as H.
      change (join (filter _ (pieces []))) with (@nil N) in Hadd. destruct (strip_prefix [] pre) as [p|]; [|discriminate Hadd].
      exists (pieces p). split; [split; auto|]. intros Hp. destruct p as [|y p]; [exfalso; now apply Hp|]. cbn [nonempty] in Hadd. discriminate Hadd.
    - rewrite <- Es in *. assert (Hs : s <> []) by (now rewrite Es). destruct (from_path_ok s Hs Ha Hu) as [H1 H2]. rewrite H1 in Hadd.
      pose proof (strip_prefix_pieces (join (filter not_dot (pieces s))) pre) as H. rewrite H2 in H.
      destruct (strip_prefix (join (filter not_dot (pieces s))) pre) as [p|]; [|discriminate Hadd].
      exists (pieces p). split; [split; auto|]. intros Hp. destruct (nonempty p) eqn:En; [|destruct p; [exfalso; now apply Hp|discriminate En]].
      unfold new_from_path in Hadd. destruct (detect_kind w s follow) as [[k q]| | |] eqn:Ed; try discriminate Hadd.
      destruct (detected _ _ _ _ _ Ed) as (n & Hl & _). eauto. }
  destruct Hpfx as (p & Hst & Hlook).
  assert (Hnil : p = [] -> c' = mkCreator (after l) contents ->
    exists l2 c2, cr_entries c' = after (l ++ l2) /\ cr_contents c' = contents ++ c2 /\ all_ok (l ++ l2) /\
      kept w pre (l ++ l2) (contents ++ c2) s follow /\
      (forall p nd, has (l ++ l2) p nd -> has l p nd \/
         (stands_for s (pieces pre ++ p) /\ copied w follow s (contents ++ c2) nd) \/
         (nd = (KDir, mkMeta 1000 1000 493 0) /\ p <> [] /\ exists t, t <> [] /\ stands_for s (pieces pre ++ p ++ t)))).
  { intros -> ->. exists [], []. rewrite !app_nil_r. split; [reflexivity|]. split; [reflexivity|]. split; [exact Hok|].
    split; [|intros p0 nd0 H0; now left]. intros s' f' [-> ->]. exists []. split; [exact Hst|]. intros H0. now destruct H0. }
  destruct (list_eq_dec (list_eq_dec N.eq_dec) p []) as [Hp|Hp].
  { apply Hnil; auto. destruct s as [|c0 s0] eqn:Es.
    - cbn [from_path] in Hadd. change (join (filter _ (pieces []))) with (@nil N) in Hadd. destruct (strip_prefix [] pre) as [[|y a]|]; [|discriminate Hadd|discriminate Hadd].
      cbn [nonempty] in Hadd. congruence.
    - rewrite <- Es in *. assert (Hs : s <> []) by (now rewrite Es). destruct Hst as [_ Hst]. destruct (one_path s pre p Hs Ha Hu Hst) as (x & a & H1 & H2 & H3 & H4).
      rewrite H1, H2, (H4 Hp) in Hadd. cbn [nonempty] in Hadd. congruence. }
  destruct (Hlook Hp) as (q & n & Hl). assert (Hs : s <> []) by (intros ->; discriminate Hl). pose proof (proj2 Hst) as Hst2.
  assert (Hread : forall i, n = HFile i -> at_special (w_attr w q) = false -> at_readable (w_attr w q) = true).
  { intros i -> Hs0. destruct (at_readable (w_attr w q)) eqn:Er; auto. exfalso.
    destruct (one_path s pre p Hs Ha Hu Hst2) as (x & a & H1 & H2 & H3 & _). rewrite H1, H2 in Hadd.
    assert (Hna : nonempty a = true) by (destruct a; [exfalso; now apply Hp|reflexivity]). rewrite Hna in Hadd.
    unfold new_from_path in Hadd. rewrite (detect_look w s pre p Hs Ha Hu Hst2 follow q (HFile i) Hl) in Hadd. cbn [bind kind_at] in Hadd. rewrite Hs0, Er in Hadd. discriminate Hadd. }
  destruct (AddSession.one_entry w s pre p Hs Ha Hu Hst2 follow q n (mkCreator (after l) contents) Hp Hl Hread) as (e & ext & E & Ep & Hk).
  rewrite E in Hadd0. cbn [cr_entries cr_contents] in *. destruct (add_entry (after l) e) as [st r] eqn:Ea. injection Hadd0 as <- ->.
  destruct (after_snoc l e st Hok Ea) as [Haf Hok']. exists [e], ext. cbn [cr_entries cr_contents]. split; [now rewrite Haf|]. split; [reflexivity|]. split; [exact Hok'|].
  pose proof (dotless_filter s _ _ Hst2) as Hdot.
  destruct (rev p) as [|x d'] eqn:Erev. { exfalso. apply Hp. rewrite <- (rev_involutive p), Erev. reflexivity. }
  assert (Epd : p = rev d' ++ [x]) by (rewrite <- (rev_involutive p), Erev; reflexivity). set (d := rev d') in *. rewrite Epd in Ep.
  destruct (dotless_split (e_path e) d x Ep) as [Hd Hlast]; [now rewrite <- Epd|].
  split.
  - intros s' f' [-> ->]. exists p. split; [exact Hst|]. intros _. exists q, n. split; [exact Hl|].
    destruct Hk as [(_ & _ & i & -> & Hsp)|(k & Ek & Hm & Hnsp)]; [left; exact Hsp|].
    assert (Hx : x <> b "..").
    { intros ->. pose proof (add_entry_sim (after l)) as Hsim. destruct (after_sim l) as (m & Hi & Hr & _). fold (after l) in Hi, Hr.
      specialize (Hsim m e Hi Hr). rewrite Ea in Hsim. destruct (spec_add_entry m e) as [m' o] eqn:Es. destruct Hsim as (_ & _ & Ho).
      unfold spec_add_entry, spec_add in Es. rewrite Hd, Ek in Es. unfold last_of in Es. rewrite Ep in Es.
      rewrite drop_dots_dotless in Es by (now rewrite <- Epd). rewrite rev_app_distr in Es. cbn [rev app] in Es.
      change (bytes_eqb (b "..") (b "..")) with true in Es. destruct (blocked m d); injection Es as _ Es; congruence. }
    specialize (Hlast Hx). destruct (accepted l e st k d x Hok Ek Hd Hlast Ea) as (_ & _ & _ & B4 & _). rewrite <- Epd in B4.
    assert (Hfst : match n with HDir => k = KDir | HFile _ => exists z a, k = KFile z a | HLink _ _ => exists t, k = KLink t end).
    { destruct Hm as (_ & _ & _ & _ & Hm). cbn [fst] in Hm. destruct n; [exact Hm|destruct Hm as (a & Hm & _); eauto|eauto]. }
    destruct B4 as [B4|(-> & mt & B4)].
    + destruct n as [|i|t m]; [subst k; eauto|right; split; [apply (Hread i eq_refl), (Hnsp i eq_refl)|]; eauto|eauto].
    + destruct n as [|i|t m]; [exists mt; apply has_more; auto|destruct Hfst as (z & a & Hfst); discriminate Hfst|destruct Hfst as (t' & Hfst); discriminate Hfst].
  - intros p0 nd0 H0. destruct (snoc_has l e st p0 nd0 Hok Ea H0) as [H1|[(e' & [<-|[]] & G)|(-> & e' & [<-|[]] & Hp0 & t & Ht)]]; [left; exact H1| |].
    + right. left. destruct G as (G1 & G2 & y & G3 & ->). rewrite Hd in *.
      assert (y = x) as ->.
      { unfold last_of in G3. rewrite Ep, drop_dots_dotless, rev_app_distr in G3 by (now rewrite <- Epd). cbn [rev app] in G3. destruct (bytes_eqb x (b "..")); congruence. }
      rewrite <- Epd. split; [exact Hst|]. exists q, n. split; [exact Hl|].
      destruct Hk as [(Hk & _)|(k & Ek & Hm & _)]; [rewrite Hk in G1; discriminate G1|]. rewrite Ek in G1. injection G1 as G1.
      destruct nd0 as [k0 m0]. cbn [fst snd] in *. now rewrite <- G1, <- G2.
    + right. right. split; [reflexivity|]. split; [exact Hp0|]. exists (t ++ [x]). split; [now destruct t|].
      rewrite Hd in Ht. rewrite (app_assoc p0), <- Ht, <- Epd. exact Hst.
Qed.

(** ** Any number of paths *)
Definition from_list (S : list (bytes * bool)) : bytes -> bool -> Prop := fun s f => In (s, f) S.
Definition filled (w : world) (pre : bytes) (S : list (bytes * bool)) (c : creator) : Prop :=
  exists l, cr_entries c = after l /\ all_ok l /\
    only_from w pre (from_list S) l (cr_contents c) /\ all_of w pre (from_list S) l (cr_contents c).

Lemma filled_nil w pre : filled w pre [] creator_empty.
Proof.
  exists []. split; [reflexivity|]. split; [exact all_ok_nil|]. split; [intros p nd H; now apply has_nil in H|intros s f []].
Qed.

Lemma filled_each w pre l0 : forall S c c', filled w pre S c -> add_each w pre l0 c = (c', Ok tt) -> filled w pre (S ++ l0) c'.
Proof.
  induction l0 as [|[s f] l0 IH]; intros S c c' Hf; cbn [add_each].
  - intros H. injection H as <-. now rewrite app_nil_r.
  - destruct (add_entry_from_path w pre s f c) as [c1 r] eqn:E. destruct r as [[]| | |]; try bad. intros H.
    replace (S ++ (s, f) :: l0) with ((S ++ [(s, f)]) ++ l0) by (now rewrite <- app_assoc). eapply IH; [|exact H]. clear H IH.
    destruct Hf as (l & Hc & Hok & Hsnd & Hcmp). destruct c as [st contents]. cbn [cr_entries cr_contents] in *. subst st.
    destruct (one_added w pre s f l contents c1 Hok E) as (l2 & c2 & H1 & H2 & H3 & H4 & H5). exists (l ++ l2). rewrite H2.
    split; [exact H1|]. split; [exact H3|]. split.
    + intros p nd Hh. destruct (H5 p nd Hh) as [G|[[G1 G2]|(G1 & G2 & t & G3 & G4)]].
      * destruct (Hsnd p nd G) as [(s' & f' & A1 & A2 & A3)|(A1 & A2 & s' & f' & t & A3 & A4)].
        -- left. exists s', f'. split; [apply in_app_iff; left; exact A1|]. split; [exact A2|]. now apply copied_mono.
        -- right. split; [exact A1|]. split; [exact A2|]. exists s', f', t. split; [apply in_app_iff; left; exact A3|exact A4].
      * left. exists s, f. split; [apply in_app_iff; right; now left|]. split; [exact G1|exact G2].
      * right. split; [exact G1|]. split; [exact G2|]. exists s, f, t. split; [apply in_app_iff; right; now left|]. split; [exact G3|exact G4].
    + intros s' f' Hin. apply in_app_iff in Hin as [Hin|[Hin|[]]].
      * apply (kept_mono w pre l contents s' f' l2 c2 Hok); [|split; reflexivity]. intros x y [-> ->]. now apply Hcmp.
      * injection Hin as <- <-. apply H4. split; reflexivity.
Qed.

Lemma from_mono w pre P Q l contents : (forall s f, P s f <-> Q s f) ->
  (only_from w pre P l contents -> only_from w pre Q l contents) /\ (all_of w pre P l contents -> all_of w pre Q l contents).
Proof.
  intros H. split.
  - intros G p nd Hh. destruct (G p nd Hh) as [(s & f & A1 & A2)|(A1 & A2 & s & f & t & A3 & A4)].
    + left. exists s, f. split; [now apply H|exact A2].
    + right. split; [exact A1|]. split; [exact A2|]. exists s, f, t. split; [now apply H|exact A4].
  - intros G s f Hs. apply G. now apply H.
Qed.
Lemma only_from_weaken w pre (P Q : bytes -> bool -> Prop) l contents : (forall s f, P s f -> Q s f) -> only_from w pre P l contents -> only_from w pre Q l contents.
Proof.
  intros H G p nd Hh. destruct (G p nd Hh) as [(s & f & A1 & A2)|(A1 & A2 & s & f & t & A3 & A4)].
  - left. exists s, f. split; [now apply H|exact A2].
  - right. split; [exact A1|]. split; [exact A2|]. exists s, f, t. split; [now apply H|exact A4].
Qed.

Section Fill.
  Variables (w : world) (pre : bytes) (rc : bool).
  Hypothesis Hnames : forall q names n, w_list w q = Some names -> In n names -> ordinary n.

  Definition goes_through (xs : list bytes) (S : list (bytes * bool)) : Prop :=
    (forall s f, In (s, f) S -> exists x, In x xs /\ walked w rc x s /\ (f = true <-> s = x)) /\
    ((forall x, In x xs -> listable w x rc) -> forall s f x, In x xs -> walked w rc x s -> (f = true <-> s = x) -> In (s, f) S).

  Lemma infiles_filled fuel : forall xs S c c', Forall (fun x => is_abs x = false /\ exists q n, look_str w true x = At q n) xs ->
    filled w pre S c -> add_infiles fuel w pre xs rc c = (c', Ok tt) ->
    exists S', filled w pre (S ++ S') c' /\ goes_through xs S'.
  Proof.
    induction xs as [|x xs IH]; intros S c c' Hx Hf; cbn [add_infiles].
    - intros H. injection H as <-. exists []. rewrite app_nil_r. split; [exact Hf|]. split; [intros s f []|intros _ s f x []].
    - destruct (add_from_path fuel w pre x rc c) as [c1 r] eqn:E. destruct r as [[]| | |]; try bad. intros H.
      apply Forall_cons_iff in Hx as [[Hrel Hex] Hx]. assert (Hne : x <> []) by (intros ->; destruct Hex as (q & n & Hex); discriminate Hex).
      unfold add_from_path in E. destruct (walk fuel w x rc) as [items|] eqn:Ew; [|discriminate E].
      apply (filled_each w pre _ S) in E; [|exact Hf]. destruct (IH _ _ _ Hx E H) as (S' & G1 & G2 & G3).
      eexists. split; [rewrite app_assoc; exact G1|]. split.
      + intros s f Hin. apply in_app_iff in Hin as [Hin|Hin].
        * apply in_map_iff in Hin as (t & Ht & Hin). injection Ht as -> <-. exists x. split; [now left|].
          assert (Hv : walked w rc x s) by (eapply walk_sound; eauto). split; [exact Hv|]. eapply walked_follow; eauto.
        * destruct (G2 s f Hin) as (y & A1 & A2). exists y. split; [now right|exact A2].
      + intros HL s f y Hy Hv Hfo. apply in_app_iff. destruct Hy as [<-|Hy]; [left|right; eapply G3; eauto; intros z Hz; apply HL; now right].
        apply in_map_iff. exists s. split.
        * f_equal. pose proof (walked_follow w x Hnames rc s Hne Hrel Hv) as Hiff. destruct f; [apply Hiff, Hfo; reflexivity|]. destruct (std_path_eqb s x); [|reflexivity]. symmetry. apply Hfo, Hiff. reflexivity.
        * eapply walk_complete; eauto. apply HL. now left.
  Qed.
End Fill.
