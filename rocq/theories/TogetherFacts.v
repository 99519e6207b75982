(** Creations at the same time: a run that reads aside of the outputs reads the same. *)
From Verif Require Export SpecTogether OwnFacts.
From Verif Require LiveFacts.

Local Ltac bad := let H := fresh in intros H; discriminate H.

Record calm (asked : path -> Prop) (w w1 : world) : Prop := {
  cm_kept : forall q n, h_names (w_fs w) q = Some n -> ~ asked q \/ (forall i, n <> HFile i) -> h_names (w_fs w1) q = Some n;
  cm_new : forall q, h_names (w_fs w1) q <> h_names (w_fs w) q -> exists d k k', q = d ++ [k] /\ asked (d ++ [k']);
  cm_data : forall q i, h_names (w_fs w) q = Some (HFile i) -> h_data (w_fs w1) i = h_data (w_fs w) i;
  cm_cwd : w_cwd w1 = w_cwd w;
  cm_told : forall q, aside asked q -> h_names (w_fs w1) q = h_names (w_fs w) q -> w_attr w1 q = w_attr w q /\ w_list w1 q = w_list w q }.

Lemma namei_calm (asked : path -> Prop) f g : (forall q n, h_names f q = Some n -> ~ asked q \/ (forall i, n <> HFile i) -> h_names g q = Some n) ->
  forall k fl c cur q n, namei k f fl cur c = At q n -> ~ asked q \/ (forall i, n <> HFile i) -> namei k g fl cur c = At q n.
Proof.
  intros Hfg. induction k as [|k IH]; intros fl; (induction c as [|x c IHc]; intros cur q n H Ha; rewrite namei_eq in H; rewrite namei_eq; [exact H|]);
    (destruct (bytes_eqb x (b ".")); [now apply IHc|]); (destruct (bytes_eqb x (b "..")); [now apply IHc|]);
    (destruct (h_names f (cur ++ [x])) as [[|i|t m]|] eqn:E; [rewrite (Hfg _ _ E) by (right; discriminate)| |rewrite (Hfg _ _ E) by (right; discriminate)|destruct c; discriminate H]).
  - now apply IHc.
  - destruct c; [|discriminate H]. assert (cur ++ [x] = q /\ HFile i = n) as [<- <-] by (split; congruence). now rewrite (Hfg _ _ E Ha).
  - exact H.
  - now apply IHc.
  - destruct c; [|discriminate H]. assert (cur ++ [x] = q /\ HFile i = n) as [<- <-] by (split; congruence). now rewrite (Hfg _ _ E Ha).
  - destruct (match c with [] => negb fl | _ => false end); [exact H|]. now apply IH.
Qed.

Section Calm.
  Variables (asked : path -> Prop) (w : world) (W : world -> Prop).
  Hypothesis P : possible w.
  Hypothesis HW : forall w1, W w1 -> calm asked w w1.

  Lemma look_calm w1 fl s q n : W w1 -> look_str w fl s = At q n -> ~ asked q \/ (forall i, n <> HFile i) -> look_str w1 fl s = At q n.
  Proof.
    intros H1. apply HW in H1. unfold look_str. destruct s as [|c s]; [bad|]. unfold look, opath_of. rewrite (cm_cwd _ _ _ H1). apply namei_calm. exact (cm_kept _ _ _ H1).
  Qed.
  Lemma found_calm w1 fl s q n : W w1 -> look_str w fl s = At q n -> ~ asked q -> h_names (w_fs w1) q = h_names (w_fs w) q.
  Proof.
    intros H1 Hl Ha. apply HW in H1. destruct (look_found w P fl s q n Hl) as [[-> _]|Hq].
    - destruct (list_eq_dec (list_eq_dec N.eq_dec) (@nil bytes) []) as [_|E]; [|easy].
      assert (D : h_names (w_fs w1) [] = h_names (w_fs w) [] \/ h_names (w_fs w1) [] <> h_names (w_fs w) []).
      { destruct (h_names (w_fs w1) []) as [[|i|t m]|], (h_names (w_fs w) []) as [[|j|u v]|]; try (left; reflexivity); try (right; discriminate).
        - destruct (N.eq_dec i j) as [->|Hn]; [now left|right; congruence].
        - destruct (list_eq_dec N.eq_dec t u) as [->|Hn]; [|right; congruence]. destruct (Z.eq_dec m v) as [->|Hn]; [now left|right; congruence]. }
      destruct D as [D|D]; [exact D|]. destruct (cm_new _ _ _ H1 _ D) as (d & k & k' & E & _). now destruct d.
    - rewrite Hq. apply (cm_kept _ _ _ H1); auto.
  Qed.
  Lemma told_calm w1 fl s q n : W w1 -> look_str w fl s = At q n -> aside asked q -> w_attr w1 q = w_attr w q /\ w_list w1 q = w_list w q.
  Proof. intros H1 Hl Ha. apply (cm_told _ _ _ (HW _ H1)); [exact Ha|]. eapply found_calm; eauto. apply Ha. Qed.
  Lemma data_calm w1 fl s q i : W w1 -> look_str w fl s = At q (HFile i) -> h_data (w_fs w1) i = h_data (w_fs w) i.
  Proof.
    intros H1 Hl. destruct (look_found w P fl s q _ Hl) as [[_ E]|Hq]; [discriminate E|]. apply (cm_data _ _ _ (HW _ H1) q i Hq).
  Qed.

  Variable H : history.
  Hypothesis Hh : forall t, W (hs_at H t).

  Lemma live_read_calm t s fl q i : look_str w fl s = At q (HFile i) -> aside asked q -> at_special (w_attr w q) = false -> at_readable (w_attr w q) = true ->
    live_read H t s = Ok (h_data (w_fs w) i).
  Proof.
    intros Hl Ha Hs Hr. assert (Hl' : look_str w true s = At q (HFile i)) by (destruct fl; [exact Hl|apply look_nonlink; [intros ? ? HH; discriminate HH|exact Hl]]).
    unfold live_read. rewrite (look_calm _ _ _ _ _ (Hh t) Hl' (or_introl (proj1 Ha))). cbn [looked_up bind fst snd].
    rewrite (proj1 (told_calm _ _ _ _ _ (Hh t) Hl' Ha)), Hs, Hr. cbn [negb orb]. now rewrite (data_calm _ _ _ _ _ (Hh (hs_read H t)) Hl').
  Qed.

  Lemma live_new_calm t s a l fl x : new_from_path w s a l fl = Ok x -> (forall q n, look_str w fl s = At q n -> aside asked q) ->
    snd (live_new H t s a l fl) = Ok x.
  Proof.
    intros E Ha. unfold live_new, live_detect. unfold new_from_path, detect_kind in E.
    destruct (look_str w false s) as [q n|q|e] eqn:El; cbn [looked_up bind] in E; [|discriminate E..].
    assert (Hl : forall k, (forall tg m, n <> HLink tg m) -> look_str (hs_at H k) false s = At q n /\ aside asked q).
    { intros k Hn. assert (A : aside asked q) by (apply (Ha q n); destruct fl; [apply look_nonlink; auto|exact El]). split; [|exact A].
      apply (look_calm _ _ _ _ _ (Hh k) El). left. apply A. }
    destruct n as [|i|tg m].
    - destruct (Hl t) as [L A]; [discriminate|]. rewrite L. cbn [looked_up live_kind_at]. cbn [kind_at bind] in E. unfold meta_at in *.
      rewrite (proj1 (told_calm _ _ _ _ _ (Hh t) El A)). cbn [snd]. exact E.
    - destruct (Hl t) as [L A]; [discriminate|]. rewrite L. cbn [looked_up live_kind_at]. cbn [kind_at bind] in E. unfold meta_at in *.
      rewrite (proj1 (told_calm _ _ _ _ _ (Hh t) El A)), (data_calm _ _ _ _ _ (Hh t) El). destruct (at_special (w_attr w q)) eqn:Esp; cbn [bind snd] in *; [exact E|].
      destruct (at_readable (w_attr w q)) eqn:Er; [|discriminate E]. rewrite (live_read_calm _ _ _ _ _ El A Esp Er). cbn [bind]. exact E.
    - rewrite (look_calm _ _ _ _ _ (Hh t) El) by (right; discriminate). cbn [looked_up].
      destruct fl.
      + destruct (look_str w true s) as [q1 n1|q1|e1] eqn:E1; cbn [looked_up bind fst snd] in E; [|discriminate E..].
        assert (A : aside asked q1) by (now apply (Ha q1 n1)).
        rewrite (look_calm _ _ _ _ _ (Hh (S t)) E1 (or_introl (proj1 A))). cbn [looked_up].
        pose proof (LiveFacts.look_canonical w s q1 n1 false P E1) as Ec.
        rewrite (look_calm _ _ _ _ _ (Hh (S (S t))) Ec (or_introl (proj1 A))). cbn [looked_up bind fst snd]. unfold meta_at in *.
        rewrite (proj1 (told_calm _ _ _ _ _ (Hh (S (S t))) E1 A)). destruct n1 as [|i|tg1 m1]; cbn [live_kind_at kind_at snd bind] in *.
        * exact E.
        * rewrite (proj1 (told_calm _ _ _ _ _ (Hh (S (S t))) E1 A)), (data_calm _ _ _ _ _ (Hh (S (S t))) E1). destruct (at_special (w_attr w q1)) eqn:Esp; cbn [snd]; [exact E|].
          destruct (at_readable (w_attr w q1)) eqn:Er; [|discriminate E]. rewrite (live_read_calm _ _ _ _ _ Ec A Esp Er). cbn [bind]. exact E.
        * unfold live_read_link. rewrite (look_calm _ _ _ _ _ (Hh (S (S (S t)))) Ec (or_introl (proj1 A))). cbn [looked_up bind snd]. exact E.
      + cbn [live_kind_at kind_at bind snd] in *. assert (A : aside asked q) by (apply (Ha q _ El)). unfold meta_at in *.
        rewrite (proj1 (told_calm _ _ _ _ _ (Hh t) El A)). unfold live_read_link. rewrite (look_calm _ _ _ _ _ (Hh (S t)) El) by (right; discriminate). cbn [looked_up bind snd]. exact E.
  Qed.
  Lemma live_add_calm t pre s fl c c' : add_entry_from_path w pre s fl c = (c', Ok tt) -> (forall q n, look_str w fl s = At q n -> aside asked q) ->
    exists t', live_add H t pre s fl c = (t', c', Ok tt).
  Proof.
    unfold live_add, add_entry_from_path. destruct (from_path s) as [p| | |]; try bad. destruct (strip_prefix p pre) as [a|]; [|bad].
    destruct (nonempty a); [|intros E; injection E as <-; eauto]. intros E Ha.
    destruct (new_from_path w s a (cr_contents c) fl) as [[l e]| | |] eqn:En; try discriminate E.
    pose proof (live_new_calm t s a _ fl _ En Ha) as Ln. destruct (live_new H t s a (cr_contents c) fl) as [t1 r]. cbn [snd] in Ln. subst r.
    destruct (add_entry (cr_entries c) e) as [st r]. exists t1. injection E as <- ->. reflexivity.
  Qed.
  Lemma live_each_calm pre : forall l t c c', add_each w pre l c = (c', Ok tt) -> (forall s fl q n, In (s, fl) l -> look_str w fl s = At q n -> aside asked q) ->
    exists t', live_each H t pre l c = (t', c', Ok tt).
  Proof.
    induction l as [|[s fl] l IH]; intros t c c' E Ha; cbn [add_each live_each] in *; [injection E as <-; eauto|].
    destruct (add_entry_from_path w pre s fl c) as [c1 r] eqn:E1. destruct r as [[]| | |]; try discriminate E.
    destruct (live_add_calm t pre s fl c c1 E1) as [t1 ->]; [intros q n; apply Ha; now left|]. apply IH; [exact E|]. intros s' fl' q n Hin. apply Ha. now right.
  Qed.
End Calm.

Section Walk.
  Variables (asked : path -> Prop) (w : world) (W : world -> Prop).
  Hypothesis P : possible w.
  Hypothesis HW : forall w1, W w1 -> calm asked w w1.
  Hypothesis Hnames : forall q names n, w_list w q = Some names -> In n names -> ordinary n.

  Lemma child_calm w1 q n : W w1 -> aside asked q -> h_names (w_fs w1) (q ++ [n]) = Some HDir <-> h_names (w_fs w) (q ++ [n]) = Some HDir.
  Proof.
    intros H1 Ha. apply HW in H1. split; intros E.
    - destruct (h_names (w_fs w) (q ++ [n])) as [[|i|t m]|] eqn:En; [reflexivity|..]; exfalso;
        (destruct (cm_new _ _ _ H1 (q ++ [n])) as (d & k & k' & Eq & Hk); [rewrite E, En; discriminate|]; apply app_inj_tail in Eq as [<- _]; now apply (proj2 Ha k')).
    - apply (cm_kept _ _ _ H1 _ _ E). right. discriminate.
  Qed.

  Lemma walk_in_calm s : (forall d q, walked w true s d -> enters w s d q -> aside asked q) ->
    forall fuel d q l l', walked w true s d -> enters w s d q -> walk_in fuel w d = Some l -> live_walk_in W d l' -> l' = l.
  Proof.
    intros Hd. induction fuel as [|k IH]; intros d q l l' Hv He E L; [discriminate E|]. cbn [walk_in] in E. unfold read_dir in E.
    pose proof (enters_look w s d q He) as Hl. rewrite Hl in E. pose proof (Hd d q Hv He) as A.
    assert (Hlook : forall w1, W w1 -> look_str w1 true d = At q HDir) by (intros w1 H1; eapply look_calm; eauto; left; apply A).
    assert (Hlist : forall w1, W w1 -> w_list w1 q = w_list w q) by (intros w1 H1; eapply told_calm; eauto).
    destruct L as [w1 d H1 Er|w1 w2 d q' names l' H1 L1 H2 L2 Ln].
    - unfold read_dir in Er. rewrite (Hlook w1 H1), (Hlist w1 H1) in Er. destruct (w_list w q); [discriminate Er|]. congruence.
    - rewrite (Hlook w1 H1) in L1. assert (q' = q) as -> by congruence. rewrite (Hlist w2 H2) in L2. rewrite L2 in E.
      assert (G : forall ns l1 l2, incl ns names -> opt_concat (fun n => match h_names (w_fs w) (q ++ [n]) with
            | Some HDir => match walk_in k w (path_join d n) with Some l => Some (WEntry (path_join d n) :: l) | None => None end
            | _ => Some [WEntry (path_join d n)] end) ns = Some l1 -> live_walk_names W d q ns l2 -> l2 = l1); [|eapply G; [apply incl_refl|exact E|exact Ln]].
      clear E Ln l l' L1 H1 H2 w1 w2 Hlook Hlist.
      induction ns as [|n ns IHn]; intros l1 l2 Hi E L; [inversion L; subst; cbn [opt_concat] in E; congruence|].
      cbn [opt_concat] in E. assert (Hin : In n names) by (apply Hi; now left). assert (Hi' : incl ns names) by (intros z Hz; apply Hi; now right).
      inversion L as [|w1 s0 q0 n0 r0 la lb H1 Hdir L1 L3|w1 s0 q0 n0 r0 lb H1 Hdir L3]; subst.
      + apply (child_calm w1 q n H1 A) in Hdir. rewrite Hdir in E.
        destruct (walk_in k w (path_join d n)) as [l0|] eqn:Ew; [|discriminate E].
        destruct (opt_concat _ ns) as [l3|] eqn:E3; [|discriminate E]. injection E as <-.
        assert (la = l0) as ->.
        { eapply (IH (path_join d n) (q ++ [n])); [eapply vis_below; eauto| |exact Ew|exact L1].
          apply (enters_below w s d q n (q ++ [n])); eauto. eapply join_not_self; eauto. }
        rewrite (IHn l3 lb Hi' eq_refl L3). reflexivity.
      + assert (Hnd : h_names (w_fs w) (q ++ [n]) <> Some HDir) by (intros K; apply Hdir, (child_calm w1 q n H1 A), K).
        destruct (opt_concat _ ns) as [l3|] eqn:E3; [|destruct (h_names (w_fs w) (q ++ [n])) as [[|i|t m]|]; [now destruct Hnd|discriminate E..]].
        rewrite (IHn l3 lb Hi' eq_refl L3). destruct (h_names (w_fs w) (q ++ [n])) as [[|i|t m]|]; [now destruct Hnd|injection E as <-; reflexivity..].
  Qed.

  Lemma walk_calm s rc fuel q0 n0 l l' : look_str w true s = At q0 n0 -> aside asked q0 -> (forall q n, look_str w false s = At q n -> (forall t m, n <> HLink t m) -> aside asked q) ->
    (rc = true -> forall d q, walked w true s d -> enters w s d q -> aside asked q) ->
    walk fuel w s rc = Some l -> live_walk W s rc l' -> l' = l.
  Proof.
    intros H0 A0 A1 Hd E L.
    assert (R : forall k, live_root W s k -> k = Some (match n0 with HDir => true | _ => false end)).
    { intros k R. assert (Ht : forall w1, W w1 -> look_str w1 true s = At q0 n0) by (intros w1 H1; eapply look_calm; eauto; left; apply A0).
      destruct (look_either w s q0 n0 H0) as (q & n & Hf).
      assert (Hf' : forall w1, W w1 -> look_str w1 false s = At q n).
      { intros w1 H1. eapply look_calm; eauto. destruct n as [|i|t m]; [right; discriminate| |right; discriminate]. left. apply (A1 q _ Hf). discriminate. }
      assert (Hn : (forall t m, n <> HLink t m) -> q = q0 /\ n = n0).
      { intros Hn. pose proof (look_nonlink w s q n Hn Hf) as K. rewrite K in H0. split; congruence. }
      destruct R as [w1 q1 n1 H1 L1 L2|w1 q1 t m w2 q2 n2 H1 L1 H2 L2|w1 q1 t m w2 H1 L1 H2 L2|w1 H1 L1].
      - rewrite (Hf' w1 H1) in L1. assert (n1 = n) as -> by congruence. destruct (Hn L2) as [_ ->]. reflexivity.
      - rewrite (Ht w2 H2) in L2. assert (n2 = n0) as -> by congruence. reflexivity.
      - now destruct (L2 q0 n0 (Ht w2 H2)).
      - now destruct (L1 q n (Hf' w1 H1)). }
    assert (E' : (if match n0 with HDir => rc | _ => false end then match walk_in fuel w s with Some l => Some (WEntry s :: l) | None => None end else Some [WEntry s]) = Some l).
    { rewrite <- E. unfold walk. destruct (look_either w s q0 n0 H0) as (q & n & Hf). rewrite Hf. destruct n as [|i|t m].
      - pose proof (look_nonlink w s q HDir ltac:(discriminate) Hf) as K. rewrite K in H0. assert (n0 = HDir) as -> by congruence. now destruct rc.
      - pose proof (look_nonlink w s q (HFile i) ltac:(discriminate) Hf) as K. rewrite K in H0. assert (n0 = HFile i) as -> by congruence. reflexivity.
      - rewrite H0. destruct n0; [now destruct rc|reflexivity..]. }
    destruct L as [l1 R1 -> L1|k R1 Hk|R1]; specialize (R _ R1); try discriminate R.
    - destruct n0 as [|i|t m]; try discriminate R. destruct (walk_in fuel w s) as [l2|] eqn:Ew; [|discriminate E']. injection E' as <-. f_equal.
      eapply (walk_in_calm s (Hd eq_refl) fuel s q0); [constructor|left; auto|exact Ew|exact L1].
    - injection R as ->. destruct n0 as [|i|t m]; cbn [andb] in Hk; try rewrite Hk in E'; congruence.
  Qed.

  Lemma infiles_calm fuel pre rc : forall l c c' c1 r, add_infiles fuel w pre l rc c = (c', Ok tt) ->
    (forall x, In x l -> x <> [] /\ is_abs x = false /\ exists q n, look_str w true x = At q n) ->
    (forall x s fl q n, In x l -> walked w rc x s -> (fl = true <-> s = x) -> look_str w fl s = At q n -> aside asked q) ->
    live_infiles W pre rc l c c1 r -> c1 = c' /\ r = Ok tt.
  Proof.
    induction l as [|x l IH]; intros c c' c1 r E Hx Hd L; cbn [add_infiles] in E; [inversion L; subst; split; congruence|].
    destruct (add_from_path fuel w pre x rc c) as [c2 r2] eqn:E2. destruct r2 as [[]| | |]; try discriminate E.
    destruct (Hx x (or_introl eq_refl)) as (Hne & Hrel & q0 & n0 & H0). unfold add_from_path in E2.
    destruct (walk fuel w x rc) as [its|] eqn:Ew; [|discriminate E2].
    assert (Hwalk : forall its', live_walk W x rc its' -> its' = its).
    { intros its' Lw. refine (walk_calm x rc fuel q0 n0 its its' H0 _ _ _ Ew Lw).
      - apply (Hd x x true q0 n0 (or_introl eq_refl)); [constructor|tauto|exact H0].
      - intros q n Hf Hn. apply (Hd x x true q n (or_introl eq_refl)); [constructor|tauto|]. now apply look_nonlink.
      - intros -> d q Hv [[-> Hq]|Hq].
        + apply (Hd x x true q HDir (or_introl eq_refl) Hv); [tauto|exact Hq].
        + destruct (bytes_eqb_spec d x) as [->|Hdx].
          * apply (Hd x x true q HDir (or_introl eq_refl) Hv); [tauto|]. apply look_nonlink; [intros ? ? HH; discriminate HH|exact Hq].
          * apply (Hd x d false q HDir (or_introl eq_refl) Hv); [split; [bad|contradiction]|exact Hq]. }
    assert (Hadd : forall H t, (forall k, W (hs_at H k)) -> exists t', live_each H t pre (map (fun p => (p, std_path_eqb p x)) (before_fail its)) c = (t', c2, Ok tt)).
    { intros H t Hh. apply (live_each_calm asked w W P HW H Hh); [exact E2|].
      intros s fl q n Hin Hl. apply in_map_iff in Hin as (u & Et & Hin). injection Et as -> <-.
      assert (Hv : walked w rc x s) by (eapply walk_sound; eauto).
      apply (Hd x s _ q n (or_introl eq_refl) Hv (walked_follow w x Hnames rc s Hne Hrel Hv) Hl). }
    inversion L as [|s0 l0 its' H t t' c0 c3 c4 r0 Lw Hh Le Lr|s0 l0 its' H t t' c0 c3 r0 Lw Hh Le Hr]; subst; apply Hwalk in Lw; subst its'; destruct (Hadd H t Hh) as [t2 K]; rewrite K in Le.
    - assert (c3 = c2) as -> by congruence. eapply IH; [exact E| | |exact Lr]; [intros y Hy; apply Hx; now right|]. intros y s fl q n Hy. apply Hd. now right.
    - exfalso. apply Hr. congruence.
  Qed.
End Walk.

Lemma fill_calm asked fuel w cwd (W0 W : world -> Prop) o files c c1 r : possible w -> possible (from w cwd) -> proper_listing (from w cwd) ->
  (forall w1, W0 w1 -> calm asked w w1) -> (forall w1, W w1 -> calm asked (from w cwd) w1) ->
  lines_of w o files -> reads_aside asked w o (from w cwd) files ->
  fill fuel w (from w cwd) o = (c, Ok tt) -> live_fill W0 W o c1 r -> c1 = c /\ r = Ok tt.
Proof.
  intros P P' Hp M0 M Hl [Hd Hfl] E L. unfold fill, lines_of, taken in *. destruct (o_file_list o) as [fl|] eqn:Efl.
  - destruct Hl as (q & i & ls & Hlq & Hl1 & Hl2 & ->). assert (Hls : read_lines (h_data (w_fs w) i) = Ok ls) by (apply read_lines_spec; auto).
    destruct (read_file w fl) as [d| | |] eqn:Er; cbn [bind] in E; try discriminate E.
    assert (Hrd : at_readable (w_attr w q) = true /\ d = h_data (w_fs w) i).
    { unfold read_file in Er. rewrite Hlq in Er. destruct (at_readable (w_attr w q)); [|discriminate Er]. injection Er as <-. auto. }
    destruct Hrd as [Hrd ->]. rewrite Hls in E.
    pose proof (Hfl fl q _ eq_refl Hlq) as A.
    assert (Hr : forall w1 w2, W0 w1 -> W0 w2 -> bind (list_read w1 w2 fl) read_lines = Ok ls).
    { intros w1 w2 H1 H2. unfold list_read. rewrite (look_calm asked w W0 M0 w1 true fl q _ H1 Hlq (or_introl (proj1 A))).
      rewrite (proj1 (told_calm asked w W0 P M0 w1 true fl q _ H1 Hlq A)), Hrd. cbn [bind]. now rewrite (data_calm asked w W0 P M0 w2 true fl q i H2 Hlq). }
    destruct L as [fl' w1 w2 fs H t t' c1 r Efl' H1 H2 Hrl Hh Le|fl' w1 w2 Efl' H1 H2 Hrl|Efl' _|w1 s Efl' _ _ _ _|c1 r Efl' _ _ _]; try congruence.
    + assert (fl' = fl) as -> by congruence. rewrite (Hr w1 w2 H1 H2) in Hrl. assert (fs = ls) as -> by congruence.
      unfold add_from_list in E. destruct (live_each_calm asked (from w cwd) W P' M H Hh _ (map (fun s => (s, o_follow o)) ls) t creator_empty c E) as [t2 K].
      { intros s f q' n Hin Hlk. apply in_map_iff in Hin as (u & Et & Hin). injection Et as -> <-. apply (Hd s (o_follow o) q' n); auto. }
      rewrite K in Le. split; congruence.
    + assert (fl' = fl) as -> by congruence. now destruct (Hrl ls (Hr w1 w2 H1 H2)).
  - subst files. destruct (existsb is_abs (o_infiles o)) eqn:Ea; [discriminate E|].
    unfold check_input_paths_exist in E. destruct (forallb (exists_path (from w cwd)) (o_infiles o)) eqn:Ee; [|discriminate E].
    assert (Hx : forall x, In x (o_infiles o) -> x <> [] /\ is_abs x = false /\ exists q n, look_str (from w cwd) true x = At q n).
    { intros x Hx. rewrite forallb_forall in Ee. specialize (Ee x Hx). unfold exists_path in Ee.
      destruct (look_str (from w cwd) true x) as [q n| |] eqn:El; try discriminate Ee. split; [intros ->; discriminate El|]. split; [|eauto].
      destruct (is_abs x) eqn:Ex; [|reflexivity]. assert (existsb is_abs (o_infiles o) = true) by (apply existsb_exists; eauto). congruence. }
    assert (Hd' : forall x s f q n, In x (o_infiles o) -> walked (from w cwd) (o_recurse o) x s -> (f = true <-> s = x) -> look_str (from w cwd) f s = At q n -> aside asked q).
    { intros x s f q n Hxi Hv Hf Hlk. apply (Hd s f q n); [exists x; auto|exact Hlk]. }
    destruct L as [fl' w1 w2 fs H t t' c1 r Efl' H1 H2 Hrl Hh Le|fl' w1 w2 Efl' H1 H2 Hrl|Efl' Ha'|w1 s Efl' Ha' H1 Hs Hno|c1 r Efl' Ha' Hex L]; try congruence.
    + exfalso. destruct (Hx s Hs) as (_ & _ & q & n & Hlk). unfold exists_path in Hno.
      rewrite (look_calm asked (from w cwd) W M w1 true s q n H1 Hlk) in Hno; [discriminate Hno|]. left.
      apply (Hd' s s true q n Hs); [constructor|tauto|exact Hlk].
    + eapply (infiles_calm asked (from w cwd) W P' M Hp); eauto.
Qed.

(** ** What the creations do to the host *)
Section Steps.
  Variables (J : jbk) (T : told) (asked : path -> Prop) (f0 : hostfs).
  Hypothesis Hino : inodes_given f0.
  Hypothesis Hout : names_output J.
  Hypothesis Hlink : forall q t m, asked q -> h_names f0 q <> Some (HLink t m).

  (** A host of the past, next to the first one. *)
  Record near (g : hostfs) : Prop := {
    nr_old : forall i, i < h_next f0 -> h_data g i = h_data f0 i /\ h_mtime g i = h_mtime f0 i;
    nr_dir : h_dirtime g = h_dirtime f0;
    nr_names : forall q, h_names g q = h_names f0 q \/
      ((exists d k k', q = d ++ [k] /\ asked (d ++ [k'])) /\ (h_names f0 q = None \/ (asked q /\ h_names f0 q <> Some HDir))) }.

  Lemma near_self : near f0.
  Proof. constructor; auto. Qed.

  Lemma near_calm cwd g : local T -> near g -> calm asked (world_of T cwd f0) (world_of T cwd g).
  Proof.
    intros HT [N1 N2 N3]. constructor; cbn [world_of w_fs w_cwd w_attr w_list].
    - intros q n Hq Ha. destruct (N3 q) as [E|[_ [E|[E1 E2]]]]; [congruence|congruence|]. destruct Ha as [Ha|Ha]; [contradiction|].
      destruct n as [|i|t m]; [contradiction|now destruct (Ha i)|now destruct (Hlink q t m E1)].
    - intros q Hq. destruct (N3 q) as [E|[E _]]; [contradiction|exact E].
    - intros q i Hq. apply N1. eapply Hino; eauto.
    - reflexivity.
    - intros q [Ha Hk] Hq. apply HT; [exact Hq| |now rewrite N2|].
      + intros k. destruct (N3 (q ++ [k])) as [E|[(d & x & y & E & Hy) _]]; [exact E|]. apply app_inj_tail in E as [<- _]. now destruct (Hk y).
      + intros i Hi. apply N1. rewrite Hq in Hi. eapply Hino; eauto.
  Qed.

  Definition is_temp (l : list creation) (q : path) (i : N) : Prop := exists a x, nth_error l a = Some x /\ In (q, i) (ct_temps x).
  (** A file in place. *)
  Definition placed (f : hostfs) (l : list creation) (q : path) : Prop :=
    asked q /\ h_names f0 q <> Some HDir /\ exists a x k i, nth_error l a = Some x /\ q = ct_dir x ++ [k] /\ In k (ct_done x) /\
      h_names f q = Some (HFile i) /\ yields J x k (h_data f i) /\ h_next f0 <= i < h_next f /\ (forall q', ~ is_temp l q' i).

  Record tinv (s : together) : Prop := {
    ti_next : h_next f0 <= h_next (tg_fs s);
    ti_near : forall g, In g (tg_past s) -> near g;
    ti_now : In (tg_fs s) (tg_past s);
    ti_temp : forall a x q i, nth_error (tg_all s) a = Some x -> In (q, i) (ct_temps x) ->
      h_names (tg_fs s) q = Some (HFile i) /\ h_next f0 <= i < h_next (tg_fs s) /\ h_names f0 q = None /\ ~ asked q /\ exists n, q = ct_dir x ++ [n];
    ti_one : forall a x q i a' x' q' i', nth_error (tg_all s) a = Some x -> In (q, i) (ct_temps x) ->
      nth_error (tg_all s) a' = Some x' -> In (q', i') (ct_temps x') -> q = q' \/ i = i' -> a = a' /\ q = q' /\ i = i';
    ti_done : forall a x k, nth_error (tg_all s) a = Some x -> In k (ct_done x) -> placed (tg_fs s) (tg_all s) (ct_dir x ++ [k]);
    ti_path : forall q, h_names (tg_fs s) q = h_names f0 q \/ (exists i, is_temp (tg_all s) q i) \/ placed (tg_fs s) (tg_all s) q;
    ti_asked : forall a x k, nth_error (tg_all s) a = Some x -> In k (jb_names J (ct_mode x) (ct_name x)) -> asked (ct_dir x ++ [k]);
    ti_start : forall a x o, nth_error (tg_all s) a = Some x -> ct_opts x = Some o -> exists g w', In g (tg_past s) /\
      o_list_compressions o = false /\ check_output_path_writable (world_of T (ct_from x) g) (o_out o) (o_force o) = Ok tt /\
      out_place (world_of T (ct_from x) g) (o_out o) = Some (ct_dir x, ct_name x) /\ create_concat (o_concat o) = Ok (ct_mode x) /\
      match o_base o with Some d => chdir (world_of T (ct_from x) g) d = Ok w' | None => w' = world_of T (ct_from x) g end /\ ct_in x = w_cwd w';
    ti_seal : forall a x c, nth_error (tg_all s) a = Some x -> ct_sealed x = Some c -> (exists y, finalize c = Some y) /\
      forall o, ct_opts x = Some o -> exists past, incl past (tg_past s) /\ live_fill (past_world T past (ct_from x)) (past_world T past (ct_in x)) o c (Ok tt) }.

  Lemma tinv_start : tinv (mkTogether f0 [f0] []).
  Proof.
    constructor; cbn [tg_fs tg_past tg_all].
    - lia.
    - intros g [<-|[]]. apply near_self.
    - now left.
    - intros a x q i H. destruct a; discriminate H.
    - intros a x q i a' x' q' i' H. destruct a; discriminate H.
    - intros a x k H. destruct a; discriminate H.
    - auto.
    - intros a x k H. destruct a; discriminate H.
    - intros a x o H. destruct a; discriminate H.
    - intros a x c H. destruct a; discriminate H.
  Qed.

  Lemma nth_mid {A} (l1 : list A) x l2 a : nth_error (l1 ++ x :: l2) a = if Nat.eqb a (length l1) then Some x else nth_error (l1 ++ l2) (if Nat.ltb a (length l1) then a else pred a).
  Proof.
    destruct (Nat.eqb_spec a (length l1)) as [->|Hn]; [rewrite nth_error_app2, Nat.sub_diag by lia; reflexivity|].
    destruct (Nat.ltb_spec a (length l1)); [now rewrite !nth_error_app1 by lia|]. rewrite !nth_error_app2 by lia.
    replace (a - length l1)%nat with (S (pred a - length l1)) by lia. reflexivity.
  Qed.
  Lemma nth_upd {A} (l1 : list A) x y l2 a z : nth_error (l1 ++ y :: l2) a = Some z ->
    (a = length l1 /\ z = y) \/ (a <> length l1 /\ nth_error (l1 ++ x :: l2) a = Some z).
  Proof. rewrite !nth_mid. destruct (Nat.eqb_spec a (length l1)) as [->|Hn]; [left; split; congruence|right; auto]. Qed.
  Lemma nth_here {A} (l1 : list A) x l2 : nth_error (l1 ++ x :: l2) (length l1) = Some x.
  Proof. now rewrite nth_mid, Nat.eqb_refl. Qed.

  (** A creation that differs in what is not on the host. *)
  Lemma tinv_same f past l1 x y l2 : tinv (mkTogether f past (l1 ++ x :: l2)) ->
    ct_temps y = ct_temps x -> ct_done y = ct_done x -> ct_dir y = ct_dir x -> ct_name y = ct_name x -> ct_mode y = ct_mode x ->
    ct_opts y = ct_opts x -> ct_from y = ct_from x -> ct_in y = ct_in x -> ct_sealed x = None ->
    (forall c, ct_sealed y = Some c -> (exists z, finalize c = Some z) /\
      forall o, ct_opts y = Some o -> exists past', incl past' past /\ live_fill (past_world T past' (ct_from y)) (past_world T past' (ct_in y)) o c (Ok tt)) ->
    tinv (mkTogether f past (l1 ++ y :: l2)).
  Proof.
    intros [I1 I2 I3 I4 I5 I6 I7 I8 I9 I10] E1 E2 E3 E4 E5 E6 E7 E8 E9 Hy. cbn [tg_fs tg_past tg_all] in *.
    set (rl := fun u v : creation => v = u \/ (u = x /\ v = y)).
    assert (B : forall a z, nth_error (l1 ++ y :: l2) a = Some z -> exists u, nth_error (l1 ++ x :: l2) a = Some u /\ rl u z).
    { intros a z H. apply (nth_upd l1 x) in H as [[-> ->]|[_ H]]; [exists x; split; [apply nth_here|right; auto]|exists z; split; [exact H|now left]]. }
    assert (B' : forall a z, nth_error (l1 ++ x :: l2) a = Some z -> exists u, nth_error (l1 ++ y :: l2) a = Some u /\ rl z u).
    { intros a z H. apply (nth_upd l1 y) in H as [[-> ->]|[_ H]]; [exists y; split; [apply nth_here|right; auto]|exists z; split; [exact H|now left]]. }
    assert (Hrl : forall u v, rl u v -> ct_temps v = ct_temps u /\ ct_done v = ct_done u /\ ct_dir v = ct_dir u /\ ct_name v = ct_name u /\ ct_mode v = ct_mode u /\
        ct_opts v = ct_opts u /\ ct_from v = ct_from u /\ ct_in v = ct_in u) by (intros u v [->|[-> ->]]; repeat split; auto).
    assert (Ht : forall q i, is_temp (l1 ++ y :: l2) q i -> is_temp (l1 ++ x :: l2) q i).
    { intros q i (a & z & H & Hin). destruct (B a z H) as (u & Hu & R). exists a, u. split; [exact Hu|]. destruct (Hrl _ _ R) as (R1 & _). now rewrite <- R1. }
    assert (Ht' : forall q i, is_temp (l1 ++ x :: l2) q i -> is_temp (l1 ++ y :: l2) q i).
    { intros q i (a & z & H & Hin). destruct (B' a z H) as (u & Hu & R). exists a, u. split; [exact Hu|]. destruct (Hrl _ _ R) as (R1 & _). now rewrite R1. }
    assert (Hp : forall q, placed f (l1 ++ x :: l2) q -> placed f (l1 ++ y :: l2) q).
    { intros q (P1 & P2 & a & z & k & i & H & Eq & Hk & Hn & Hg & Hi & Hnt). split; [exact P1|]. split; [exact P2|]. destruct (B' a z H) as (u & Hu & R).
      exists a, u, k, i. destruct (Hrl _ _ R) as (R1 & R2 & R3 & R4 & R5 & _). rewrite R2, R3. repeat (split; [assumption|]). split; [|split; [lia|intros q' K; apply (Hnt q'), Ht, K]].
      destruct Hg as [G1 (c & arc & G2 & G3 & G4)]. split; [now rewrite R4, R5|]. destruct R as [->|[-> ->]]; [exists c, arc; auto|congruence]. }
    constructor; cbn [tg_fs tg_past tg_all]; auto.
    - intros a z q i H Hin. destruct (B a z H) as (u & Hu & R). destruct (Hrl _ _ R) as (R1 & _ & R3 & _). rewrite R3. apply (I4 a u); [exact Hu|]. now rewrite <- R1.
    - intros a z q i a' z' q' i' H Hin H' Hin'. destruct (B a z H) as (u & Hu & R), (B a' z' H') as (u' & Hu' & R').
      destruct (Hrl _ _ R) as (R1 & _), (Hrl _ _ R') as (R1' & _). rewrite R1 in Hin. rewrite R1' in Hin'. exact (I5 a u q i a' u' q' i' Hu Hin Hu' Hin').
    - intros a z k H Hk. destruct (B a z H) as (u & Hu & R). destruct (Hrl _ _ R) as (_ & R2 & R3 & _). rewrite R3. rewrite R2 in Hk. apply Hp. now apply (I6 a u).
    - intros q. destruct (I7 q) as [E|[(i & E)|E]]; auto. right. left. exists i. auto.
    - intros a z k H Hk. destruct (B a z H) as (u & Hu & R). destruct (Hrl _ _ R) as (_ & _ & R3 & R4 & R5 & _). rewrite R3. rewrite R4, R5 in Hk. now apply (I8 a u).
    - intros a z o H Ho. destruct (B a z H) as (u & Hu & R). destruct (Hrl _ _ R) as (_ & _ & R3 & R4 & R5 & R6 & R7 & R8). rewrite R3, R4, R5, R7, R8. rewrite R6 in Ho. now apply (I9 a u).
    - intros a z c H Hc. apply (nth_upd l1 x) in H as [[-> ->]|[_ H]]; [auto|]. exact (I10 a z c H Hc).
  Qed.

  Lemma tinv_more f past l x : tinv (mkTogether f past l) -> ct_temps x = [] -> ct_done x = [] -> ct_sealed x = None ->
    (forall k, In k (jb_names J (ct_mode x) (ct_name x)) -> asked (ct_dir x ++ [k])) ->
    (forall o, ct_opts x = Some o -> exists w', 
      o_list_compressions o = false /\ check_output_path_writable (world_of T (ct_from x) f) (o_out o) (o_force o) = Ok tt /\
      out_place (world_of T (ct_from x) f) (o_out o) = Some (ct_dir x, ct_name x) /\ create_concat (o_concat o) = Ok (ct_mode x) /\
      match o_base o with Some d => chdir (world_of T (ct_from x) f) d = Ok w' | None => w' = world_of T (ct_from x) f end /\ ct_in x = w_cwd w') ->
    tinv (mkTogether f past (l ++ [x])).
  Proof.
    intros [I1 I2 I3 I4 I5 I6 I7 I8 I9 I10] E1 E2 E3 Ha Ho. cbn [tg_fs tg_past tg_all] in *.
    assert (B : forall a z, nth_error (l ++ [x]) a = Some z -> nth_error l a = Some z \/ z = x).
    { intros a z H. destruct (Nat.lt_ge_cases a (length l)) as [Hl|Hl]; [rewrite nth_error_app1 in H by exact Hl; auto|].
      rewrite nth_error_app2 in H by exact Hl. destruct (a - length l)%nat as [|[|?]]; cbn in H; try discriminate H. right. congruence. }
    assert (B' : forall a z, nth_error l a = Some z -> nth_error (l ++ [x]) a = Some z).
    { intros a z H. rewrite nth_error_app1; [exact H|]. apply nth_error_Some. congruence. }
    assert (Ht : forall q i, is_temp (l ++ [x]) q i -> is_temp l q i).
    { intros q i (a & z & H & Hin). destruct (B a z H) as [K| ->]; [exists a, z; auto|]. rewrite E1 in Hin. destruct Hin. }
    assert (Hp : forall q, placed f l q -> placed f (l ++ [x]) q).
    { intros q (P1 & P2 & a & z & k & i & H & Eq & Hk & Hn & Hg & Hi & Hnt). split; [exact P1|]. split; [exact P2|]. exists a, z, k, i. repeat (split; [auto|]).
      intros q' K. apply (Hnt q'), Ht, K. }
    constructor; cbn [tg_fs tg_past tg_all]; auto.
    - intros a z q i H Hin. destruct (B a z H) as [K| ->]; [eauto|]. rewrite E1 in Hin. destruct Hin.
    - intros a z q i a' z' q' i' H Hin H' Hin'. destruct (B a z H) as [K| ->]; [|rewrite E1 in Hin; destruct Hin]. destruct (B a' z' H') as [K'| ->]; [|rewrite E1 in Hin'; destruct Hin'].
      exact (I5 a z q i a' z' q' i' K Hin K' Hin').
    - intros a z k H Hk. destruct (B a z H) as [K| ->]; [apply Hp; eauto|]. rewrite E2 in Hk. destruct Hk.
    - intros q. destruct (I7 q) as [E|[(i & a & z & E & Hin)|E]]; auto. right. left. exists i, a, z. auto.
    - intros a z k H Hk. destruct (B a z H) as [K| ->]; [eauto|auto].
    - intros a z o H Hz. destruct (B a z H) as [K| ->]; [eauto|]. destruct (Ho o Hz) as (w' & K). exists f, w'. auto.
    - intros a z c H Hc. destruct (B a z H) as [K| ->]; [eauto|congruence].
  Qed.

  Lemma is_asked l1 x l2 f past k : tinv (mkTogether f past (l1 ++ x :: l2)) -> In k (jb_names J (ct_mode x) (ct_name x)) -> asked (ct_dir x ++ [k]).
  Proof. intros I. exact (ti_asked _ I (length l1) x k (nth_here l1 x l2)). Qed.

  Section Call.
    Variables (f f' : hostfs) (past : list hostfs) (l1 l2 : list creation) (o : option create_opts) (cwd cwd' dir : path) (m : concat_mode) (n : bytes)
      (sealed : option creator) (ts ts' : list (path * N)) (dn dn' : list bytes).
    Notation x := (mkCreation o cwd cwd' m dir n sealed ts dn).
    Notation y := (mkCreation o cwd cwd' m dir n sealed ts' dn').
    Hypothesis I : tinv (mkTogether f past (l1 ++ x :: l2)).

    Lemma call_tinv : h_next f <= h_next f' -> (forall i, i < h_next f0 -> h_data f' i = h_data f i /\ h_mtime f' i = h_mtime f i) -> h_dirtime f' = h_dirtime f ->
      (forall a z q i, nth_error (l1 ++ y :: l2) a = Some z -> In (q, i) (ct_temps z) ->
        h_names f' q = Some (HFile i) /\ h_next f0 <= i < h_next f' /\ h_names f0 q = None /\ ~ asked q /\ exists n, q = ct_dir z ++ [n]) ->
      (forall a x q i a' x' q' i', nth_error (l1 ++ y :: l2) a = Some x -> In (q, i) (ct_temps x) ->
        nth_error (l1 ++ y :: l2) a' = Some x' -> In (q', i') (ct_temps x') -> q = q' \/ i = i' -> a = a' /\ q = q' /\ i = i') ->
      (forall k, In k dn' -> In k dn \/ placed f' (l1 ++ y :: l2) (dir ++ [k])) ->
      (forall q, placed f (l1 ++ x :: l2) q -> placed f' (l1 ++ y :: l2) q) ->
      (forall q, h_names f' q = h_names f0 q \/ (exists i, is_temp (l1 ++ y :: l2) q i) \/ placed f' (l1 ++ y :: l2) q) ->
      tinv (mkTogether f' (f' :: past) (l1 ++ y :: l2)).
    Proof.
      destruct I as [I1 I2 I3 I4 I5 I6 I7 I8 I9 I10]. cbn [tg_fs tg_past tg_all] in *. intros C1 C2 C3 C4 C5 C6 C7 C8.
      assert (Hx : nth_error (l1 ++ x :: l2) (length l1) = Some x) by apply nth_here.
      assert (A8 : forall a z k, nth_error (l1 ++ y :: l2) a = Some z -> In k (jb_names J (ct_mode z) (ct_name z)) -> asked (ct_dir z ++ [k])).
      { intros a z k H Hk. apply (nth_upd l1 x) in H as [[-> ->]|[_ H]]; [exact (I8 _ x k Hx Hk)|exact (I8 a z k H Hk)]. }
      constructor; cbn [tg_fs tg_past tg_all]; auto; try lia.
      - intros g [<-|Hg]; [|auto]. destruct (I2 f I3) as [N1 N2 N3]. constructor.
        + intros i Hi. destruct (C2 i Hi) as [-> ->]. now apply N1.
        + congruence.
        + intros q. destruct (C8 q) as [E|[(i & a & z & H & Hin)|(P1 & P2 & a & z & k & i & H & Eq & Hk & _)]]; [now left|right..].
          * destruct (C4 a z q i H Hin) as (_ & _ & K & _ & j & ->). split; [|now left]. exists (ct_dir z), j, (ct_name z). split; [reflexivity|]. apply (A8 a z _ H), Hout.
          * split; [|now right]. exists (ct_dir z), k, k. split; [exact Eq|]. now rewrite <- Eq.
      - now left.
      - intros a z k H Hk. apply (nth_upd l1 x) in H as [[-> ->]|[_ H]]; [|apply C7; exact (I6 a z k H Hk)].
        cbn [ct_done ct_dir] in *. destruct (C6 k Hk) as [Hk'|Hk']; [|exact Hk']. apply C7. exact (I6 _ x k Hx Hk').
      - intros a z o' H Ho. assert (G : exists u, nth_error (l1 ++ x :: l2) a = Some u /\ ct_opts u = ct_opts z /\ ct_from u = ct_from z /\ ct_in u = ct_in z /\ ct_dir u = ct_dir z /\ ct_name u = ct_name z /\ ct_mode u = ct_mode z).
        { apply (nth_upd l1 x) in H as [[-> ->]|[_ H]]; [exists x; repeat split; exact Hx|exists z; repeat split; exact H]. }
        destruct G as (u & Hu & G1 & G2 & G3 & G4 & G5 & G6). rewrite <- G1 in Ho. destruct (I9 a u o' Hu Ho) as (g & w' & Hg & K).
        rewrite <- G2, <- G3, <- G4, <- G5, <- G6. exists g, w'. split; [now right|exact K].
      - intros a z c H Hc. assert (G : exists u, nth_error (l1 ++ x :: l2) a = Some u /\ ct_opts u = ct_opts z /\ ct_from u = ct_from z /\ ct_in u = ct_in z /\ ct_sealed u = ct_sealed z).
        { apply (nth_upd l1 x) in H as [[-> ->]|[_ H]]; [exists x; repeat split; exact Hx|exists z; repeat split; exact H]. }
        destruct G as (u & Hu & G1 & G2 & G3 & G4). rewrite <- G4 in Hc. destruct (I10 a u c Hu Hc) as [K1 K2]. split; [exact K1|].
        intros o' Ho. rewrite <- G1 in Ho. destruct (K2 o' Ho) as (past' & Hi & L). rewrite <- G2, <- G3. exists past'. split; [|exact L]. intros g Hg. right. now apply Hi.
    Qed.

    Lemma still_placed q : (forall i, h_names f q = Some (HFile i) -> h_next f0 <= i < h_next f -> (forall q', ~ is_temp (l1 ++ x :: l2) q' i) ->
        h_names f' q = Some (HFile i) /\ h_data f' i = h_data f i) -> h_next f <= h_next f' -> incl dn dn' ->
      (forall q' i, is_temp (l1 ++ y :: l2) q' i -> is_temp (l1 ++ x :: l2) q' i \/ i = h_next f) ->
      placed f (l1 ++ x :: l2) q -> placed f' (l1 ++ y :: l2) q.
    Proof.
      intros H Hn Hi Ht (P1 & P2 & a & z & k & i & Hz & Eq & Hk & Hq & Hg & Hb & Hnt). split; [exact P1|]. split; [exact P2|].
      destruct (H i Hq Hb Hnt) as [K1 K2].
      assert (Hnt' : forall q', ~ is_temp (l1 ++ y :: l2) q' i) by (intros q' K; destruct (Ht q' i K) as [K'| ->]; [exact (Hnt q' K')|lia]).
      apply (nth_upd l1 y) in Hz as [[-> ->]|[_ Hz]].
      - exists (length l1), y, k, i. split; [apply nth_here|]. cbn [ct_dir ct_done]. rewrite K2. split; [exact Eq|]. split; [now apply Hi|]. split; [exact K1|]. split; [exact Hg|]. split; [lia|exact Hnt'].
      - exists a, z, k, i. rewrite K2. repeat (split; [assumption|]). split; [lia|exact Hnt'].
    Qed.
    Lemma temp_upd q i : is_temp (l1 ++ y :: l2) q i -> (exists a z, a <> length l1 /\ nth_error (l1 ++ x :: l2) a = Some z /\ In (q, i) (ct_temps z)) \/ In (q, i) ts'.
    Proof. intros (a & z & H & Hin). apply (nth_upd l1 x) in H as [[-> ->]|[Ha H]]; [right; exact Hin|left; exists a, z; auto]. Qed.
    Lemma temp_old q i : is_temp (l1 ++ x :: l2) q i -> is_temp (l1 ++ y :: l2) q i \/ In (q, i) ts.
    Proof. intros (a & z & H & Hin). apply (nth_upd l1 y) in H as [[-> ->]|[Ha H]]; [right; exact Hin|left; exists a, z; auto]. Qed.
  End Call.

  Lemma tinv_call f past l1 l2 o cwd cwd' m dir n sealed ts dn f' ts' dn' :
    tinv (mkTogether f past (l1 ++ mkCreation o cwd cwd' m dir n sealed ts dn :: l2)) ->
    jbk_call dir (jb_names J m n) (option_map (jb_bytes J m n) sealed) (mkWriting f ts dn) (mkWriting f' ts' dn') ->
    (forall q i, In (q, i) ts' -> In (q, i) ts \/ ~ asked q) ->
    tinv (mkTogether f' (f' :: past) (l1 ++ mkCreation o cwd cwd' m dir n sealed ts' dn' :: l2)).
  Proof.
    intros I C Hnew. pose proof I as [I1 I2 I3 I4 I5 I6 I7 I8 I9 I10]. cbn [tg_fs tg_past tg_all] in *.
    set (x := mkCreation o cwd cwd' m dir n sealed ts dn) in *. assert (Hx : nth_error (l1 ++ x :: l2) (length l1) = Some x) by apply nth_here.
    inversion C as [f1 ts1 dn1 k Hk Hfree|f1 ts1 dn1 q0 i0 d Hin0|f1 ts1 dn1 q0 i0 k content Hf Hin0 Hk Hcont Hdir|f1 ts1 dn1 q0 i0 Hin0]; subst.
    - (* a new temporary file *)
      assert (Hnt : forall i, ~ is_temp (l1 ++ x :: l2) (dir ++ [k]) i).
      { intros i (a & z & H & Hin). destruct (I4 a z _ i H Hin) as [K _]. congruence. }
      assert (H0 : h_names f0 (dir ++ [k]) = None).
      { destruct (I7 (dir ++ [k])) as [E|[(i & E)|(_ & _ & a & z & k' & i & _ & _ & _ & E & _)]]; [congruence|now destruct (Hnt i)|congruence]. }
      assert (Ha : ~ asked (dir ++ [k])).
      { destruct (Hnew (dir ++ [k]) (h_next f) (or_introl eq_refl)) as [K|K]; [|exact K]. destruct (Hnt (h_next f)). exists (length l1), x. auto. }
      assert (Hold : forall a z q i, nth_error (l1 ++ x :: l2) a = Some z -> In (q, i) (ct_temps z) -> q <> dir ++ [k] /\ i < h_next f).
      { intros a z q i H Hin. split; [intros ->; apply (Hnt i); exists a, z; auto|]. destruct (I4 a z q i H Hin) as (_ & K & _). lia. }
      assert (Hcase : forall a z q i, nth_error (l1 ++ mkCreation o cwd cwd' m dir n sealed ((dir ++ [k], h_next f) :: ts) dn' :: l2) a = Some z -> In (q, i) (ct_temps z) ->
        (exists z', nth_error (l1 ++ x :: l2) a = Some z' /\ In (q, i) (ct_temps z') /\ ct_dir z' = ct_dir z) \/ (a = length l1 /\ ct_dir z = dir /\ q = dir ++ [k] /\ i = h_next f)).
      { intros a z q i H Hin. apply (nth_upd l1 x) in H as [[-> ->]|[_ H]]; [|left; exists z; auto]. cbn [ct_temps ct_dir] in *. destruct Hin as [Hin|Hin]; [right; injection Hin as <- <-; auto|left; exists x; auto]. }
      apply (call_tinv f _ past l1 l2 o cwd cwd' dir m n sealed ts _ dn' _ I).
      + cbn. lia.
      + intros i Hi. cbn. destruct (N.eqb_spec i (h_next f)); [lia|auto].
      + reflexivity.
      + intros a z q i H Hin. destruct (Hcase a z q i H Hin) as [(z' & Hz & Hi & <-)|(-> & -> & -> & ->)].
        * destruct (Hold a z' q i Hz Hi) as [G1 G2]. destruct (I4 a z' q i Hz Hi) as (K1 & K2 & K3 & K4 & K5). cbn. rewrite path_eqb'_neq by exact G1. split; [exact K1|]. split; [lia|]. auto.
        * cbn. rewrite path_eqb'_refl. repeat split; auto; try lia. eauto.
      + intros a z q i a' z' q' i' H Hin H' Hin' E. destruct (Hcase a z q i H Hin) as [(u & Hz & Hi & _)|(-> & _ & -> & ->)], (Hcase a' z' q' i' H' Hin') as [(u' & Hz' & Hi' & _)|(-> & _ & -> & ->)].
        * exact (I5 a u q i a' u' q' i' Hz Hi Hz' Hi' E).
        * exfalso. destruct (Hold a u q i Hz Hi) as [G1 G2]. destruct E as [E|E]; [contradiction|lia].
        * exfalso. destruct (Hold a' u' q' i' Hz' Hi') as [G1 G2]. destruct E as [E|E]; [congruence|lia].
        * auto.
      + auto.
      + intros q. apply still_placed; [|cbn; lia|apply incl_refl|].
        * intros i Hq Hi _. cbn. rewrite path_eqb'_neq by congruence. destruct (N.eqb_spec i (h_next f)); [lia|auto].
        * intros q' i (a & z & H & Hin). destruct (Hcase a z q' i H Hin) as [(u & Hu & Hi & _)|(_ & _ & _ & ->)]; [left; exists a, u; auto|now right].
      + intros q. destruct (list_eq_dec (list_eq_dec N.eq_dec) q (dir ++ [k])) as [->|Hq].
        * right. left. exists (h_next f), (length l1). eexists. split; [apply nth_here|]. now left.
        * cbn. rewrite path_eqb'_neq by exact Hq. destruct (I7 q) as [E|[(i & E)|E]]; [now left|right; left|right; right].
          -- exists i. destruct (temp_old l1 l2 o cwd cwd' dir m n sealed ts ((dir ++ [k], h_next f) :: ts) dn' dn' q i E) as [K|K]; [exact K|]. exists (length l1). eexists. split; [apply nth_here|]. now right.
          -- revert E. apply still_placed; [|cbn; lia|apply incl_refl|].
             ++ intros i Hq' Hi _. cbn. rewrite path_eqb'_neq by congruence. destruct (N.eqb_spec i (h_next f)); [lia|auto].
             ++ intros q' i (a & z & H & Hin). destruct (Hcase a z q' i H Hin) as [(u & Hu & Hi & _)|(_ & _ & _ & ->)]; [left; exists a, u; auto|now right].
    - (* a write *)
      destruct (I4 _ x q0 i0 Hx Hin0) as (Hq & Hi & _).
      assert (St : forall q, placed f (l1 ++ x :: l2) q -> placed (touch (set_data f i0 d) i0) (l1 ++ x :: l2) q).
      { intros q. apply (still_placed f _ l1 l2 o cwd cwd' dir m n sealed ts' ts' dn' dn' q); [|cbn; lia|apply incl_refl|auto].
        intros i Hq' _ Hnt. cbn. split; [exact Hq'|]. destruct (N.eqb_spec i i0) as [->|]; [|reflexivity]. destruct (Hnt q0). exists (length l1), x. auto. }
      apply (call_tinv f _ past l1 l2 o cwd cwd' dir m n sealed ts' _ dn' _ I); auto.
      + cbn. lia.
      + intros i Hi'. cbn. destruct (N.eqb_spec i i0); [lia|auto].
      + intros q. destruct (I7 q) as [E|[E|E]]; auto.
    - (* the final name *)
      destruct (I4 _ x q0 i0 Hx Hin0) as (Hq & Hi & H0 & Ha & j & Ej). cbn [ct_dir x] in Ej.
      assert (Hak : asked (dir ++ [k])) by (exact (I8 _ x k Hx Hk)).
      assert (Hne : q0 <> dir ++ [k]) by (intros E; now rewrite E in Ha).
      set (y := mkCreation o cwd cwd' m dir n sealed (without q0 ts) (k :: dn)).
      assert (Ht : forall q i, is_temp (l1 ++ y :: l2) q i -> is_temp (l1 ++ x :: l2) q i /\ q <> q0).
      { intros q i K. apply (temp_upd l1 l2 o cwd cwd' dir m n sealed ts _ dn) in K as [(a & z & Hna & Hz & Hin)|K].
        - split; [exists a, z; auto|]. intros ->. destruct (I5 a z q0 i _ x q0 i0 Hz Hin Hx Hin0 (or_introl eq_refl)) as [K _]. contradiction.
        - apply in_without in K as [K1 K2]. split; [exists (length l1), x; auto|exact K2]. }
      assert (Ht' : forall q i, is_temp (l1 ++ x :: l2) q i -> q <> q0 -> is_temp (l1 ++ y :: l2) q i).
      { intros q i K Kq. destruct (temp_old l1 l2 o cwd cwd' dir m n sealed ts (without q0 ts) dn (k :: dn) q i K) as [G|G]; [exact G|].
        exists (length l1), y. split; [apply nth_here|]. apply in_without. auto. }
      assert (Hcase : forall a z q i, nth_error (l1 ++ y :: l2) a = Some z -> In (q, i) (ct_temps z) -> exists z', nth_error (l1 ++ x :: l2) a = Some z' /\ In (q, i) (ct_temps z') /\ ct_dir z' = ct_dir z /\ q <> q0).
      { intros a z q i H Hin. assert (q <> q0) by (apply (Ht q i); exists a, z; auto). apply (nth_upd l1 x) in H as [[-> ->]|[_ H]]; [|exists z; auto]. exists x. cbn [ct_temps y] in Hin. apply in_without in Hin as [Hin _]. auto. }
      destruct sealed as [c|]; [|discriminate Hf]. injection Hf as <-.
      assert (Pk : placed (rename_file f q0 (dir ++ [k])) (l1 ++ y :: l2) (dir ++ [k])).
      { split; [exact Hak|]. split.
        - destruct (I7 (dir ++ [k])) as [E|[(i & a & z & H & Hin)|(_ & P2 & _)]]; [congruence| |exact P2]. destruct (I4 a z _ i H Hin) as (_ & _ & _ & K & _). contradiction.
        - exists (length l1), y, k, i0. split; [apply nth_here|]. split; [reflexivity|]. split; [now left|]. cbn [rename_file set_name h_names h_data h_next]. rewrite path_eqb'_refl. split; [exact Hq|]. split; [|split; [lia|]].
          + split; [exact Hk|]. destruct (I10 _ x c Hx eq_refl) as [[arc Harc] _]. exists c, arc. auto.
          + intros q' K. destruct (Ht q' i0 K) as [(a & z & Hz & Hin) K2]. destruct (I5 a z q' i0 _ x q0 i0 Hz Hin Hx Hin0 (or_intror eq_refl)) as (_ & K3 & _). contradiction. }
      assert (St : forall q, placed f (l1 ++ x :: l2) q -> placed (rename_file f q0 (dir ++ [k])) (l1 ++ y :: l2) q).
      { intros q. destruct (list_eq_dec (list_eq_dec N.eq_dec) q (dir ++ [k])) as [->|Hqk]; [auto|]. intros P. pose proof (proj1 P) as Hqa. revert P.
        apply (still_placed f _ l1 l2 o cwd cwd' dir m n (Some c) ts (without q0 ts) dn (k :: dn) q); [|cbn; lia|intros z; now right|].
        - intros i Hq' _ _. cbn. rewrite path_eqb'_neq by exact Hqk. rewrite path_eqb'_neq by (intros ->; contradiction). auto.
        - intros q' i K. left. now apply Ht. }
      apply (call_tinv f _ past l1 l2 o cwd cwd' dir m n (Some c) ts _ dn _ I).
      + cbn. lia.
      + cbn. auto.
      + reflexivity.
      + intros a z q i H Hin. destruct (Hcase a z q i H Hin) as (z' & Hz & Hi' & <- & Hq0). destruct (I4 a z' q i Hz Hi') as (K1 & K2 & K3 & K4 & K5).
        cbn. rewrite path_eqb'_neq by (intros ->; contradiction). rewrite path_eqb'_neq by exact Hq0. auto.
      + intros a z q i a' z' q' i' H Hin H' Hin' E. destruct (Hcase a z q i H Hin) as (u & Hz & Hi1 & _), (Hcase a' z' q' i' H' Hin') as (u' & Hz' & Hi' & _).
        exact (I5 a u q i a' u' q' i' Hz Hi1 Hz' Hi' E).
      + intros k' [<-|Hk']; auto.
      + exact St.
      + intros q. destruct (list_eq_dec (list_eq_dec N.eq_dec) q (dir ++ [k])) as [->|Hqk]; [auto|].
        destruct (list_eq_dec (list_eq_dec N.eq_dec) q q0) as [->|Hq0].
        * left. cbn. rewrite path_eqb'_neq by exact Hqk. now rewrite path_eqb'_refl.
        * destruct (I7 q) as [E|[(i & E)|E]]; [left; cbn; now rewrite !path_eqb'_neq by assumption|right; left; exists i; auto|right; right; auto].
    - (* removed *)
      destruct (I4 _ x q0 i0 Hx Hin0) as (Hq & Hi & H0 & Ha & j & Ej). cbn [ct_dir x] in Ej.
      set (y := mkCreation o cwd cwd' m dir n sealed (without q0 ts) dn').
      assert (Ht : forall q i, is_temp (l1 ++ y :: l2) q i -> is_temp (l1 ++ x :: l2) q i /\ q <> q0).
      { intros q i K. apply (temp_upd l1 l2 o cwd cwd' dir m n sealed ts _ dn') in K as [(a & z & Hna & Hz & Hin)|K].
        - split; [exists a, z; auto|]. intros ->. destruct (I5 a z q0 i _ x q0 i0 Hz Hin Hx Hin0 (or_introl eq_refl)) as [K _]. contradiction.
        - apply in_without in K as [K1 K2]. split; [exists (length l1), x; auto|exact K2]. }
      assert (Ht' : forall q i, is_temp (l1 ++ x :: l2) q i -> q <> q0 -> is_temp (l1 ++ y :: l2) q i).
      { intros q i K Kq. destruct (temp_old l1 l2 o cwd cwd' dir m n sealed ts (without q0 ts) dn' dn' q i K) as [G|G]; [exact G|].
        exists (length l1), y. split; [apply nth_here|]. apply in_without. auto. }
      assert (Hcase : forall a z q i, nth_error (l1 ++ y :: l2) a = Some z -> In (q, i) (ct_temps z) -> exists z', nth_error (l1 ++ x :: l2) a = Some z' /\ In (q, i) (ct_temps z') /\ ct_dir z' = ct_dir z /\ q <> q0).
      { intros a z q i H Hin. assert (q <> q0) by (apply (Ht q i); exists a, z; auto). apply (nth_upd l1 x) in H as [[-> ->]|[_ H]]; [|exists z; auto]. exists x. cbn [ct_temps y] in Hin. apply in_without in Hin as [Hin _]. auto. }
      assert (St : forall q, placed f (l1 ++ x :: l2) q -> placed (set_name f q0 None) (l1 ++ y :: l2) q).
      { intros q P. pose proof (proj1 P) as Hqa. revert P.
        apply (still_placed f _ l1 l2 o cwd cwd' dir m n sealed ts (without q0 ts) dn' dn' q); [|cbn; lia|apply incl_refl|].
        - intros i Hq' _ _. cbn. rewrite path_eqb'_neq by (intros ->; contradiction). auto.
        - intros q' i K. left. now apply Ht. }
      apply (call_tinv f _ past l1 l2 o cwd cwd' dir m n sealed ts _ dn' _ I); auto.
      + cbn. lia.
      + intros a z q i H Hin. destruct (Hcase a z q i H Hin) as (z' & Hz & Hi' & <- & Hq0). destruct (I4 a z' q i Hz Hi') as (K1 & K2 & K3 & K4 & K5).
        cbn. rewrite path_eqb'_neq by exact Hq0. auto.
      + intros a z q i a' z' q' i' H Hin H' Hin' E. destruct (Hcase a z q i H Hin) as (u & Hz & Hi1 & _), (Hcase a' z' q' i' H' Hin') as (u' & Hz' & Hi' & _).
        exact (I5 a u q i a' u' q' i' Hz Hi1 Hz' Hi' E).
      + intros q. destruct (list_eq_dec (list_eq_dec N.eq_dec) q q0) as [->|Hq0].
        * left. cbn. now rewrite path_eqb'_refl.
        * destruct (I7 q) as [E|[(i & E)|E]]; [left; cbn; now rewrite path_eqb'_neq by assumption|right; left; exists i; auto|right; right; auto].
  Qed.

  Lemma tinv_step s t : together_step J T asked s t -> tinv s -> tinv t.
  Proof.
    intros S I. destruct S as [f past l o cwd dir n m w' H1 H2 H3 H4 H5 H6|f past l dir n m H6|f past l1 l2 o cwd cwd' m dir n sealed ts dn f' ts' dn' C Hn|f past l1 l2 o cwd cwd' m dir n ts dn c a L Ha|f past l1 l2 cwd cwd' m dir n ts dn c a Ha].
    - apply tinv_more; auto. cbn [ct_opts ct_from ct_in ct_mode ct_dir ct_name]. intros o' E. injection E as <-. exists w'. do 5 (split; [assumption|]). reflexivity.
    - apply tinv_more; auto. intros o' E. discriminate E.
    - eapply tinv_call; eauto.
    - eapply tinv_same; [exact I|reflexivity..|]. cbn [ct_sealed ct_opts ct_from ct_in]. intros c' E. injection E as <-. split; [eauto|]. intros o' E. injection E as <-. exists past. split; [apply incl_refl|exact L].
    - eapply tinv_same; [exact I|reflexivity..|]. cbn [ct_sealed ct_opts ct_from ct_in]. intros c' E. injection E as <-. split; [eauto|]. intros o' E. discriminate E.
  Qed.
  Lemma tinv_steps s t : together_steps J T asked s t -> tinv s -> tinv t.
  Proof. intros S. induction S as [s|s t u S IH D]; auto. intros I. eapply tinv_step; eauto. Qed.
End Steps.

(** ** A creation alone *)
Section Alone.
  Variables (w0 w : world) (W0 W : world -> Prop).
  Hypothesis P : possible w.
  Hypothesis H0 : W0 w0.
  Hypothesis Hw : W w.

  Lemma walk_in_alone : forall fuel s l, walk_in fuel w s = Some l -> live_walk_in W s l.
  Proof.
    induction fuel as [|k IH]; intros s l E; [discriminate E|]. cbn [walk_in] in E. destruct (read_dir w s) as [[q names]|] eqn:Er; [|injection E as <-; now apply (lw_fail W w s Hw)].
    unfold read_dir in Er. destruct (look_str w true s) as [q' [|i|t m]|q'|e] eqn:El; try discriminate Er. destruct (w_list w q') as [ns|] eqn:En; [|discriminate Er]. injection Er as -> ->.
    apply (lw_dir W w w s q names l Hw El Hw En). clear En El. revert l E. induction names as [|n ns IHn]; intros l E; cbn [opt_concat] in E; [injection E as <-; constructor|].
    destruct (h_names (w_fs w) (q ++ [n])) as [[|i|t m]|] eqn:Eh.
    - destruct (walk_in k w (path_join s n)) as [l0|] eqn:Ew; [|discriminate E]. destruct (opt_concat _ ns) as [l3|]; [|discriminate E]. injection E as <-.
      apply (ln_dir W w s q n ns l0 l3 Hw Eh); [now apply IH|now apply IHn].
    - destruct (opt_concat _ ns) as [l3|]; [|discriminate E]. injection E as <-. apply (ln_other W w s q n ns l3 Hw); [congruence|now apply IHn].
    - destruct (opt_concat _ ns) as [l3|]; [|discriminate E]. injection E as <-. apply (ln_other W w s q n ns l3 Hw); [congruence|now apply IHn].
    - destruct (opt_concat _ ns) as [l3|]; [|discriminate E]. injection E as <-. apply (ln_other W w s q n ns l3 Hw); [congruence|now apply IHn].
  Qed.
  Lemma walk_alone fuel s rc l : walk fuel w s rc = Some l -> live_walk W s rc l.
  Proof.
    assert (En : forall l, live_root W s (Some true) -> (if rc then match walk_in fuel w s with Some l => Some (WEntry s :: l) | None => None end else Some [WEntry s]) = Some l -> live_walk W s rc l).
    { intros l' R E. destruct rc.
      - destruct (walk_in fuel w s) as [l0|] eqn:Ew; [|discriminate E]. injection E as <-. apply lk_enter; auto. eapply walk_in_alone; eauto.
      - injection E as <-. now apply (lk_stay W s false true). }
    unfold walk. destruct (look_str w false s) as [q [|i|t m]|q|e] eqn:El.
    - apply En. apply (lr_plain W s w q HDir Hw El). discriminate.
    - intros E. injection E as <-. apply (lk_stay W s rc false); [|reflexivity]. apply (lr_plain W s w q (HFile i) Hw El). discriminate.
    - destruct (look_str w true s) as [q' n'|q'|e] eqn:El'.
      + pose proof (lr_link W s w q t m w q' n' Hw El Hw El') as R. destruct n' as [|i|t' m']; [now apply En| |]; intros E; injection E as <-; apply (lk_stay W s rc false); auto.
      + intros E. injection E as <-. apply lk_fail. apply (lr_broken W s w q t m w Hw El Hw). intros q1 n1. rewrite El'. bad.
      + intros E. injection E as <-. apply lk_fail. apply (lr_broken W s w q t m w Hw El Hw). intros q1 n1. rewrite El'. bad.
    - intros E. injection E as <-. apply lk_fail. apply (lr_none W s w Hw). intros q1 n1. rewrite El. bad.
    - intros E. injection E as <-. apply lk_fail. apply (lr_none W s w Hw). intros q1 n1. rewrite El. bad.
  Qed.
  Notation still := (mkHistory (fun _ => w) (fun t => t)).
  Lemma each_alone pre l c c' r : add_each w pre l c = (c', r) -> exists t', live_each still 0 pre l c = (t', c', r).
  Proof.
    intros E. pose proof (LiveFacts.live_each_steady w still P (fun _ => eq_refl) pre l 0%nat c) as G. rewrite E in G.
    destruct (live_each still 0 pre l c) as [[t' c1] r1]. cbn [fst snd] in G. injection G as -> ->. eauto.
  Qed.
  Lemma infiles_alone fuel pre rc : forall l c c', add_infiles fuel w pre l rc c = (c', Ok tt) -> live_infiles W pre rc l c c' (Ok tt).
  Proof.
    induction l as [|s l IH]; intros c c' E; cbn [add_infiles] in E; [injection E as <-; constructor|]. unfold add_from_path in E.
    destruct (walk fuel w s rc) as [its|] eqn:Ew; [|discriminate E]. destruct (add_each w pre _ c) as [c1 r1] eqn:E1. destruct r1 as [[]| | |]; try discriminate E.
    destruct (each_alone pre _ c c1 _ E1) as [t' L]. eapply (li_more W pre rc s l its still 0 t' c c1 c'); [eapply walk_alone; eauto|intros k; exact Hw|exact L|now apply IH].
  Qed.
  Lemma fill_alone fuel o c : fill fuel w0 w o = (c, Ok tt) -> live_fill W0 W o c (Ok tt).
  Proof.
    unfold fill. destruct (o_file_list o) as [fl|] eqn:Ef.
    - destruct (bind (read_file w0 fl) read_lines) as [files| | |] eqn:Er; try bad. intros E. unfold add_from_list in E. destruct (each_alone _ _ _ _ _ E) as [t' L].
      apply (lf_list W0 W o fl w0 w0 files still 0 t' c (Ok tt) Ef H0 H0); [|intros k; exact Hw|exact L].
      rewrite <- Er. unfold read_file, list_read. destruct (look_str w0 true fl) as [q [|i|t m]|q|e]; reflexivity.
    - destruct (existsb is_abs (o_infiles o)) eqn:Ea; [bad|]. unfold check_input_paths_exist. destruct (forallb (exists_path w) (o_infiles o)) eqn:Ee; [|bad].
      intros E. apply lf_inputs; auto; [|eapply infiles_alone; eauto]. intros s Hs. exists w. split; [exact Hw|]. rewrite forallb_forall in Ee. auto.
  Qed.
End Alone.
