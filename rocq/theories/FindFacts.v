(** Adding the paths of a list, one by one. *)
From Verif Require Export SpecFind CreatedFacts ListFacts.

(** ** Lines *)
Lemma ends_slash_spec s : ends_in_slash s <-> ends_with_sep s = true.
Proof.
  unfold ends_in_slash, ends_with_sep. split.
  - intros (t & ->). rewrite rev_app_distr. reflexivity.
  - destruct (rev s) as [|c r] eqn:E; [discriminate|]. intros H. apply is_sep_eq in H. subst c. exists (rev r).
    apply (f_equal (@rev _)) in E. rewrite rev_involutive in E. exact E.
Qed.

Lemma str_join s q : s <> [] -> Forall ordinary q -> q <> [] ->
  str s q = if ends_with_sep s then s ++ join q else s ++ 47 :: join q.
Proof.
  intros Hs Ho Hq. induction q as [|n q IH] using rev_ind; [easy|]. apply Forall_app in Ho as [Ho Hn]. inversion Hn as [|? ? Hn' _]; subst.
  rewrite str_snoc. destruct q as [|m q].
  - unfold str. cbn [fold_left app]. unfold path_join. assert (nonempty s = true) as -> by (destruct s; [easy|reflexivity]).
    change (join [n]) with n. destruct (ends_with_sep s); reflexivity.
  - unfold path_join. rewrite (str_end s (m :: q)) by (auto; easy).
    assert (nonempty (str s (m :: q)) = true) as ->. { pose proof (str_nonempty s (m :: q) Hs Ho) as H. destruct (str s (m :: q)); [easy|reflexivity]. }
    cbn [andb negb]. rewrite IH by (auto; easy). rewrite (join_snoc (m :: q)) by easy.
    destruct (ends_with_sep s); rewrite <- !app_assoc; reflexivity.
Qed.

Lemma prints_str s q line : s <> [] -> Forall ordinary q -> prints s q line -> line = str s q.
Proof.
  intros Hs Ho H. destruct H as [|q Hq He|q Hq He]; [reflexivity| |]; rewrite str_join by auto.
  - apply ends_slash_spec in He. now rewrite He.
  - destruct (ends_with_sep s) eqn:E; [|reflexivity]. now apply ends_slash_spec in E.
Qed.

(** ** UTF-8 *)
Lemma utf8_sep n : forall s r, (length s <= n)%nat -> utf8 s = true -> utf8 (s ++ 47 :: r) = utf8 r.
Proof.
  induction n as [|n IH]; intros s r Hl H.
  { destruct s; [|cbn in Hl; lia]. reflexivity. }
  destruct s as [|c s]; [reflexivity|]. cbn [length] in Hl. cbn [utf8 app] in *. destruct (c <=? 127); [apply IH; [lia|auto]|].
  destruct s as [|c1 s]; [discriminate H|]. cbn [length] in Hl. cbn [app]. destruct (inr 194 c 223).
  { apply andb_true_iff in H as [H1 H2]. rewrite H1. cbn [andb]. apply IH; [lia|auto]. }
  destruct s as [|c2 s]; [discriminate H|]. cbn [length] in Hl. cbn [app]. destruct (inr 224 c 239).
  { apply andb_true_iff in H as [H1 H2]. rewrite H1. cbn [andb]. apply IH; [lia|auto]. }
  destruct s as [|c3 s]; [discriminate H|]. cbn [length] in Hl. cbn [app]. destruct (inr 240 c 244); [|discriminate H].
  apply andb_true_iff in H as [H1 H2]. rewrite H1. cbn [andb]. apply IH; [lia|auto].
Qed.

Lemma utf8_of_parts l : forall s, split_sep s = l -> Forall (fun x => utf8 x = true) l -> utf8 s = true.
Proof.
  induction l as [|x l IH]; intros s E H.
  { destruct s as [|c s]; [discriminate E|]. cbn [split_sep] in E. destruct (is_sep c); [discriminate E|]. destruct (split_sep s); discriminate E. }
  inversion H as [|? ? Hx Hl]; subst.
  assert (G : s = x /\ l = [] \/ exists r, s = x ++ 47 :: r /\ split_sep r = l).
  { clear - E. revert x l E. induction s as [|c s IH]; intros x l E; cbn [split_sep] in E.
    - injection E as <- <-. auto.
    - destruct (is_sep c) eqn:Ec.
      + injection E as <- <-. apply is_sep_eq in Ec. subst c. right. exists s. auto.
      + destruct (split_sep s) as [|h t] eqn:Es.
        * exfalso. destruct s as [|d s]; [discriminate Es|]. cbn [split_sep] in Es. destruct (is_sep d); [discriminate Es|]. destruct (split_sep s); discriminate Es.
        * injection E as <- <-. destruct (IH h t eq_refl) as [[-> ->]|(r & -> & Hr)]; [auto|]. right. exists r. auto. }
  destruct G as [[-> _]|(r & -> & Hr)]; [exact Hx|]. rewrite (utf8_sep (length x)) by auto. eapply IH; eauto.
Qed.

Lemma utf8_of_pieces s : forallb utf8 (pieces s) = true -> utf8 s = true.
Proof.
  intros H. apply (utf8_of_parts (split_sep s) s eq_refl). apply Forall_forall. intros x Hx.
  destruct x as [|c x]; [reflexivity|]. rewrite forallb_forall in H. apply H. unfold pieces. apply filter_In. split; auto.
Qed.

(** ** The inputs *)
Section Listed.
  Variables (w : world) (pre : bytes) (inputs : list input).
  Hypothesis Hg : Forall (good_input w pre) inputs.
  Hypothesis Hap : apart inputs.
  Hypothesis Hnolink : forall x, In x inputs -> look_str w false (in_arg x) = At (in_root x) (in_node x).

  Lemma good x : In x inputs -> good_input w pre x.
  Proof. rewrite Forall_forall in Hg. auto. Qed.

  Lemma arg_nonempty x : In x inputs -> in_arg x <> [].
  Proof. intros Hx E. specialize (Hnolink x Hx). rewrite E in Hnolink. discriminate Hnolink. Qed.

  Lemma item_ordinary x q n : In x inputs -> at_input w x q n -> Forall ordinary q /\ forallb utf8 q = true.
  Proof.
    intros Hx Hn. destruct (good x Hx) as (_ & _ & _ & _ & G). destruct q as [|m q]; [split; [constructor|reflexivity]|].
    destruct Hn as [Ed Hn]. rewrite Ed in G. split; [eapply tree_ordinary|eapply tree_utf8]; eauto; rewrite Hn; discriminate.
  Qed.

  Lemma item_look x q n : In x inputs -> at_input w x q n -> look_str w false (str (in_arg x) q) = At (in_root x ++ q) n.
  Proof.
    intros Hx Hn. destruct q as [|m q].
    - cbn [at_input] in Hn. subst n. rewrite app_nil_r. change (str (in_arg x) []) with (in_arg x). auto.
    - destruct (good x Hx) as ((Hrel & _) & _ & _ & Hl & G). destruct Hn as [Ed Hn]. rewrite Ed in *.
      apply (look_tree w (in_arg x) (in_root x) (in_depth x) Hrel Hl G); [easy|exact Hn|discriminate].
  Qed.

  Lemma item_file x q i : In x inputs -> at_input w x q (HFile i) ->
    at_special (w_attr w (in_root x ++ q)) = false /\ at_readable (w_attr w (in_root x ++ q)) = true.
  Proof.
    intros Hx Hn. destruct (good x Hx) as (_ & _ & _ & _ & G). destruct q as [|m q].
    - cbn [at_input] in Hn. rewrite <- Hn in G. rewrite app_nil_r. tauto.
    - destruct Hn as [Ed Hn]. rewrite Ed in G. apply (sr_files _ _ _ G (m :: q) i); [easy|exact Hn].
  Qed.

  Lemma item_above x q t n : In x inputs -> at_input w x (q ++ t) n -> t <> [] -> at_input w x q HDir.
  Proof.
    intros Hx Hn Ht. destruct (good x Hx) as (_ & _ & _ & _ & G).
    destruct (q ++ t) as [|m r] eqn:E; [now apply app_eq_nil in E as [_ E]|]. destruct Hn as [Ed Hn]. rewrite Ed in G.
    destruct (tree_up w (in_root x) (in_depth x) G t q Ht) as [->|H]; [rewrite E, Hn; discriminate|exact (eq_sym Ed)|].
    destruct q as [|y q]; [exact (eq_sym Ed)|]. split; auto.
  Qed.

  Lemma together x y a c : In x inputs -> In y inputs -> in_path x ++ a = in_path y ++ c -> x = y.
  Proof.
    intros Hx Hy E. destruct (ForallOrdPairs_In Hap x y Hx Hy) as [H|[[H1 H2]|[H1 H2]]]; [exact H| |];
      exfalso; destruct (app_eq_app_cases _ _ _ _ E) as [[t Ht]|[t Ht]]; eauto; try (now apply H1 in Ht); now apply H2 in Ht.
  Qed.

  Definition linv (done : list (input * path)) (c : creator) : Prop := exists l,
    cr_entries c = after l /\ all_ok l /\
    (forall x q, In (x, q) done -> in_path x ++ q <> [] -> exists nd, has l (in_path x ++ q) nd) /\
    (forall p nd, has l p nd ->
      (exists x q n, In (x, q) done /\ p = in_path x ++ q /\ at_input w x q n /\ mirrors_as w (in_root x ++ q) n (cr_contents c) nd) \/
      (nd = implicit_dir /\ p <> [] /\ exists x q y t, In (x, q) done /\ in_path x = p ++ y :: t)).

  Lemma split_first (p u : path) n : p ++ u ++ [n] = p ++ (match u ++ [n] with y :: _ => y | [] => n end) :: tl (u ++ [n]).
  Proof. f_equal. destruct u; reflexivity. Qed.

  Lemma linv_step done x q n c : (forall y r, In (y, r) done -> In y inputs) -> linv done c -> In x inputs -> at_input w x q n -> ~ In (x, q) done ->
    (q = [] \/ exists q' m, q = q' ++ [m] /\ In (x, q') done) ->
    exists c', add_entry_from_path w pre (str (in_arg x) q) false c = (c', Ok tt) /\ linv (done ++ [(x, q)]) c'.
  Proof.
    intros Hdone (l & I1 & I2 & I3 & I4) Hx Hn Hnew Hpar.
    destruct (good x Hx) as ((Hrel & Hst) & Hu & Ho & Hl & _). destruct (item_ordinary x q n Hx Hn) as [Hoq Huq].
    assert (Hp : filter not_dot (pieces (str (in_arg x) q)) = pieces pre ++ in_path x ++ q).
    { rewrite (str_pieces _ q Hoq), filter_app, Hst, (filter_ordinary q Hoq). now rewrite app_assoc. }
    assert (Hu' : forallb utf8 (filter not_dot (pieces (str (in_arg x) q))) = true).
    { rewrite (str_pieces _ q Hoq). apply forallb_forall. intros m Hm. apply filter_In in Hm as [Hm _]. apply in_app_iff in Hm as [Hm|Hm].
      - rewrite forallb_forall in Hu. auto.
      - rewrite forallb_forall in Huq. auto. }
    pose proof (str_nonempty (in_arg x) q (arg_nonempty x Hx) Hoq) as Hne.
    assert (Habs : is_abs (str (in_arg x) q) = false) by (rewrite str_abs; auto using arg_nonempty).
    destruct (list_eq_dec (list_eq_dec N.eq_dec) (in_path x ++ q) []) as [E0|E0].
    - destruct (AddSession.one_path (str (in_arg x) q) pre (in_path x ++ q) Hne Habs Hu' Hp) as (p & a & F1 & F2 & _ & F3).
      unfold add_entry_from_path. rewrite F1, F2, (F3 E0). cbn [nonempty]. exists c. split; [reflexivity|]. exists l. split; [exact I1|]. split; [exact I2|]. split.
      + intros y r Hi Hr. apply in_app_iff in Hi as [Hi|[Hi|[]]]; [auto|]. injection Hi as <- <-. easy.
      + intros p' nd H. destruct (I4 p' nd H) as [(y & r & k & G1 & G)|(G1 & G2 & y & r & z & t & G3 & G4)].
        * left. exists y, r, k. split; [apply in_app_iff; auto|exact G].
        * right. split; [exact G1|]. split; [exact G2|]. exists y, r, z, t. split; [apply in_app_iff; auto|exact G4].
    - destruct (AddSession.one_entry w (str (in_arg x) q) pre (in_path x ++ q) Hne Habs Hu' Hp false (in_root x ++ q) n c E0 (item_look x q n Hx Hn))
        as (e & ext & Ee & Ep & Hk).
      { intros i -> _. now apply (item_file x q i). }
      destruct Hk as [(_ & _ & i & -> & Hsp)|(k & Ek & Em & _)]; [destruct (item_file x q i Hx Hn); congruence|].
      rewrite Ee, I1.
      assert (Hall : Forall ordinary (in_path x ++ q)) by (apply Forall_app; auto).
      destruct (in_path x ++ q) as [|m d _] eqn:Ed using rev_ind; [easy|].
      destruct (ordinary_last (e_path e) d m Hall Ep) as [Hd Hlast].
      destruct (add_fresh l e k m I2 Ek Hlast) as (A1 & A2 & A3).
      + rewrite Hd. intros q1 u nd E1 H1. destruct (I4 q1 nd H1) as [(y & r & n' & G1 & -> & G2 & G3)|(-> & _)]; [|reflexivity].
        assert (E2 : in_path x ++ q = in_path y ++ (r ++ u ++ [m])) by (rewrite Ed, E1, <- !app_assoc; reflexivity).
        pose proof (together x y _ _ Hx (Hdone _ _ G1) E2) as <-. apply app_inv_head in E2. rewrite E2 in Hn.
        assert (Hdir : at_input w x r HDir) by (eapply item_above; eauto; now destruct u).
        assert (n' = HDir). { destruct r; cbn [at_input] in *; [congruence|]. destruct G2 as [_ G2], Hdir as [_ Hdir]. congruence. }
        subst n'. destruct G3 as (_ & _ & _ & _ & G3). unfold is_dir_node. now rewrite G3.
      + rewrite Hd. intros nd H. rewrite <- Ed in H. destruct (I4 _ nd H) as [(y & r & n' & G1 & E1 & _)|(_ & _ & y & r & z & t & G1 & E1)].
        * pose proof (together x y _ _ Hx (Hdone _ _ G1) E1) as <-. apply app_inv_head in E1. now subst r.
        * rewrite <- app_assoc in E1. assert (E2 : in_path x ++ (q ++ z :: t) = in_path y ++ []) by (rewrite app_nil_r; auto).
          pose proof (together x y _ _ Hx (Hdone _ _ G1) E2) as <-. apply app_inv_head in E2. now destruct q.
      + rewrite A1. rewrite Hd in A3. eexists. split; [reflexivity|]. exists (l ++ [e]). cbn [cr_entries cr_contents].
        split; [reflexivity|]. split; [exact A2|]. split.
        * intros y r Hi Hr. apply in_app_iff in Hi as [Hi|[Hi|[]]].
          -- destruct (I3 y r Hi Hr) as [nd H]. exists nd. apply A3. auto.
          -- injection Hi as <- <-. exists (k, e_meta e). apply A3. right. left. auto.
        * intros p nd H. apply A3 in H as [H|[[-> ->]|(Hpne & [u Hu1] & -> & Hno)]].
          -- destruct (I4 p nd H) as [(y & r & n' & G1 & G2 & G3 & G4)|(G1 & G2 & y & r & z & t & G3 & G4)].
             ++ left. exists y, r, n'. split; [apply in_app_iff; auto|]. split; [exact G2|]. split; [exact G3|]. now apply mirrors_ext.
             ++ right. split; [exact G1|]. split; [exact G2|]. exists y, r, z, t. split; [apply in_app_iff; auto|exact G4].
          -- left. exists x, q, n. split; [apply in_app_iff; right; now left|]. split; [auto|]. split; [exact Hn|exact Em].
          -- right. split; [reflexivity|]. split; [exact Hpne|]. destruct Hpar as [->|(q' & m' & -> & Hin)].
             ++ rewrite app_nil_r in Ed. exists x, [], (match u ++ [m] with y :: _ => y | [] => m end), (tl (u ++ [m])).
                split; [apply in_app_iff; right; now left|]. rewrite Ed, Hu1, <- app_assoc. apply split_first.
             ++ exfalso. rewrite app_assoc in Ed. apply app_inj_tail in Ed as [Ed ->].
                destruct (I3 x q' Hin) as [nd Hnd]; [intros E; rewrite E in Ed; rewrite <- Ed in Hu1; now destruct p|].
                rewrite Ed, Hu1 in Hnd. destruct u as [|y u _] using rev_ind; [rewrite app_nil_r in Hnd; now apply Hno in Hnd|].
                destruct (has_closed _ _ _ _ _ Hnd Hpne) as [mt Hmt]. now apply Hno in Hmt.
  Qed.

  Lemma listed_loop : forall todo done c, (forall x q, In (x, q) (done ++ todo) -> In x inputs /\ exists n, at_input w x q n) -> linv done c ->
    NoDup (done ++ todo) -> (forall l1 x q n l2, todo = l1 ++ (x, q ++ [n]) :: l2 -> In (x, q) (done ++ l1)) ->
    exists c', add_each w pre (map (fun s => (s, false)) (map (fun xq => str (in_arg (fst xq)) (snd xq)) todo)) c = (c', Ok tt) /\ linv (done ++ todo) c'.
  Proof.
    induction todo as [|[x q] todo IH]; intros done c Hin Hi Hnd Hpar; cbn [map add_each fst snd].
    - exists c. rewrite app_nil_r. auto.
    - destruct (Hin x q) as [Hx [n Hn]]; [apply in_app_iff; right; now left|].
      destruct (linv_step done x q n c) as (c1 & -> & Hi1); auto.
      + intros y r Hy. apply (Hin y r). apply in_app_iff. auto.
      + intros H. apply NoDup_remove_2 in Hnd. apply Hnd, in_app_iff. auto.
      + destruct q as [|m q' _] using rev_ind; [auto|]. right. exists q', m. split; [reflexivity|].
        specialize (Hpar [] x q' m todo eq_refl). now rewrite app_nil_r in Hpar.
      + destruct (IH (done ++ [(x, q)]) c1) as (c' & E & Hi'); rewrite <- ?app_assoc; auto.
        * intros l1 y r m l2 E. rewrite <- app_assoc. apply (Hpar ((x, q) :: l1) y r m l2). now rewrite E.
        * exists c'. split; auto. now rewrite <- app_assoc in Hi'.
  Qed.

  Lemma listed_added items : found_list w inputs items ->
    exists c l, add_from_list w pre (map (fun xq => str (in_arg (fst xq)) (snd xq)) items) false creator_empty = (c, Ok tt) /\
      cr_entries c = after l /\ all_ok l /\ archives_items w items l (cr_contents c).
  Proof.
    intros (Hnd & Hin & Hpar).
    destruct (listed_loop items [] creator_empty) as (c & E & l & I1 & I2 & I3 & I4); auto.
    - exists []. split; [reflexivity|]. split; [apply all_ok_nil|]. split; [intros x q []|]. intros p nd H. now apply AddSession.has_nil in H.
    - exists c, l. split; [exact E|]. split; [exact I1|]. split; [exact I2|]. split; [|exact I4].
      intros x q n Hi Hn Hne. destruct (I3 x q Hi Hne) as (nd & Hh). exists nd. split; [exact Hh|].
      destruct (I4 _ nd Hh) as [(y & r & n' & G1 & E1 & G2 & G3)|(_ & _ & y & r & z & t & G1 & E1)].
      + destruct (Hin _ _ Hi) as [Hx _], (Hin _ _ G1) as [Hy _]. pose proof (together x y _ _ Hx Hy E1) as <-. apply app_inv_head in E1. subst r.
        assert (n' = n) as <-; [|exact G3]. destruct q; cbn [at_input] in *; [congruence|]. destruct G2, Hn. congruence.
      + destruct (Hin _ _ Hi) as [Hx _], (Hin _ _ G1) as [Hy _]. rewrite <- app_assoc in E1.
        assert (E2 : in_path x ++ (q ++ z :: t) = in_path y ++ []) by (rewrite app_nil_r; auto).
        pose proof (together x y _ _ Hx Hy E2) as <-. apply app_inv_head in E2. now destruct q.
  Qed.

  Lemma line_utf8 x q n : In x inputs -> at_input w x q n -> utf8 (str (in_arg x) q) = true.
  Proof.
    intros Hx Hn. destruct (item_ordinary x q n Hx Hn) as [Hoq Huq]. destruct (good x Hx) as (_ & Hu & _).
    apply utf8_of_pieces. rewrite (str_pieces _ q Hoq), forallb_app, Hu, Huq. reflexivity.
  Qed.
End Listed.
