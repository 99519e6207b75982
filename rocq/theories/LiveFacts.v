(** A creation on a host that changes. *)
From Verif Require Export SpecLive FaithfulFacts.

Local Ltac bad := let H := fresh in intros H; discriminate H.

Lemma seen_mono H f s contents ext nd : seen H f s contents nd -> seen H f s (contents ++ ext) nd.
Proof.
  intros (s' & t1 & t2 & q & n & A1 & A2 & A3 & A4 & A5). exists s', t1, t2, q, n.
  split; [exact A1|]. split; [exact A2|]. split; [exact A3|]. split; [exact A4|]. destruct n as [|i|t m]; [exact A5| |exact A5].
  destruct A5 as (B0 & addr & q' & j & B1 & B2 & B3 & B4). split; [exact B0|]. exists addr, q', j.
  split; [exact B1|]. split; [exact B2|]. split; [exact B3|]. now apply fetch_mono.
Qed.

(** ** One look *)
Lemma live_detected H t s follow t' k m : live_detect H t s follow = (t', Ok (k, m)) ->
  exists s' t1 q n, (t1 < t')%nat /\
    (s' = s \/ (follow = true /\ exists t0 q0 n0, (t0 < t1)%nat /\ look_str (hs_at H t0) true s = At q0 n0 /\ s' = path_string q0)) /\
    look_str (hs_at H t1) false s' = At q n /\ k = live_kind_at (hs_at H t1) q n s' /\ m = meta_at (hs_at H t1) q.
Proof.
  unfold live_detect. destruct (look_str (hs_at H t) false s) as [q0 n0|q0|e0] eqn:E; cbn [looked_up]; try bad.
  assert (Hself : (S t, Ok (live_kind_at (hs_at H t) q0 n0 s, meta_at (hs_at H t) q0)) = (t', Ok (k, m)) ->
    exists s' t1 q n, (t1 < t')%nat /\
      (s' = s \/ (follow = true /\ exists t0 q0 n0, (t0 < t1)%nat /\ look_str (hs_at H t0) true s = At q0 n0 /\ s' = path_string q0)) /\
      look_str (hs_at H t1) false s' = At q n /\ k = live_kind_at (hs_at H t1) q n s' /\ m = meta_at (hs_at H t1) q).
  { intros HH. exists s, t, q0, n0. split; [assert (t' = S t) by congruence; lia|]. split; [left; reflexivity|]. split; [exact E|]. split; congruence. }
  destruct n0 as [|i|tg mt]; [exact Hself|exact Hself|]. destruct follow; [|exact Hself].
  destruct (look_str (hs_at H (S t)) true s) as [q1 n1|q1|e1] eqn:E1; cbn [looked_up]; try bad.
  destruct (look_str (hs_at H (S (S t))) false (path_string q1)) as [q2 n2|q2|e2] eqn:E2; cbn [looked_up bind fst snd]; try bad.
  intros HH. exists (path_string q1), (S (S t)), q2, n2. split; [assert (t' = S (S (S t))) by congruence; lia|].
  split; [right; split; [reflexivity|]; exists (S t), q1, n1; split; [lia|]; split; [exact E1|reflexivity]|].
  split; [exact E2|]. split; congruence.
Qed.

Lemma live_newed H t s a l follow t' l' e : live_new H t s a l follow = (t', Ok (l', e)) ->
  exists ext, l' = l ++ ext /\ e_path e = a /\
    ((e_kind e = Ok None /\ seen_other H follow s) \/
     exists k, e_kind e = Ok (Some k) /\ seen H follow s (l ++ ext) (k, e_meta e)).
Proof.
  unfold live_new. destruct (live_detect H t s follow) as [t1 r] eqn:E. destruct r as [[k m]| | |]; try bad.
  destruct (live_detected _ _ _ _ _ _ _ E) as (s' & t0 & q & n & Ht & Hs & Hl & -> & ->).
  destruct n as [|i|tg mt]; cbn [live_kind_at].
  - intros HH. injection HH as _ <- <-. exists []. rewrite app_nil_r. split; [reflexivity|]. split; [reflexivity|]. right. exists KDir. split; [reflexivity|].
    exists s', t0, t0, q, HDir. split; [lia|]. split; [exact Hs|]. split; [exact Hl|]. cbn [snd fst e_meta meta_at m_uid m_gid m_mode m_mtime]. repeat split.
  - destruct (at_special (w_attr (hs_at H t0) q)) eqn:Esp.
    + intros HH. injection HH as _ <- <-. exists []. rewrite app_nil_r. split; [reflexivity|]. split; [reflexivity|]. left. split; [reflexivity|].
      exists s', t0, q, i. split; [exact Hs|]. split; [exact Hl|exact Esp].
    + intros HH. apply (f_equal snd) in HH. cbn [snd] in HH. unfold live_read in HH.
      destruct (look_str (hs_at H t1) true s') as [q1 n1|q1|e1] eqn:El; cbn [looked_up bind fst snd] in HH; try discriminate HH.
      destruct n1 as [|j|tg mt]; try discriminate HH.
      destruct (at_special (w_attr (hs_at H t1) q1)); cbn [orb] in HH; [discriminate HH|].
      destruct (at_readable (w_attr (hs_at H t1) q1)) eqn:Er; cbn [negb bind] in HH; [|discriminate HH].
      set (data := h_data (w_fs (hs_at H (hs_read H t1))) j) in *.
      pose proof (add_content_ok l data) as (ext & E1 & E2). destruct (add_content l data) as [l0 addr]. cbn [fst snd] in E1, E2. subst l0.
      injection HH as <- <-. exists ext. split; [reflexivity|]. split; [reflexivity|]. right. eexists. split; [reflexivity|].
      exists s', t0, t1, q, (HFile i). split; [lia|]. split; [exact Hs|]. split; [exact Hl|]. cbn [snd fst e_meta meta_at m_uid m_gid m_mode m_mtime].
      split; [repeat split|]. split; [exact Esp|]. exists addr, q1, j. split; [reflexivity|]. split; [exact El|]. split; [exact Er|exact E2].
  - intros HH. apply (f_equal snd) in HH. cbn [snd] in HH. unfold live_read_link in HH.
    destruct (look_str (hs_at H t1) false s') as [q1 n1|q1|e1] eqn:El; cbn [looked_up bind fst snd] in HH; try discriminate HH.
    destruct n1 as [|j|tg1 mt1]; cbn [bind] in HH; try discriminate HH. injection HH as <- <-. exists []. rewrite app_nil_r.
    split; [reflexivity|]. split; [reflexivity|]. right. eexists. split; [reflexivity|].
    exists s', t0, t1, q, (HLink tg mt). split; [lia|]. split; [exact Hs|]. split; [exact Hl|]. cbn [snd fst e_meta meta_at m_uid m_gid m_mode m_mtime].
    split; [repeat split|]. exists tg1, q1, mt1. split; [reflexivity|exact El].
Qed.

(** ** One path more *)
Lemma live_one H t pre s follow l contents t' c' : all_ok l ->
  live_add H t pre s follow (mkCreator (after l) contents) = (t', c', Ok tt) ->
  exists l2 c2, cr_entries c' = after (l ++ l2) /\ cr_contents c' = contents ++ c2 /\ all_ok (l ++ l2) /\
    all_seen H pre [(s, follow)] (l ++ l2) (contents ++ c2) /\
    (forall p nd, has (l ++ l2) p nd -> has l p nd \/
       (stands_for s (pieces pre ++ p) /\ seen H follow s (contents ++ c2) nd) \/
       (nd = (KDir, mkMeta 1000 1000 493 0) /\ p <> [] /\ exists t, t <> [] /\ stands_for s (pieces pre ++ p ++ t))).
Proof.
  intros Hok Hadd. unfold live_add in Hadd.
  destruct (is_abs s) eqn:Ha; [rewrite from_path_abs in Hadd by auto; discriminate Hadd|].
  destruct (forallb utf8 (filter not_dot (pieces s))) eqn:Hu; [|rewrite from_path_bad in Hadd by auto; discriminate Hadd].
  assert (Hpfx : exists x a, from_path s = Ok x /\ strip_prefix x pre = Some a /\ stands_for s (pieces pre ++ pieces a) /\ (pieces a = [] -> a = [])).
  { destruct s as [|c0 s0] eqn:Es.
    - cbn [from_path] in Hadd. pose proof (strip_prefix_pieces [] pre) as G. cbn [from_path].
      change (join (filter _ (pieces []))) with (@nil N) in *. destruct (strip_prefix [] pre) as [a|] eqn:Ep; [|discriminate Hadd].
      exists [], a. split; [reflexivity|]. split; [exact Ep|]. split; [split; auto|]. intros _.
      destruct a as [|y a]; [reflexivity|]. cbn [nonempty] in Hadd. discriminate Hadd.
    - rewrite <- Es in *. assert (Hs : s <> []) by (now rewrite Es). destruct (from_path_ok s Hs Ha Hu) as [H1 H2]. rewrite H1 in Hadd.
      pose proof (strip_prefix_pieces (join (filter not_dot (pieces s))) pre) as G. rewrite H2 in G.
      destruct (strip_prefix (join (filter not_dot (pieces s))) pre) as [p|] eqn:Ep; [|discriminate Hadd].
      assert (Hst2 : filter not_dot (pieces s) = pieces pre ++ pieces p) by auto.
      destruct (one_path s pre (pieces p) Hs Ha Hu Hst2) as (x & a & G1 & G2 & G3 & G4).
      exists x, a. split; [exact G1|]. split; [exact G2|]. rewrite G3. split; [split; auto|]. exact G4. }
  destruct Hpfx as (x & a & Ef & Ep & Hst & Hnil). rewrite Ef, Ep in Hadd. destruct (pieces a) as [|y0 p0] eqn:Epa; [rewrite (Hnil eq_refl) in *|].
  { cbn [nonempty] in Hadd. injection Hadd as _ <-. exists [], []. rewrite !app_nil_r. split; [reflexivity|]. split; [reflexivity|]. split; [exact Hok|].
      split; [|intros p0 nd0 H0; now left]. intros s' f' [E|[]]. injection E as <- <-. exists []. split; [exact Hst|]. intros H0. now destruct H0. }
  clear Hnil. assert (Ena : nonempty a = true) by (destruct a; [discriminate Epa|reflexivity]). rewrite Ena in Hadd.
  destruct (live_new H t s a contents follow) as [t1 r] eqn:En. cbn [cr_contents] in Hadd. rewrite En in Hadd.
  destruct r as [[l' e]| | |]; try discriminate Hadd. cbn [cr_entries] in Hadd. destruct (add_entry (after l) e) as [st r] eqn:Ea. injection Hadd as <- <- ->.
  destruct (live_newed _ _ _ _ _ _ _ _ _ En) as (ext & -> & Epath & Hk).
  destruct (after_snoc l e st Hok Ea) as [Haf Hok']. exists [e], ext. cbn [cr_entries cr_contents]. split; [now rewrite Haf|]. split; [reflexivity|]. split; [exact Hok'|].
  pose proof (dotless_filter s _ _ (proj2 Hst)) as Hdot.
  remember (y0 :: p0) as p eqn:Ep1. assert (Hp : p <> []) by (now rewrite Ep1). clear Ep1 y0 p0.
  assert (Epc : pieces (e_path e) = p) by (now rewrite Epath).
  destruct (rev p) as [|y d'] eqn:Erev. { exfalso. apply Hp. rewrite <- (rev_involutive p), Erev. reflexivity. }
  assert (Epd : p = rev d' ++ [y]) by (rewrite <- (rev_involutive p), Erev; reflexivity). set (d := rev d') in *. clearbody d. clear Erev.
  rewrite Epd in Epc. destruct (dotless_split (e_path e) d y Epc) as [Hd Hlast]; [now rewrite <- Epd|].
  split.
  - intros s' f' [E|[]]. injection E as <- <-. exists p. split; [exact Hst|]. intros _.
    destruct Hk as [[_ Hk]|(k & Ek & Hk)]; [left; exact Hk|]. right. exists (k, e_meta e). split; [exact Hk|].
    assert (Hy : y <> b "..").
    { intros ->. pose proof (add_entry_sim (after l)) as Hsim. destruct (after_sim l) as (m & Hi & Hr & _). fold (after l) in Hi, Hr.
      specialize (Hsim m e Hi Hr). rewrite Ea in Hsim. destruct (spec_add_entry m e) as [m' o] eqn:Es. destruct Hsim as (_ & _ & Ho).
      unfold spec_add_entry, spec_add in Es. rewrite Hd, Ek in Es. unfold last_of in Es. rewrite Epc in Es.
      rewrite drop_dots_dotless in Es by (now rewrite <- Epd). rewrite rev_app_distr in Es. cbn [rev app] in Es.
      change (bytes_eqb (b "..") (b "..")) with true in Es. destruct (blocked m d); injection Es as _ Es; congruence. }
    specialize (Hlast Hy). destruct (accepted l e st k d y Hok Ek Hd Hlast Ea) as (_ & _ & _ & B4 & _). rewrite <- Epd in B4.
    destruct B4 as [B4|(-> & mt & B4)]; [left; exact B4|]. right. split; [reflexivity|]. exists mt. now apply has_more.
  - intros p0 nd0 H0. destruct (snoc_has l e st p0 nd0 Hok Ea H0) as [H1|[(e' & [<-|[]] & G)|(-> & e' & [<-|[]] & Hp0 & u & Hu0)]]; [left; exact H1| |].
    + right. left. destruct G as (G1 & G2 & y0 & G3 & ->). rewrite Hd in *.
      assert (y0 = y) as ->.
      { unfold last_of in G3. rewrite Epc, drop_dots_dotless, rev_app_distr in G3 by (now rewrite <- Epd). cbn [rev app] in G3. destruct (bytes_eqb y (b "..")); congruence. }
      rewrite <- Epd. split; [exact Hst|].
      destruct Hk as [(Hk & _)|(k & Ek & Hk)]; [rewrite Hk in G1; discriminate G1|]. rewrite Ek in G1. injection G1 as G1.
      destruct nd0 as [k0 m0]. cbn [fst snd] in *. now rewrite <- G1, <- G2.
    + right. right. split; [reflexivity|]. split; [exact Hp0|]. exists (u ++ [y]). split; [now destruct u|].
      rewrite Hd in Hu0. rewrite (app_assoc p0), <- Hu0, <- Epd. exact Hst.
Qed.

(** ** Any number of paths *)
Definition live_filled (H : history) (pre : bytes) (S : list (bytes * bool)) (c : creator) : Prop :=
  exists l, cr_entries c = after l /\ all_ok l /\ seen_from H pre S l (cr_contents c) /\ all_seen H pre S l (cr_contents c).

Lemma live_filled_nil H pre : live_filled H pre [] creator_empty.
Proof.
  exists []. split; [reflexivity|]. split; [exact all_ok_nil|]. split; [intros p nd G; now apply has_nil in G|intros s f []].
Qed.

Lemma live_filled_each H pre l0 : forall S t c t' c', live_filled H pre S c -> live_each H t pre l0 c = (t', c', Ok tt) -> live_filled H pre (S ++ l0) c'.
Proof.
  induction l0 as [|[s f] l0 IH]; intros S t c t' c' Hf; cbn [live_each].
  - intros G. injection G as _ <-. now rewrite app_nil_r.
  - destruct (live_add H t pre s f c) as [[t1 c1] r] eqn:E. destruct r as [[]| | |]; try bad. intros G.
    replace (S ++ (s, f) :: l0) with ((S ++ [(s, f)]) ++ l0) by (now rewrite <- app_assoc). eapply IH; [|exact G]. clear G IH.
    destruct Hf as (l & Hc & Hok & Hsnd & Hcmp). destruct c as [st contents]. cbn [cr_entries cr_contents] in *. subst st.
    destruct (live_one H t pre s f l contents t1 c1 Hok E) as (l2 & c2 & H1 & H2 & H3 & H4 & H5). exists (l ++ l2). rewrite H2.
    split; [exact H1|]. split; [exact H3|]. split.
    + intros p nd Hh. destruct (H5 p nd Hh) as [G|[[G1 G2]|(G1 & G2 & u & G3 & G4)]].
      * destruct (Hsnd p nd G) as [(s' & f' & A1 & A2 & A3)|(A1 & A2 & s' & f' & u & A3 & A4)].
        -- left. exists s', f'. split; [apply in_app_iff; left; exact A1|]. split; [exact A2|]. now apply seen_mono.
        -- right. split; [exact A1|]. split; [exact A2|]. exists s', f', u. split; [apply in_app_iff; left; exact A3|exact A4].
      * left. exists s, f. split; [apply in_app_iff; right; now left|]. split; [exact G1|exact G2].
      * right. split; [exact G1|]. split; [exact G2|]. exists s, f, u. split; [apply in_app_iff; right; now left|]. split; [exact G3|exact G4].
    + intros s' f' Hin. apply in_app_iff in Hin as [Hin|Hin]; [|now apply H4].
      destruct (Hcmp s' f' Hin) as (p & G1 & G2). exists p. split; [exact G1|]. intros Hp. destruct (G2 Hp) as [G|(nd & G3 & G4)]; [left; exact G|].
      right. exists nd. split; [now apply seen_mono|]. destruct G4 as [G4|(G4 & m & G5)]; [left; now apply has_more|right; split; [exact G4|exists m; now apply has_more]].
Qed.

(** ** A host that does not change *)
Section Names.
  Variable f : hostfs.
  Hypothesis Hord : forall q n, h_names f q = Some n -> Forall ordinary q.
  Definition all_dirs (q : path) : Prop := forall p r, q = p ++ r -> p <> [] -> h_names f p = Some HDir.

  Lemma all_dirs_nil : all_dirs [].
  Proof. intros p r E Hp. symmetry in E. now apply app_eq_nil in E as [-> _]. Qed.
  Lemma all_dirs_snoc q x : all_dirs q -> h_names f (q ++ [x]) = Some HDir -> all_dirs (q ++ [x]).
  Proof.
    intros Hq Hx p r E Hp. destruct r as [|y r _] using rev_ind; [rewrite app_nil_r in E; now rewrite <- E|].
    rewrite app_assoc in E. apply app_inj_tail in E as [E _]. now apply (Hq p r).
  Qed.
  Lemma all_dirs_up q : all_dirs q -> all_dirs (removelast q).
  Proof.
    intros Hq p r E Hp. destruct q as [|y q _] using rev_ind; [now apply (Hq p r)|]. rewrite removelast_last in E. subst q.
    apply (Hq p (r ++ [y])); auto. now rewrite app_assoc.
  Qed.

  (** Where a resolution ends. *)
  Lemma namei_end k : forall c cur q n, all_dirs cur -> namei k f true cur c = At q n ->
    (n = HDir /\ all_dirs q) \/ exists d x i, q = d ++ [x] /\ all_dirs d /\ n = HFile i /\ h_names f q = Some n.
  Proof.
    induction k as [|k IH]; intros c; induction c as [|x c IHc]; intros cur q n Hc; rewrite namei_eq.
    1,3: intros E; injection E as <- <-; left; auto.
    all: destruct (bytes_eqb x (b ".")); [now apply IHc|]; destruct (bytes_eqb x (b "..")); [now apply IHc, all_dirs_up|];
      destruct (h_names f (cur ++ [x])) as [[|i|t m]|] eqn:En; [now apply IHc, all_dirs_snoc| | |destruct c; bad].
    1,3: destruct c; [|bad]; intros E; injection E as <- <-; right; exists cur, x, i; auto.
    - destruct c; bad.
    - destruct c; (intros E; eapply IH; [|exact E]; destruct (is_abs t); [apply all_dirs_nil|exact Hc]).
  Qed.

  Lemma namei_down k fl : forall c cur, all_dirs (cur ++ c) -> Forall ordinary c -> namei k f fl cur c = At (cur ++ c) HDir.
  Proof.
    induction c as [|x c IHc]; intros cur Hc Ho; rewrite namei_eq; [now rewrite app_nil_r|].
    apply Forall_cons_iff in Ho as [(_ & _ & H1 & H2) Ho].
    destruct (bytes_eqb_spec x (b ".")) as [|_]; [easy|]. destruct (bytes_eqb_spec x (b "..")) as [|_]; [easy|].
    rewrite (Hc (cur ++ [x]) c); [|now rewrite <- app_assoc|now destruct cur].
    replace (cur ++ x :: c) with ((cur ++ [x]) ++ c) in * by (now rewrite <- app_assoc). now apply IHc.
  Qed.
  Lemma namei_last k fl i x : forall c cur, all_dirs (cur ++ c) -> Forall ordinary c -> ordinary x ->
    h_names f ((cur ++ c) ++ [x]) = Some (HFile i) -> namei k f fl cur (c ++ [x]) = At ((cur ++ c) ++ [x]) (HFile i).
  Proof.
    induction c as [|y c IHc]; intros cur Hc Ho Hx Hf; cbn [app]; rewrite namei_eq.
    - destruct Hx as (_ & _ & H1 & H2). destruct (bytes_eqb_spec x (b ".")) as [|_]; [easy|]. destruct (bytes_eqb_spec x (b "..")) as [|_]; [easy|].
      rewrite app_nil_r in *. now rewrite Hf.
    - apply Forall_cons_iff in Ho as [(_ & _ & H1 & H2) Ho].
      destruct (bytes_eqb_spec y (b ".")) as [|_]; [easy|]. destruct (bytes_eqb_spec y (b "..")) as [|_]; [easy|].
      rewrite (Hc (cur ++ [y]) c); [|now rewrite <- app_assoc|now destruct cur].
      replace (cur ++ y :: c) with ((cur ++ [y]) ++ c) in * by (now rewrite <- app_assoc). now apply IHc.
  Qed.

  Lemma all_dirs_ordinary q : all_dirs q -> Forall ordinary q.
  Proof.
    intros H. destruct q as [|x q]; [constructor|]. apply (Hord (x :: q) HDir). apply (H _ []); [now rewrite app_nil_r|easy].
  Qed.
End Names.

Lemma path_string_pieces q : Forall ordinary q -> pieces (path_string q) = q.
Proof.
  intros H. unfold path_string. rewrite pieces_sep_cons. apply pieces_join. eapply Forall_impl; [|exact H]. intros n (H1 & H2 & _). auto.
Qed.
Lemma path_string_end q : Forall ordinary q -> q <> [] -> ends_with_sep (path_string q) = false.
Proof.
  intros H Hq. destruct (join_last_not_sep q) as (s & c & E & Hc); [|exact Hq|].
  - eapply Forall_impl; [|exact H]. intros n (H1 & H2 & H3). repeat split; auto; try easy.
  - unfold path_string. rewrite E. change (sep :: s ++ [c]) with ((sep :: s) ++ [c]). now rewrite ends_with_sep_snoc.
Qed.

Lemma look_canonical w s q n fl : possible w -> look_str w true s = At q n -> look_str w fl (path_string q) = At q n.
Proof.
  intros [Hord Hcwd] Hl.
  assert (G : (n = HDir /\ all_dirs (w_fs w) q) \/ exists d x i, q = d ++ [x] /\ all_dirs (w_fs w) d /\ n = HFile i /\ h_names (w_fs w) q = Some n).
  { unfold look_str in Hl. destruct s as [|c0 s0]; [discriminate Hl|]. unfold look in Hl. eapply namei_end; [|exact Hl].
    cbn [opath_of fst]. destruct (is_abs (c0 :: s0)); [apply all_dirs_nil|exact Hcwd]. }
  assert (Ho : Forall ordinary q).
  { destruct G as [[_ G]|(d & x & i & _ & _ & _ & G)]; [now apply (all_dirs_ordinary (w_fs w))|now apply (Hord q n)]. }
  unfold look_str. unfold path_string at 1. unfold look, opath_of. cbn [fst snd].
  change (is_abs (path_string q)) with true. cbv iota. rewrite path_string_pieces by auto.
  destruct (list_eq_dec (list_eq_dec N.eq_dec) q []) as [Eq|Eq]; [subst q|].
  - change (ends_with_sep (path_string [])) with true. cbv iota. cbn [app]. destruct G as [[-> _]|(d & x & i & E & _)]; [reflexivity|now destruct d].
  - rewrite path_string_end by auto. rewrite app_nil_r.
    destruct G as [[-> G]|(d & x & i & E & Hd & -> & G)].
    + now apply (namei_down (w_fs w) max_links fl q []).
    + rewrite E in *. apply Forall_app in Ho as [Ho1 Ho2]. apply Forall_cons_iff in Ho2 as [Ho2 _].
      now apply (namei_last (w_fs w) max_links fl i x d []).
Qed.

Section Steady.
  Variables (w : world) (H : history).
  Hypothesis Hw : possible w.
  Hypothesis Hsteady : forall t, hs_at H t = w.

  Lemma live_new_steady t s a l follow : snd (live_new H t s a l follow) = new_from_path w s a l follow.
  Proof.
    unfold live_new, live_detect, new_from_path, detect_kind. rewrite !Hsteady.
    destruct (look_str w false s) as [q n|q|e] eqn:E; cbn [looked_up bind snd]; [|reflexivity|reflexivity].
    assert (Hfile : forall i s', at_special (w_attr w q) = false -> n = HFile i -> s' = s ->
      live_read H (S t) s' = if at_readable (w_attr w q) then Ok (h_data (w_fs w) i) else Err (EIo IoOther)).
    { intros i s' Hsp -> ->. unfold live_read. rewrite !Hsteady. rewrite (look_nonlink w s q (HFile i)); [|intros ? ? HH; discriminate HH|exact E].
      cbn [looked_up bind fst snd]. rewrite Hsp. cbn [orb]. destruct (at_readable (w_attr w q)); reflexivity. }
    destruct n as [|i|tg m].
    - reflexivity.
    - cbn [live_kind_at kind_at]. destruct (at_special (w_attr w q)) eqn:Esp; cbn [snd]; [reflexivity|].
      rewrite (Hfile i s eq_refl eq_refl eq_refl). cbn [bind]. cbv beta iota. destruct (at_readable (w_attr w q)); reflexivity.
    - destruct follow.
      2:{ cbn [live_kind_at bind snd]. unfold live_read_link. rewrite Hsteady, E. cbn [looked_up bind snd]. reflexivity. }
      destruct (look_str w true s) as [q1 n1|q1|e1] eqn:E1; cbn [looked_up bind snd fst]; [|reflexivity|reflexivity].
      rewrite (look_canonical w s q1 n1 false Hw E1). cbn [looked_up bind snd fst].
      destruct n1 as [|i|tg1 m1]; cbn [live_kind_at kind_at snd].
      + reflexivity.
      + destruct (at_special (w_attr w q1)) eqn:Esp; cbn [snd]; [reflexivity|]. unfold live_read. rewrite !Hsteady.
        rewrite (look_canonical w s q1 (HFile i) true Hw E1). cbn [looked_up bind fst snd]. rewrite Esp. cbn [orb].
        destruct (at_readable (w_attr w q1)); cbn [negb bind]; reflexivity.
      + unfold live_read_link. rewrite Hsteady, (look_canonical w s q1 (HLink tg1 m1) false Hw E1). cbn [looked_up bind fst snd]. reflexivity.
  Qed.

  Lemma live_add_steady t pre s f c : (snd (fst (live_add H t pre s f c)), snd (live_add H t pre s f c)) = add_entry_from_path w pre s f c.
  Proof.
    unfold live_add, add_entry_from_path. destruct (from_path s) as [p| | |]; [|reflexivity..]. destruct (strip_prefix p pre) as [a|]; [|reflexivity].
    destruct (nonempty a); [|reflexivity]. rewrite <- (live_new_steady t). destruct (live_new H t s a (cr_contents c) f) as [t1 r]. cbn [snd].
    destruct r as [[l e]| | |]; [|reflexivity..]. destruct (add_entry (cr_entries c) e) as [st r]. reflexivity.
  Qed.

  Lemma live_each_steady pre l : forall t c, (snd (fst (live_each H t pre l c)), snd (live_each H t pre l c)) = add_each w pre l c.
  Proof.
    induction l as [|[s f] l IH]; intros t c; cbn [live_each add_each]; [reflexivity|].
    rewrite <- (live_add_steady t). destruct (live_add H t pre s f c) as [[t1 c1] r]. cbn [fst snd]. destruct r; [apply IH|reflexivity..].
  Qed.
End Steady.
