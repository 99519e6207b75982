(** What [arx create] leaves in the creator. *)
From Verif Require Export CliFacts AddOne AddSession ReadFacts.

Local Ltac bad := let H := fresh in intros H; discriminate H.

Lemma written_length st fetch a : cinv st -> write_archive st fetch = Some a -> length (a_recs a) = length (cs_store st).
Proof.
  intros Hi. destruct (layout_ok st Hi) as (ord & H1 & H2 & _). unfold write_archive. rewrite H1.
  intros H. injection H as <-. cbn [a_recs]. rewrite map_length. now apply (order_length st ord).
Qed.

Lemma archive_small l fetch a : archive_of l fetch a -> N.of_nat (length (a_recs a)) < 2^32 -> small l.
Proof. intros H Hn. unfold small. rewrite <- (written_length (after l) fetch a); auto. apply run_adds_inv. Qed.

(** An accepted path adds nothing, or one entry whose path is that path without the prefix. *)
Lemma entry_added w pre s follow l contents c' : all_ok l ->
  add_entry_from_path w pre s follow (mkCreator (after l) contents) = (c', Ok tt) ->
  exists es, cr_entries c' = after (l ++ es) /\ all_ok (l ++ es) /\
    (forall e, In e es -> stands_for s (pieces pre ++ pieces (e_path e))).
Proof.
  intros Hok. unfold add_entry_from_path.
  destruct (is_abs s) eqn:Ha; [rewrite from_path_abs by auto; discriminate|].
  destruct (forallb utf8 (filter not_dot (pieces s))) eqn:Hu; [|rewrite from_path_bad by auto; bad].
  assert (Hnil : forall x, c' = mkCreator (after l) x -> exists es, cr_entries c' = after (l ++ es) /\ all_ok (l ++ es) /\
    (forall e, In e es -> stands_for s (pieces pre ++ pieces (e_path e)))).
  { intros x ->. exists []. rewrite app_nil_r. split; auto. split; auto. intros e []. }
  destruct s as [|c0 s0] eqn:Es.
  { cbn [from_path]. pose proof (strip_prefix_pieces [] pre) as H.
    match goal with |- context [strip_prefix ?x pre] => change x with (@nil N); destruct (strip_prefix x pre) as [p|] end; [|bad].
    destruct p as [|y p]; cbn [nonempty]; [intros H'; injection H' as <-; eauto|].
    match goal with |- context [new_from_path w ?x ?y ?z ?t] => destruct (new_from_path w x y z t) as [[n e]| | |] eqn:En end; try bad.
    discriminate En. }
  rewrite <- Es in *. assert (Hs : s <> []) by (now rewrite Es).
  destruct (from_path_ok s Hs Ha Hu) as [H1 H2]. rewrite H1.
  pose proof (strip_prefix_pieces (join (filter not_dot (pieces s))) pre) as H. rewrite H2 in H.
  destruct (strip_prefix (join (filter not_dot (pieces s))) pre) as [p|]; [|bad].
  destruct (nonempty p); [|intros H'; injection H' as <-; eauto].
  destruct (new_from_path w s p (cr_contents (mkCreator (after l) contents)) follow) as [[x e]| | |] eqn:En; try bad.
  cbn [cr_entries]. destruct (add_entry (after l) e) as [st r] eqn:Ea. intros H'. injection H' as <- ->.
  destruct (after_snoc l e st Hok Ea) as [<- Hok']. exists [e]. split; auto. split; auto.
  intros e' [<-|[]]. split; auto.
  assert (Ep : e_path e = p); [|now rewrite Ep].
  unfold new_from_path in En. destruct (detect_kind w s follow) as [[k q]| | |]; try discriminate En. cbn [bind] in En.
  destruct k as [|data|t|]; [injection En as _ <-; reflexivity| |injection En as _ <-; reflexivity|injection En as _ <-; reflexivity].
  destruct (at_readable (w_attr w q)); [|discriminate En]. destruct (add_content _ data) as [l' addr]. injection En as _ <-. reflexivity.
Qed.

Lemma each_added w pre l0 : forall l contents c', all_ok l ->
  add_each w pre l0 (mkCreator (after l) contents) = (c', Ok tt) ->
  exists es, cr_entries c' = after (l ++ es) /\ all_ok (l ++ es) /\
    (forall e, In e es -> exists s, In s (map fst l0) /\ stands_for s (pieces pre ++ pieces (e_path e))).
Proof.
  induction l0 as [|[s follow] l0 IH]; intros l contents c' Hok; cbn [add_each map fst].
  - intros H. injection H as <-. exists []. rewrite app_nil_r. split; auto. split; auto. intros e [].
  - destruct (add_entry_from_path w pre s follow (mkCreator (after l) contents)) as [[st x] r] eqn:E. destruct r as [[]| | |]; try bad.
    intros H. destruct (entry_added _ _ _ _ _ _ _ Hok E) as (es & E1 & E2 & E3). cbn [cr_entries] in E1. subst st.
    destruct (IH (l ++ es) x c' E2 H) as (es' & F1 & F2 & F3). exists (es ++ es'). rewrite app_assoc. split; auto. split; auto.
    intros e He. apply in_app_iff in He as [He|He].
    + exists s. split; [now left|auto].
    + destruct (F3 e He) as (s' & H1 & H2). exists s'. split; auto. now right.
Qed.

Lemma infiles_added fuel w pre rc l0 : forall l contents c', all_ok l ->
  add_infiles fuel w pre l0 rc (mkCreator (after l) contents) = (c', Ok tt) ->
  exists es, cr_entries c' = after (l ++ es) /\ all_ok (l ++ es).
Proof.
  induction l0 as [|s l0 IH]; intros l contents c' Hok; cbn [add_infiles].
  - intros H. injection H as <-. exists []. rewrite app_nil_r. auto.
  - destruct (add_from_path fuel w pre s rc (mkCreator (after l) contents)) as [[st x] r] eqn:E. destruct r as [[]| | |]; try bad.
    unfold add_from_path in E. destruct (walk fuel w s rc) as [items|]; [|discriminate E].
    intros H. destruct (each_added _ _ _ _ _ _ Hok E) as (es & E1 & E2 & _). cbn [cr_entries] in E1. subst st.
    destruct (IH (l ++ es) x c' E2 H) as (es' & F1 & F2). exists (es ++ es'). rewrite app_assoc. auto.
Qed.

(** Every written archive comes from a session. *)
Lemma fill_session fuel w0 w o c : fill fuel w0 w o = (c, Ok tt) -> exists l, cr_entries c = after l /\ all_ok l.
Proof.
  unfold fill. destruct (o_file_list o) as [fl|].
  - destruct (bind (read_file w0 fl) read_lines) as [files| | |]; try bad. unfold add_from_list. intros H.
    destruct (each_added w _ _ [] [] c all_ok_nil H) as (es & H1 & H2 & _). eauto.
  - destruct (existsb is_abs (o_infiles o)); [bad|]. destruct (check_input_paths_exist w (o_infiles o)) as [u| | |]; try bad.
    intros H. destruct (infiles_added _ w _ _ _ [] [] c all_ok_nil H) as (es & H1 & H2). eauto.
Qed.

(** The shape of every run. *)
Lemma create_shape fuel w can_open o evs r : create fuel w can_open o = (evs, r) ->
  (evs = [] /\ (r = Ok tt -> o_list_compressions o = true)) \/
  (exists m, evs = [Opened m] /\ r <> Ok tt) \/
  (exists m a c w', evs = [Opened m; Written a] /\ r = Ok tt /\ fill fuel w w' o = (c, Ok tt) /\ finalize c = Some a /\
     create_concat (o_concat o) = Ok m /\
     match o_base o with Some d => chdir w d = Ok w' | None => w' = w end).
Proof.
  unfold create. destruct (o_list_compressions o); [intros H; injection H as <- <-; auto|].
  assert (Hnil : forall x, x <> Ok tt -> (@nil out_event, x) = (evs, r) -> (evs = [] /\ (r = Ok tt -> false = true))).
  { intros x Hx H. injection H as <- <-. split; auto; easy. }
  destruct (check_output_path_writable w (o_out o) (o_force o)) as [u| | |]; try (intros H; left; eapply Hnil; [|exact H]; easy).
  set (cd := match o_base o with Some d => chdir w d | None => Ok w end).
  assert (Hcd : forall w', cd = Ok w' -> match o_base o with Some d => chdir w d = Ok w' | None => w' = w end).
  { intros w'. unfold cd. destruct (o_base o); congruence. }
  destruct cd as [w'| | |]; try (intros H; left; eapply Hnil; [|exact H]; easy). specialize (Hcd w' eq_refl).
  destruct (create_concat (o_concat o)) as [m| | |] eqn:Em; try (intros H; left; eapply Hnil; [|exact H]; easy).
  destruct can_open; [|intros H; left; eapply Hnil; [|exact H]; easy].
  destruct (fill fuel w w' o) as [c x] eqn:Ef. intros H. right. destruct x as [[]| | |]; try (left; injection H as <- <-; eexists; split; [reflexivity|easy]).
  destruct (finalize c) as [a|] eqn:Ea; injection H as <- <-; [right|left; eexists; split; [reflexivity|easy]].
  exists m, a, c, w'. repeat (split; [reflexivity||assumption|]). exact Hcd.
Qed.

(** What [stat] finds, [lstat] finds (possibly a link). *)
Lemma namei_lstat k : forall f c cur q n, namei k f true cur c = At q n -> exists q' n', namei k f false cur c = At q' n'.
Proof.
  induction k as [|k IHk]; intros f c; induction c as [|x c IHc]; intros cur q n; cbn [namei]; eauto.
  - destruct (bytes_eqb x (b ".")); eauto. destruct (bytes_eqb x (b "..")); eauto. cbv zeta.
    destruct (h_names f (cur ++ [x])) as [[|i|t m]|]; eauto. all: destruct c; eauto; bad.
  - destruct (bytes_eqb x (b ".")); eauto. destruct (bytes_eqb x (b "..")); eauto. cbv zeta.
    destruct (h_names f (cur ++ [x])) as [[|i|t m]|]; eauto. all: destruct c; eauto; try bad.
    cbn [negb]. all: intros H; first [eapply IHk; exact H|eauto].
Qed.
Lemma stat_lstat w s q n : look_str w true s = At q n -> exists q' n', look_str w false s = At q' n'.
Proof. unfold look_str. destruct s; [bad|]. apply namei_lstat. Qed.
