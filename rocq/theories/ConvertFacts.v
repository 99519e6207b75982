(** Converters: what a loop over members leaves in the creator. *)
From Verif Require Export SpecConvert CliSession.

Local Ltac bad := let H := fresh in intros H; discriminate H.

Lemma fetch_of_mono l ext x data : fetch_of l x = Found data -> fetch_of (l ++ ext) x = Found data.
Proof.
  unfold fetch_of. destruct (ca_pack x =? 1); auto. unfold at_. rewrite app_length.
  destruct (ca_content x <? N.of_nat (length l)) eqn:E; [|bad].
  assert (ca_content x <? N.of_nat (length l + length ext) = true) as -> by lia.
  rewrite nth_error_app1 by lia. auto.
Qed.

Lemma app_snoc_inv {A} (l : list A) x : forall l1 y l2, l ++ [x] = l1 ++ y :: l2 ->
  (l2 = [] /\ l1 = l /\ y = x) \/ (exists l3, l2 = l3 ++ [x] /\ l = l1 ++ y :: l3).
Proof.
  intros l1 y l2 H. destruct l2 as [|z l2] using rev_ind.
  - left. apply app_inj_tail in H as [-> ->]. auto.
  - right. clear IHl2. exists l2. replace (l1 ++ y :: l2 ++ [z]) with ((l1 ++ y :: l2) ++ [z]) in H by (now rewrite <- app_assoc).
    apply app_inj_tail in H as [-> ->]. auto.
Qed.

Lemma app_cons_r {A} (l1 : list A) x l2 : l1 ++ x :: l2 = (l1 ++ [x]) ++ l2.
Proof. now rewrite <- app_assoc. Qed.

Lemma run_adds_prefix l1 : forall l2 st, (forall r, In r (snd (run_adds st (l1 ++ l2))) -> r = Ok tt) ->
  forall r, In r (snd (run_adds st l1)) -> r = Ok tt.
Proof.
  induction l1 as [|e l1 IH]; intros l2 st; cbn [run_adds app]; [easy|].
  destruct (add_entry st e) as [st1 [[]|x| |]] eqn:E.
  - specialize (IH l2 st1). destruct (run_adds st1 (l1 ++ l2)) as [st2 o2]. destruct (run_adds st1 l1) as [st3 o3]. cbn [snd In] in *.
    intros H r [<-|Hr]; auto.
  - destruct (run_adds st1 (l1 ++ l2)) as [st2 o2]. cbn [snd In]. intros H. specialize (H (Err x) (or_introl eq_refl)). discriminate H.
  - cbn [snd]. auto.
  - cbn [snd]. auto.
Qed.
Lemma all_ok_prefix l1 l2 : all_ok (l1 ++ l2) -> all_ok l1.
Proof. exact (run_adds_prefix l1 l2 creator_new). Qed.
Lemma all_ok_last l e : all_ok (l ++ [e]) -> exists st, add_entry (after l) e = (st, Ok tt).
Proof.
  intros H. pose proof (all_ok_prefix _ _ H) as Hl. unfold all_ok, answers in *.
  assert (G : snd (run_adds creator_new (l ++ [e])) = snd (run_adds creator_new l) ++ snd (run_adds (after l) [e])) by (now rewrite run_adds_app).
  rewrite G in H. cbn [run_adds] in H. destruct (add_entry (after l) e) as [st r]. exists st. f_equal.
  apply H. rewrite in_app_iff. right. destruct r as [[]|x| |]; cbn; auto.
Qed.

Section Loop.
  Variable M : Type.
  Variable conv : M -> list bytes -> res (list bytes * option entry).
  Variable good : M -> (caddr -> fetched) -> path -> node -> Prop.
  Variable skip : M -> Prop.

  Fixpoint loop (items : list M) (c : creator) : creator * res unit :=
    match items with
    | [] => (c, Ok tt)
    | x :: r =>
        match conv x (cr_contents c) with
        | Ok (l, None) => loop r (mkCreator (cr_entries c) l)
        | Ok (l, Some e) =>
            match add_entry (cr_entries c) e with
            | (st, Ok _) => loop r (mkCreator st l)
            | (st, y) => (mkCreator st l, y)
            end
        | Err y => (c, Err y)
        | Panic => (c, Panic)
        | Diverge => (c, Diverge)
        end
    end.

  Lemma loop_app l1 : forall l2 c, loop (l1 ++ l2) c = match loop l1 c with (c1, Ok _) => loop l2 c1 | r => r end.
  Proof.
    induction l1 as [|x l1 IH]; intros l2 c; cbn [loop app]; auto.
    destruct (conv x (cr_contents c)) as [[l [e|]]| | |]; auto.
    destruct (add_entry (cr_entries c) e) as [st [[]| | |]]; auto.
  Qed.

  Definition made (contents : list bytes) (x : M) (oe : option entry) : Prop :=
    match oe with
    | None => skip x
    | Some e => exists k, e_kind e = Ok (Some k) /\ dotless (pieces (e_path e)) /\ good x (fetch_of contents) (pieces (e_path e)) (k, e_meta e)
    end.

  Variable fit : M -> Prop.
  Hypothesis conv_made : forall x l l' oe, fit x -> conv x l = Ok (l', oe) -> (exists ext, l' = l ++ ext) /\ made l' x oe.
  Hypothesis good_mono : forall x l ext p nd, good x (fetch_of l) p nd -> good x (fetch_of (l ++ ext)) p nd.

  Lemma made_mono l ext x oe : made l x oe -> made (l ++ ext) x oe.
  Proof. destruct oe as [e|]; cbn; auto. intros (k & H1 & H2 & H3). exists k. auto. Qed.

  Definition keeps (ps : list (M * option entry)) : list entry :=
    flat_map (fun p => match snd p with Some e => [e] | None => [] end) ps.
  Lemma keeps_app x y : keeps (x ++ y) = keeps x ++ keeps y.
  Proof. apply flat_map_app. Qed.
  Lemma keeps_in e ps : In e (keeps ps) -> exists x, In (x, Some e) ps.
  Proof.
    unfold keeps. rewrite in_flat_map. intros ([x [e'|]] & H & H'); cbn in H'; [|easy]. destruct H' as [<-|[]]. eauto.
  Qed.

  Lemma loop_session items : Forall fit items -> forall c, loop items creator_empty = (c, Ok tt) ->
    exists ps, map fst ps = items /\ cr_entries c = after (keeps ps) /\ all_ok (keeps ps) /\
      forall x oe, In (x, oe) ps -> made (cr_contents c) x oe.
  Proof.
    induction items as [|x items IH] using rev_ind; intros Hfit c.
    - cbn [loop]. intros H. injection H as <-. exists []. split; auto. split; auto. split; [apply all_ok_nil|]. intros x oe [].
    - apply Forall_app in Hfit as [Hfit Hx]. apply Forall_inv in Hx. specialize (IH Hfit). rewrite loop_app. destruct (loop items creator_empty) as [c1 r1] eqn:E1. destruct r1 as [[]| | |]; try bad.
      destruct (IH c1 eq_refl) as (ps & P1 & P2 & P3 & P4). cbn [loop].
      destruct (conv x (cr_contents c1)) as [[l oe]| | |] eqn:Ec; try bad.
      destruct (conv_made _ _ _ _ Hx Ec) as ([ext ->] & Hm). destruct oe as [e|].
      + destruct (add_entry (cr_entries c1) e) as [st r] eqn:Ea. rewrite P2 in Ea. destruct r as [[]| | |]; try bad.
        intros H. injection H as <-. destruct (after_snoc _ e st P3 Ea) as [H1 H2].
        exists (ps ++ [(x, Some e)]). rewrite map_app, P1, keeps_app. cbn [map fst keeps flat_map snd app cr_entries cr_contents].
        split; auto. split; auto. split; auto. intros y oe Hy. apply in_app_iff in Hy as [Hy|[Hy|[]]].
        * apply made_mono. auto.
        * injection Hy as <- <-. exact Hm.
      + intros H. injection H as <-. exists (ps ++ [(x, None)]). rewrite map_app, P1, keeps_app. cbn [map fst keeps flat_map snd app cr_entries cr_contents].
        rewrite app_nil_r. split; auto. split; auto. split; auto. intros y oe Hy. apply in_app_iff in Hy as [Hy|[Hy|[]]].
        * apply made_mono. auto.
        * injection Hy as <- <-. exact Hm.
  Qed.

  Lemma split_map {A B} (f : A -> B) l : forall l1 y l2, map f l = l1 ++ y :: l2 ->
    exists k1 x k2, l = k1 ++ x :: k2 /\ map f k1 = l1 /\ f x = y /\ map f k2 = l2.
  Proof.
    induction l as [|a l IH]; intros [|z l1] y l2; cbn [map app]; try bad.
    - intros H. injection H as <- <-. exists [], a, l. auto.
    - intros H. injection H as <- H. destruct (IH l1 y l2 H) as (k1 & x & k2 & -> & <- & <- & <-). exists (a :: k1), x, k2. auto.
  Qed.

  (** A path string without "." components. *)
  Lemma dotless_parts s : dotless (pieces s) ->
    (has_last_name (pieces s) /\ exists d n, pieces s = d ++ [n] /\ n <> b ".." /\ dir_of s = d /\ last_of s = Some n) \/
    (~ has_last_name (pieces s) /\ last_of s = None).
  Proof.
    intros H. destruct (pieces s) as [|n d _] eqn:E using rev_ind.
    - right. split; [intros (d & n & Hd & _); now destruct d|]. unfold last_of. rewrite E. reflexivity.
    - destruct (list_eq_dec N.eq_dec n (b "..")) as [->|Hn].
      + right. split; [intros (d' & n' & Hd & Hn); apply app_inj_tail in Hd as [_ <-]; easy|].
        unfold last_of. rewrite E, drop_dots_dotless by auto. rewrite rev_app_distr. reflexivity.
      + left. split; [exists d, n; auto|]. exists d, n. destruct (dotless_split s d n E H) as [H1 H2]. auto.
  Qed.

  (** An accepted call with a kind has a last name. *)
  Lemma accepted_last l e st k : add_entry (after l) e = (st, Ok tt) -> e_kind e = Ok (Some k) -> last_of (e_path e) <> None.
  Proof.
    intros Ha Hk Hn. destruct (after_sim l) as (m & Hi & Hr & _). fold (after l) in Hi, Hr.
    pose proof (add_entry_sim (after l) m e Hi Hr) as Hs. rewrite Ha in Hs. unfold spec_add_entry, spec_add in Hs. rewrite Hk, Hn in Hs.
    destruct (blocked m (dir_of (e_path e))); destruct Hs as (_ & _ & Hs); discriminate Hs.
  Qed.

  Definition origin_in (l1 : list M) (F : caddr -> fetched) (p : path) (nd : node) : Prop :=
    (exists x, In x l1 /\ good x F p nd) \/
    (nd = implicit_dir /\ exists x q nd', In x l1 /\ good x F q nd' /\ proper_prefix p q).

  Lemma keeps_origin ps contents p nd : (forall x oe, In (x, oe) ps -> made contents x oe) -> has (keeps ps) p nd ->
    origin_in (map fst ps) (fetch_of contents) p nd.
  Proof.
    intros Hm H. destruct (stored_origin _ _ _ H) as [(e & He & Hk & Hmt & n & Hn & ->)|(-> & e & He & Hp & r & Hr)].
    - left. destruct (keeps_in _ _ He) as [x Hx]. exists x. split; [now apply (in_map fst) in Hx|].
      destruct (Hm _ _ Hx) as (k & K1 & K2 & K3). rewrite Hk in K1. injection K1 as <-. rewrite Hmt in K3.
      destruct (dotless_parts _ K2) as [(_ & d & n' & E & _ & <- & E')|(_ & E)]; [|congruence].
      assert (n' = n) as -> by congruence. rewrite E in K3. now destruct nd.
    - right. split; auto. destruct (keeps_in _ _ He) as [x Hx]. destruct (Hm _ _ Hx) as (k & K1 & K2 & K3).
      exists x, (pieces (e_path e)), (k, e_meta e). split; [now apply (in_map fst) in Hx|]. split; auto.
      unfold dir_of in Hr. rewrite drop_dots_dotless in Hr by auto.
      destruct (pieces (e_path e)) as [|y d _] eqn:E using rev_ind; [now destruct p; [destruct Hp|discriminate Hr]|].
      rewrite removelast_last in Hr. subst d. destruct r as [|z r]; [exists y, []|exists z, (r ++ [y])]; rewrite <- ?app_assoc; reflexivity.
  Qed.

  (** What a successful loop means. *)
  Theorem loop_means items c : Forall fit items -> loop items creator_empty = (c, Ok tt) ->
    exists l, cr_entries c = after l /\ all_ok l /\
      (forall l1 x l2, items = l1 ++ x :: l2 -> skip x \/
         exists p nd0 nd, good x (fetch_of (cr_contents c)) p nd0 /\ has_last_name p /\ has l p nd /\
           (nd = nd0 \/ (fst nd0 = KDir /\ fst nd = KDir /\ origin_in l1 (fetch_of (cr_contents c)) p nd))) /\
      (forall p nd, has l p nd -> origin_in items (fetch_of (cr_contents c)) p nd).
  Proof.
    intros Hfit H. destruct (loop_session items Hfit c H) as (ps & <- & P2 & P3 & P4). exists (keeps ps). split; auto. split; auto.
    split; [|intros p nd; now apply keeps_origin].
    intros l1 x l2 E. destruct (split_map fst ps l1 x l2 E) as (k1 & [x' oe] & k2 & -> & <- & Ex & <-). cbn [fst] in Ex. subst x'.
    destruct oe as [e|]; [|left; apply (P4 x None); rewrite in_app_iff; cbn; auto]. right.
    destruct (P4 x (Some e)) as (k & K1 & K2 & K3); [rewrite in_app_iff; cbn; auto|].
    rewrite keeps_app in *. change (keeps ((x, Some e) :: k2)) with (e :: keeps k2) in *.
    assert (Hok1 : all_ok (keeps k1) /\ exists st, add_entry (after (keeps k1)) e = (st, Ok tt)).
    { rewrite (app_cons_r (keeps k1) e (keeps k2)) in P3. split.
      - eapply all_ok_prefix. rewrite <- app_assoc in P3. exact P3.
      - pose proof (all_ok_prefix _ _ P3) as Hp. eapply all_ok_last. exact Hp. }
    destruct Hok1 as (Hok1 & st & Ha). pose proof (accepted_last _ _ _ _ Ha K1) as Hl.
    destruct (dotless_parts _ K2) as [(Hp & d & n & E1 & E2 & E3 & E4)|(_ & E1)]; [|easy].
    destruct (accepted (keeps k1) e st k d n Hok1 K1 E3 E4 Ha) as (-> & Hok2 & Hkeep & Hst & _).
    assert (Hmore : forall p nd, has (keeps k1 ++ [e]) p nd -> has (keeps k1 ++ e :: keeps k2) p nd).
    { intros p nd Hh. rewrite (app_cons_r (keeps k1) e (keeps k2)). unfold has. rewrite after_app by auto. now apply stored_kept. }
    exists (pieces (e_path e)), (k, e_meta e). rewrite E1 in *. destruct Hst as [Hst|(-> & mt & Hst)].
    - exists (k, e_meta e). auto.
    - exists (KDir, mt). split; auto. split; auto. split; auto. right. split; auto. split; auto.
      apply keeps_origin; auto. intros y oe Hy. apply P4. rewrite in_app_iff. auto.
  Qed.

  (** *** When the loop succeeds *)
  Lemma add_fits l e k d n : e_kind e = Ok (Some k) -> dir_of (e_path e) = d -> last_of (e_path e) = Some n ->
    (forall q t nd, q <> [] -> d = q ++ t -> has l q nd -> is_dir_node nd = true) ->
    (forall nd, has l (d ++ [n]) nd -> k = KDir /\ is_dir_node nd = true) ->
    exists st, add_entry (after l) e = (st, Ok tt).
  Proof.
    intros Hk Hd Hn Hdirs Hfree. destruct (after_sim l) as (m & Hi & Hr & _). fold (after l) in Hi, Hr.
    pose proof (add_entry_sim (after l) m e Hi Hr) as Hs. destruct (add_entry (after l) e) as [st r]. exists st. f_equal.
    unfold spec_add_entry, spec_add in Hs. rewrite Hk, Hn, Hd in Hs.
    assert (Hb : blocked m d = false).
    { destruct (blocked m d) eqn:Eb; auto. apply blocked_true in Eb as (q & nd & H1 & H2 & H3 & H4).
      apply is_prefix_spec in H2 as [t H2]. apply Hr in H3. rewrite (Hdirs q t nd H1 H2 H3) in H4. discriminate H4. }
    rewrite Hb in Hs. cbv zeta in Hs. destruct (m (d ++ [n])) as [old|] eqn:Em.
    - apply Hr in Em. destruct (Hfree old Em) as [-> Ho]. rewrite Ho in Hs. now destruct Hs as (_ & _ & ->).
    - destruct k; now destruct Hs as (_ & _ & ->).
  Qed.

  (** A table of paths and kinds of the members that are not skipped. *)
  Variable dirlike : M -> Prop.
  Hypothesis good_dir : forall x F p nd, good x F p nd -> (fst nd = KDir <-> dirlike x).

  Inductive listed : list M -> list (path * bool) -> Prop :=
  | listed_nil : listed [] []
  | listed_skip l t x : listed l t -> fit x -> (forall c, exists c', conv x c = Ok (c', None)) -> listed (l ++ [x]) t
  | listed_one l t x p d : listed l t -> fit x ->
      (forall c, exists c' e, conv x c = Ok (c', Some e) /\ pieces (e_path e) = p) ->
      (d = true <-> dirlike x) -> listed (l ++ [x]) (t ++ [(p, d)]).

  Lemma listed_loop l t : listed l t -> no_clash t -> exists c, loop l creator_empty = (c, Ok tt) /\
     exists ps, map fst ps = l /\ cr_entries c = after (keeps ps) /\ all_ok (keeps ps) /\
       (forall x oe, In (x, oe) ps -> made (cr_contents c) x oe) /\
       (forall e, In e (keeps ps) -> exists d k, In (pieces (e_path e), d) t /\ e_kind e = Ok (Some k) /\ (d = true <-> k = KDir)).
  Proof.
    intros H. induction H as [|l t x H IH Hf Hx|l t x p d H IH Hf Hx Hd]; intros Hnc.
    - exists creator_empty. split; auto. exists []. split; auto. split; auto. split; [apply all_ok_nil|]. split; [intros x oe []|intros e []].
    - destruct (IH Hnc) as (c & E & ps & P1 & P2 & P3 & P4 & P5). rewrite loop_app, E. cbn [loop].
      destruct (Hx (cr_contents c)) as [c' Ec]. rewrite Ec. eexists. split; [reflexivity|].
      destruct (conv_made _ _ _ _ Hf Ec) as ([ext ->] & Hm). exists (ps ++ [(x, None)]).
      rewrite map_app, P1, keeps_app. cbn [map fst keeps flat_map snd app cr_entries cr_contents]. rewrite app_nil_r.
      split; auto. split; auto. split; auto. split; auto. intros y oe Hy. apply in_app_iff in Hy as [Hy|[Hy|[]]]; [apply made_mono; auto|].
      injection Hy as <- <-. exact Hm.
    - inversion Hnc as [Hnil|t' p' d' Hnc' Hln Hcl Ht]; [now destruct t|]. apply app_inj_tail in Ht as [-> Ht]. injection Ht as -> ->.
      destruct (IH Hnc') as (c & E & ps & P1 & P2 & P3 & P4 & P5). rewrite loop_app, E. cbn [loop].
      destruct (Hx (cr_contents c)) as (c' & e & Ec & Ep). rewrite Ec. destruct (conv_made _ _ _ _ Hf Ec) as ([ext ->] & Hm).
      pose proof Hm as (k & K1 & K2 & K3).
      assert (Hkd : d = true <-> k = KDir) by (rewrite Hd; symmetry; apply (good_dir _ _ _ _ K3)).
      destruct (dotless_parts _ K2) as [(_ & dir & n & E1 & E2 & E3 & E4)|(Hno & _)]; [|now rewrite Ep in Hno].
      assert (Hfit : exists st, add_entry (after (keeps ps)) e = (st, Ok tt)).
      { assert (Horig : forall q nd, has (keeps ps) q nd -> (exists d', In (q, d') t /\ (d' = true <-> fst nd = KDir)) \/
           (fst nd = KDir /\ exists d' q', In (q', d') t /\ proper_prefix q q')).
        { intros q nd Hh. destruct (stored_origin _ _ _ Hh) as [(e' & He & Hk & Hmt & n' & Hn & ->)|(-> & e' & He & Hp & r & Hr)].
          - left. destruct (P5 _ He) as (d' & k' & Q1 & Q2 & Q3). exists d'. rewrite Q2 in Hk. injection Hk as ->. split; auto.
            destruct (keeps_in _ _ He) as [y Hy]. destruct (P4 _ _ Hy) as (_ & _ & D & _).
            destruct (dotless_parts _ D) as [(_ & d1 & n1 & F1 & _ & F3 & F4)|(_ & F)]; [|congruence].
            rewrite F1 in Q1. rewrite F3. now assert (n1 = n') as <- by congruence.
          - right. split; auto. destruct (P5 _ He) as (d' & k' & Q1 & Q2 & Q3). exists d', (pieces (e_path e')). split; auto.
            destruct (keeps_in _ _ He) as [y Hy]. destruct (P4 _ _ Hy) as (_ & _ & D & _).
            unfold dir_of in Hr. rewrite drop_dots_dotless in Hr by auto.
            destruct (pieces (e_path e')) as [|y' d1 _] eqn:E' using rev_ind; [now destruct q; [destruct Hp|discriminate Hr]|].
            rewrite removelast_last in Hr. subst d1. destruct r as [|z r]; [exists y', []|exists z, (r ++ [y'])]; rewrite <- ?app_assoc; reflexivity. }
        apply (add_fits _ _ k dir n); auto.
        - intros q r nd Hq Hqr Hh. assert (Hpp : proper_prefix q p).
          { rewrite <- Ep, E1, Hqr. destruct r as [|z r]; [exists n, []|exists z, (r ++ [n])]; rewrite <- ?app_assoc; reflexivity. }
          unfold is_dir_node. destruct (Horig q nd Hh) as [(d' & Q1 & Q2)|(-> & _)]; auto.
          destruct (Hcl q d' Q1) as (_ & Q & _). now rewrite (proj1 Q2 (Q Hpp)).
        - rewrite <- E1, Ep. intros nd Hh. unfold is_dir_node. destruct (Horig p nd Hh) as [(d' & Q1 & Q2)|(Q1 & d' & q & Q2 & Q3)].
          + destruct (Hcl p d' Q1) as (Q & _). destruct (Q eq_refl) as [-> ->]. rewrite (proj1 Q2 eq_refl). split; auto. now apply Hkd.
          + destruct (Hcl q d' Q2) as (_ & _ & Q). rewrite (Q Q3) in Hkd. rewrite Q1. split; auto. now apply Hkd. }
      destruct Hfit as [st Ha]. rewrite P2, Ha. eexists. split; [reflexivity|].
      destruct (after_snoc _ e st P3 Ha) as [H1 H2]. exists (ps ++ [(x, Some e)]).
      rewrite map_app, P1, keeps_app. cbn [map fst keeps flat_map snd app cr_entries cr_contents].
      split; auto. split; auto. split; auto. split.
      + intros y oe Hy. apply in_app_iff in Hy as [Hy|[Hy|[]]]; [apply made_mono; auto|]. injection Hy as <- <-. exact Hm.
      + intros e' He'. apply in_app_iff in He' as [He'|[<-|[]]].
        * destruct (P5 e' He') as (d' & k' & Q1 & Q2). exists d', k'. rewrite in_app_iff. auto.
        * exists d, k. rewrite in_app_iff, Ep. cbn. auto.
  Qed.
End Loop.
