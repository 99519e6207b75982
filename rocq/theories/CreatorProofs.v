(** The creator implements the path map of SpecTree. *)
From Verif Require Export SpecStore RelPathFacts.
Local Open Scope nat_scope.

(** ** Small facts *)
Lemma assoc_in {A} k (l : list (bytes * A)) v : assoc k l = Some v -> In (k, v) l.
Proof.
  induction l as [|[k' v'] l IH]; cbn; [easy|].
  destruct (bytes_eqb_spec k' k) as [->|]; intros H; [injection H as ->; now left|right; auto].
Qed.

Lemma in_assoc {A} k (l : list (bytes * A)) v : NoDup (map fst l) -> In (k, v) l -> assoc k l = Some v.
Proof.
  induction l as [|[k' v'] l IH]; cbn; [easy|]. intros Hn H. apply NoDup_cons_iff in Hn as [Hk Hn].
  destruct H as [H|H].
  - injection H as -> ->. now rewrite bytes_eqb_refl.
  - destruct (bytes_eqb_spec k' k) as [->|]; auto. destruct Hk. apply in_map_iff. now exists (k, v).
Qed.

Lemma assoc_none {A} k (l : list (bytes * A)) : assoc k l = None <-> ~ In k (map fst l).
Proof.
  induction l as [|[k' v'] l IH]; cbn; [easy|].
  destruct (bytes_eqb_spec k' k) as [->|Hk]; [split; [easy|intros H; destruct H; now left]|].
  rewrite IH. split; intros H; [intros [?|?]; congruence || auto|auto].
Qed.

Lemma dirref_eqb_spec x y : reflect (x = y) (dirref_eqb x y).
Proof.
  destruct x as [x|], y as [y|]; cbn; try (constructor; congruence).
  destruct (Nat.eqb_spec x y); constructor; congruence.
Qed.

Lemma path_beq_spec p q : reflect (p = q) (path_beq p q).
Proof.
  revert q; induction p as [|a p IH]; intros [|c q]; cbn; try (constructor; congruence).
  destruct (list_eq_dec N.eq_dec a c) as [->|H]; [|constructor; congruence].
  destruct (IH q); constructor; congruence.
Qed.

Lemma path_beq_refl p : path_beq p p = true.
Proof. now destruct (path_beq_spec p p). Qed.

Lemma is_prefix_spec q p : is_prefix q p = true <-> exists r, p = q ++ r.
Proof.
  revert p; induction q as [|a q IH]; intros p; cbn.
  - split; intros; [now exists p|easy].
  - destruct p as [|c p]; [split; [easy|intros [r H]; discriminate H]|].
    destruct (list_eq_dec N.eq_dec a c) as [->|H].
    + rewrite IH. split; intros [r Hr]; exists r; [now subst|now injection Hr].
    + split; [easy|intros [r Hr]]. congruence.
Qed.

Lemma is_prefix_refl p : is_prefix p p = true.
Proof. apply is_prefix_spec. exists []. now rewrite app_nil_r. Qed.

Lemma is_prefix_app p r : is_prefix p (p ++ r) = true.
Proof. apply is_prefix_spec. now exists r. Qed.

Lemma is_prefix_trans p q r : is_prefix p q = true -> is_prefix q r = true -> is_prefix p r = true.
Proof. rewrite !is_prefix_spec. intros [x ->] [y ->]. exists (x ++ y). now rewrite app_assoc. Qed.

Lemma in_prefixes q p : In q (prefixes p) <-> q <> [] /\ is_prefix q p = true.
Proof.
  revert q; induction p as [|n p IH]; intros q; cbn [prefixes In].
  - split; [easy|]. intros [H1 H2]. destruct q; [easy|discriminate H2].
  - rewrite in_map_iff. split.
    + intros [<-|(x & <- & Hx)].
      * split; [easy|]. cbn. now destruct (list_eq_dec N.eq_dec n n).
      * apply IH in Hx as [H1 H2]. split; [easy|]. cbn. now destruct (list_eq_dec N.eq_dec n n).
    + intros [H1 H2]. destruct q as [|a q]; [easy|]. cbn in H2.
      destruct (list_eq_dec N.eq_dec a n) as [->|]; [|easy].
      destruct q as [|x q]; [now left|]. right. exists (x :: q). split; auto. apply IH. now split.
Qed.

(** ** Invariant of the creator *)
Definition mkchild (k : kind) (s : slot) : child := if is_dir_kind k then CDir s else CFile s.

Definition valid_dir (store : list sentry) (d : dirref) : Prop :=
  match d with
  | None => True
  | Some s => exists e, nth_error store s = Some e /\ se_kind e = KDir
  end.

Record cinv (st : cstate) : Prop := {
  ci_heap : forall d n c, assoc n (cs_heap st d) = Some c ->
    exists e, nth_error (cs_store st) (child_slot c) = Some e /\ se_name e = n /\ se_parent e = d
              /\ c = mkchild (se_kind e) (child_slot c);
  ci_store : forall s e, nth_error (cs_store st) s = Some e ->
    assoc (se_name e) (cs_heap st (se_parent e)) = Some (mkchild (se_kind e) s);
  ci_parent : forall s e, nth_error (cs_store st) s = Some e ->
    valid_dir (cs_store st) (se_parent e) /\ (forall p, se_parent e = Some p -> p < s);
  ci_nodup : forall d, NoDup (map fst (cs_heap st d))
}.

Lemma cinv_new : cinv creator_new.
Proof.
  constructor; cbn; try easy.
  - intros [|s] e H; discriminate H.
  - intros [|s] e H; discriminate H.
  - constructor.
Qed.

Lemma child_slot_mkchild k s : child_slot (mkchild k s) = s.
Proof. unfold mkchild. now destruct (is_dir_kind k). Qed.

Lemma nth_error_snoc {A} (l : list A) x : nth_error (l ++ [x]) (length l) = Some x.
Proof. rewrite nth_error_app2; [|auto]. now rewrite Nat.sub_diag. Qed.

Lemma nth_error_snoc_inv {A} (l : list A) x i y : nth_error (l ++ [x]) i = Some y ->
  nth_error l i = Some y \/ (i = length l /\ y = x).
Proof.
  intros H. destruct (Nat.lt_ge_cases i (length l)) as [Hi|Hi].
  - rewrite nth_error_app1 in H; auto.
  - rewrite nth_error_app2 in H; auto. destruct (i - length l) as [|k] eqn:E.
    + cbn in H. injection H as ->. right. split; auto. lia.
    + cbn in H. destruct k; discriminate H.
Qed.

Lemma nth_error_snoc_old {A} (l : list A) x i y : nth_error l i = Some y -> nth_error (l ++ [x]) i = Some y.
Proof. intros H. rewrite nth_error_app1; auto. apply nth_error_Some. congruence. Qed.

Lemma add_child_inv st d n k mt : cinv st -> valid_dir (cs_store st) d -> assoc n (cs_heap st d) = None ->
  cinv (add_child st d (mkchild k) (mkSentry n d k mt)).
Proof.
  intros [H1 H2 H3 H4] Hd Hn. unfold add_child. set (e := mkSentry n d k mt).
  constructor; cbn [cs_store cs_heap se_name].
  - intros d' n' c. destruct (dirref_eqb_spec d' d) as [->|Hne]; cbn [assoc se_name e].
    + destruct (bytes_eqb_spec n n') as [<-|Hnn]; intros H.
      * injection H as <-. exists e. rewrite child_slot_mkchild. rewrite nth_error_snoc.
        repeat split; auto.
      * destruct (H1 _ _ _ H) as (e' & He' & ?). exists e'. split; auto. now apply nth_error_snoc_old.
    + intros H. destruct (H1 _ _ _ H) as (e' & He' & ?). exists e'. split; auto. now apply nth_error_snoc_old.
  - intros s e' H. apply nth_error_snoc_inv in H as [H|[-> ->]].
    + destruct (dirref_eqb_spec (se_parent e') d) as [Hp|Hne]; [|auto].
      cbn [assoc se_name e]. destruct (bytes_eqb_spec n (se_name e')) as [Hnn|Hnn]; [|auto].
      apply H2 in H. rewrite Hp, <- Hnn in H. congruence.
    + cbn [se_parent e se_name se_kind]. destruct (dirref_eqb_spec d d) as [_|]; [|easy].
      cbn [assoc]. now rewrite bytes_eqb_refl.
  - intros s e' H. apply nth_error_snoc_inv in H as [H|[-> ->]].
    + destruct (H3 _ _ H) as [Hv Hp]. split; auto.
      destruct (se_parent e'); auto. cbn in *. destruct Hv as (x & Hx & ?). exists x. split; auto.
      now apply nth_error_snoc_old.
    + cbn [se_parent e]. split.
      * destruct d; auto. cbn in *. destruct Hd as (x & Hx & ?). exists x. split; auto.
        now apply nth_error_snoc_old.
      * intros p ->. cbn in Hd. destruct Hd as (x & Hx & _). apply nth_error_Some. congruence.
  - intros d'. destruct (dirref_eqb_spec d' d) as [->|]; [|auto].
    cbn [map fst]. constructor; auto. now apply assoc_none.
Qed.

(** ** Paths of slots *)
Definition dpath (store : list sentry) (d : dirref) (p : path) : Prop :=
  match d with None => p = [] | Some s => spath store s p end.

Lemma spath_nonempty store s p : spath store s p -> p <> [].
Proof. intros H. destruct H; [easy|]. now destruct p. Qed.

Lemma spath_lt store s p : spath store s p -> s < length store.
Proof. intros H. assert (exists e, nth_error store s = Some e) as [e He] by (destruct H; eauto).
  apply nth_error_Some. congruence. Qed.

Lemma spath_inv store s p : spath store s p ->
  exists e q, nth_error store s = Some e /\ dpath store (se_parent e) q /\ p = q ++ [se_name e].
Proof.
  intros H. destruct H as [s e He Hp|s e d p He Hp Hd].
  - exists e, []. rewrite Hp. cbn. auto.
  - exists e, p. rewrite Hp. cbn. auto.
Qed.

Lemma spath_intro store s e q : nth_error store s = Some e -> dpath store (se_parent e) q ->
  spath store s (q ++ [se_name e]).
Proof.
  intros He Hd. destruct (se_parent e) as [d|] eqn:E; cbn in Hd.
  - now apply spath_sub with d.
  - subst q. now apply spath_top.
Qed.

Lemma spath_det store s p q : spath store s p -> spath store s q -> p = q.
Proof.
  intros H. revert q. induction H as [s e He Hp|s e d p He Hp Hd IH]; intros q Hq;
    destruct Hq as [s e' He' Hp'|s e' d' q He' Hp' Hd']; rewrite He in He'; injection He' as <-;
    rewrite Hp in Hp'; try discriminate; auto.
  injection Hp' as <-. now rewrite (IH _ Hd').
Qed.

Lemma dpath_det store d p q : dpath store d p -> dpath store d q -> p = q.
Proof. destruct d; cbn; [apply spath_det|congruence]. Qed.

Lemma spath_total st s : cinv st -> s < length (cs_store st) -> exists p, spath (cs_store st) s p.
Proof.
  intros Hi. induction s as [s IH] using (well_founded_induction lt_wf). intros Hs.
  destruct (nth_error (cs_store st) s) as [e|] eqn:He; [|apply nth_error_None in He; lia].
  destruct (ci_parent _ Hi _ _ He) as [_ Hp].
  destruct (se_parent e) as [d|] eqn:Ep.
  - destruct (IH d) as [p Hd]; [auto|specialize (Hp d eq_refl); lia|].
    exists (p ++ [se_name e]). now apply spath_sub with d.
  - exists [se_name e]. now apply spath_top.
Qed.

Lemma spath_inj st s t p : cinv st -> spath (cs_store st) s p -> spath (cs_store st) t p -> s = t.
Proof.
  intros Hi H. revert t. induction H as [s e He Hp|s e d p He Hp Hd IH]; intros t Ht.
  - apply spath_inv in Ht as (e' & q & He' & Hq & Heq).
    destruct q as [|x q]; [|destruct q; discriminate Heq].
    injection Heq as Hn. destruct (se_parent e') as [d'|] eqn:Ep'.
    { cbn in Hq. now apply spath_nonempty in Hq. }
    apply (ci_store _ Hi) in He as H1. apply (ci_store _ Hi) in He' as H2.
    rewrite Hp, Hn in H1. rewrite Ep' in H2. rewrite H1 in H2. injection H2 as H2.
    apply (f_equal child_slot) in H2. now rewrite !child_slot_mkchild in H2.
  - apply spath_inv in Ht as (e' & q & He' & Hq & Heq). apply app_inj_tail in Heq as [<- Hn].
    destruct (se_parent e') as [d'|] eqn:Ep'; cbn in Hq.
    2:{ subst. now apply spath_nonempty in Hd. }
    specialize (IH _ Hq). subst d'.
    apply (ci_store _ Hi) in He as H1. apply (ci_store _ Hi) in He' as H2.
    rewrite Hp, Hn in H1. rewrite Ep' in H2. rewrite H1 in H2. injection H2 as H2.
    apply (f_equal child_slot) in H2. now rewrite !child_slot_mkchild in H2.
Qed.

Lemma dpath_inj st d d' p : cinv st -> dpath (cs_store st) d p -> dpath (cs_store st) d' p -> d = d'.
Proof.
  intros Hi. destruct d as [s|], d' as [t|]; cbn; intros H1 H2; auto.
  - f_equal. eapply spath_inj; eauto.
  - subst. now apply spath_nonempty in H1.
  - subst. now apply spath_nonempty in H2.
Qed.

(** Appending an entry keeps the old paths and adds one. *)
Lemma spath_snoc_old store e s p : spath store s p -> spath (store ++ [e]) s p.
Proof.
  induction 1 as [s e' He Hp|s e' d p He Hp Hd IH].
  - apply spath_top; auto. now apply nth_error_snoc_old.
  - apply spath_sub with d; auto. now apply nth_error_snoc_old.
Qed.

Lemma spath_snoc_new store e q : dpath store (se_parent e) q -> spath (store ++ [e]) (length store) (q ++ [se_name e]).
Proof.
  intros H. apply spath_intro. { apply nth_error_snoc. }
  destruct (se_parent e); cbn in *; auto. now apply spath_snoc_old.
Qed.

Lemma spath_snoc_inv st e s p : cinv st -> valid_dir (cs_store st) (se_parent e) ->
  spath (cs_store st ++ [e]) s p ->
  spath (cs_store st) s p \/
  (s = length (cs_store st) /\ exists q, dpath (cs_store st) (se_parent e) q /\ p = q ++ [se_name e]).
Proof.
  intros Hi Hv H. induction H as [s e' He Hp|s e' d p He Hp Hd IH].
  - apply nth_error_snoc_inv in He as [He|[-> ->]].
    + left. now apply spath_top.
    + right. split; auto. exists []. rewrite Hp. now cbn.
  - apply nth_error_snoc_inv in He as [He|[-> ->]].
    + destruct IH as [IH|[-> _]].
      * left. now apply spath_sub with d.
      * destruct (ci_parent _ Hi _ _ He) as [_ Hlt]. apply Hlt in Hp.
        assert (s < length (cs_store st)) by (apply nth_error_Some; congruence). lia.
    + destruct IH as [IH|[-> _]].
      * right. split; auto. exists p. rewrite Hp. cbn. auto.
      * rewrite Hp in Hv. cbn in Hv. destruct Hv as (x & Hx & _).
        assert (length (cs_store st) < length (cs_store st)) by (apply nth_error_Some; congruence). lia.
Qed.

(** ** Refinement *)
Definition represents (st : cstate) (m : pmap) : Prop :=
  forall p nd, stored (cs_store st) p nd <-> m p = Some nd.

Lemma represents_ext st m m' : (forall p, m p = m' p) -> represents st m -> represents st m'.
Proof. intros He H p nd. now rewrite <- He. Qed.

Lemma represents_lookup st m d pd n : cinv st -> represents st m -> dpath (cs_store st) d pd ->
  match assoc n (cs_heap st d) with
  | None => m (pd ++ [n]) = None
  | Some (CDir s) => exists mt, m (pd ++ [n]) = Some (KDir, mt) /\ spath (cs_store st) s (pd ++ [n])
                               /\ valid_dir (cs_store st) (Some s)
  | Some (CFile s) => exists nd, m (pd ++ [n]) = Some nd /\ is_dir_node nd = false
  end.
Proof.
  intros Hi Hr Hd. destruct (assoc n (cs_heap st d)) as [c|] eqn:E.
  - destruct (ci_heap _ Hi _ _ _ E) as (e & He & Hn & Hp & Hc).
    assert (Hs : spath (cs_store st) (child_slot c) (pd ++ [n])).
    { rewrite <- Hn. apply spath_intro; auto. now rewrite Hp. }
    assert (Hm : m (pd ++ [n]) = Some (se_kind e, se_meta e)).
    { apply Hr. exists (child_slot c), e. auto. }
    destruct c as [s|s]; cbn in *; unfold mkchild in Hc;
      destruct (se_kind e) as [|sz a|t] eqn:Ek; cbn in Hc; try discriminate Hc.
    + exists (se_meta e). repeat split; auto. exists e. auto.
    + exists (KFile sz a, se_meta e). auto.
    + exists (KLink t, se_meta e). auto.
  - destruct (m (pd ++ [n])) as [nd|] eqn:Em; auto. apply Hr in Em as (s & e & He & Hs & _).
    apply spath_inv in Hs as (e' & q & He' & Hq & Heq). rewrite He in He'. injection He' as <-.
    apply app_inj_tail in Heq as [<- ->].
    assert (se_parent e = d) by (eapply dpath_inj; eauto). subst d.
    apply (ci_store _ Hi) in He. congruence.
Qed.

Lemma represents_add st m d pd n k mt : cinv st -> represents st m -> valid_dir (cs_store st) d ->
  dpath (cs_store st) d pd -> assoc n (cs_heap st d) = None ->
  represents (add_child st d (mkchild k) (mkSentry n d k mt)) (update m (pd ++ [n]) (k, mt)).
Proof.
  intros Hi Hr Hv Hd Hn. pose proof (represents_lookup st m d pd n Hi Hr Hd) as Hnone.
  rewrite Hn in Hnone. unfold add_child. cbn [cs_store].
  set (e := mkSentry n d k mt). intros p nd. unfold stored, update. cbn [cs_store].
  destruct (path_beq_spec p (pd ++ [n])) as [->|Hp].
  - split.
    + intros (s & e' & He & Hs & ->).
      assert (s = length (cs_store st)) as ->.
      { apply (spath_snoc_inv st e) in Hs as [Hs|[-> _]]; auto. exfalso.
        assert (exists e0, nth_error (cs_store st) s = Some e0) as [e0 He0] by (destruct Hs; eauto).
        assert (m (pd ++ [n]) = Some (se_kind e0, se_meta e0)).
        { apply Hr. now exists s, e0. }
        congruence. }
      rewrite nth_error_snoc in He. injection He as <-. reflexivity.
    + intros H. injection H as <-. exists (length (cs_store st)), e.
      rewrite nth_error_snoc. repeat split; auto. change n with (se_name e). now apply spath_snoc_new.
  - split.
    + intros (s & e' & He & Hs & ->). apply Hr.
      apply (spath_snoc_inv st e) in Hs as [Hs|(-> & q & Hq & ->)]; auto.
      * apply nth_error_snoc_inv in He as [He|[-> ->]]; [now exists s, e'|].
        apply spath_lt in Hs. lia.
      * exfalso. apply Hp. cbn in *. f_equal. eapply dpath_det; eauto.
    + intros H. apply Hr in H as (s & e' & He & Hs & ->). exists s, e'.
      repeat split; auto; [now apply nth_error_snoc_old|now apply spath_snoc_old].
Qed.

(** The spec, with the map completed also when the call is refused. *)
Definition spec_add1 (m : pmap) (dir : path) (last : option name) (k : res (option kind)) (mt : meta)
  : pmap * res unit :=
  if blocked m dir then (m, Err EParentNotDir)
  else
    let m1 := with_dirs m dir in
    match k, last with
    | Err x, _ => (m1, Err x)
    | Panic, _ => (m1, Panic)
    | Diverge, _ => (m1, Diverge)
    | Ok None, _ => (m1, Ok tt)
    | Ok (Some _), None => (m1, Panic)
    | Ok (Some k), Some n =>
        let p := dir ++ [n] in
        match m p, k with
        | None, _ => (update m1 p (k, mt), Ok tt)
        | Some old, KDir => if is_dir_node old then (m1, Ok tt) else (m1, Err EDirClash)
        | Some _, KFile _ _ => (m1, Err EFileClash)
        | Some _, KLink _ => (m1, Err ELinkClash)
        end
    end.

Lemma blocked_true m dir : blocked m dir = true <->
  exists q nd, q <> [] /\ is_prefix q dir = true /\ m q = Some nd /\ is_dir_node nd = false.
Proof.
  unfold blocked. rewrite existsb_exists. split.
  - intros (q & Hq & H). apply in_prefixes in Hq as [H1 H2]. destruct (m q) as [nd|] eqn:E; [|easy].
    exists q, nd. repeat split; auto. now apply negb_true_iff in H.
  - intros (q & nd & H1 & H2 & H3 & H4). exists q. split; [apply in_prefixes; auto|].
    rewrite H3. now rewrite H4.
Qed.

Lemma blocked_false m dir : blocked m dir = false <->
  forall q nd, q <> [] -> is_prefix q dir = true -> m q = Some nd -> is_dir_node nd = true.
Proof.
  split.
  - intros H q nd H1 H2 H3. destruct (is_dir_node nd) eqn:E; auto.
    assert (blocked m dir = true) by (apply blocked_true; exists q, nd; auto). congruence.
  - intros H. destruct (blocked m dir) eqn:E; auto. apply blocked_true in E as (q & nd & H1 & H2 & H3 & H4).
    now rewrite (H q nd) in H4.
Qed.

(** All prefixes of [p] are directories of [m]. *)
Definition all_dirs (m : pmap) (p : path) : Prop :=
  forall q, q <> [] -> is_prefix q p = true -> exists mt, m q = Some (KDir, mt).

Lemma is_prefix_snoc q p n : is_prefix q (p ++ [n]) = true -> is_prefix q p = true \/ q = p ++ [n].
Proof.
  rewrite !is_prefix_spec. intros [r Hr]. destruct r as [|x r _] using rev_ind.
  - right. now rewrite app_nil_r in Hr.
  - left. rewrite app_assoc in Hr. apply app_inj_tail in Hr as [-> _]. now exists r.
Qed.

Lemma with_dirs_all m p : all_dirs m p -> forall q, with_dirs m p q = m q.
Proof.
  intros H q. unfold with_dirs. destruct (m q) eqn:E; auto.
  destruct q as [|x q]; auto. destruct (is_prefix (x :: q) p) eqn:Ep; auto.
  destruct (H (x :: q)) as [mt Hm]; auto; congruence.
Qed.

Lemma with_dirs_snoc m p n : all_dirs m p -> m (p ++ [n]) = None ->
  forall q, with_dirs m (p ++ [n]) q = update m (p ++ [n]) implicit_dir q.
Proof.
  intros H Hn q. unfold with_dirs, update. destruct (path_beq_spec q (p ++ [n])) as [->|Hq].
  - rewrite Hn, is_prefix_refl. now destruct (p ++ [n]) eqn:E; [destruct p|].
  - destruct (m q) eqn:E; auto. destruct q as [|x q]; auto.
    destruct (is_prefix (x :: q) (p ++ [n])) eqn:Ep; auto.
    apply is_prefix_snoc in Ep as [Ep|Ep]; [|congruence].
    destruct (H (x :: q)) as [mt Hm]; auto; congruence.
Qed.

Lemma with_dirs_idem m p r : forall q, with_dirs (with_dirs m p) (p ++ r) q = with_dirs m (p ++ r) q.
Proof.
  intros q. unfold with_dirs. destruct (m q); auto. destruct q as [|x q]; auto.
  destruct (is_prefix (x :: q) p) eqn:E; auto.
  rewrite (is_prefix_trans _ p); auto. apply is_prefix_app.
Qed.

Lemma with_dirs_ext m m' p : (forall q, m q = m' q) -> forall q, with_dirs m p q = with_dirs m' p q.
Proof. intros H q. unfold with_dirs. now rewrite H. Qed.

Lemma blocked_ext m m' p : (forall q, m q = m' q) -> blocked m p = blocked m' p.
Proof.
  intros H. unfold blocked. induction (prefixes p) as [|q l IH]; cbn; auto. now rewrite H, IH.
Qed.

Lemma blocked_with_dirs m p r : blocked (with_dirs m p) (p ++ r) = blocked m (p ++ r).
Proof.
  destruct (blocked m (p ++ r)) eqn:E.
  - apply blocked_true in E as (q & nd & H1 & H2 & H3 & H4). apply blocked_true. exists q, nd.
    unfold with_dirs. rewrite H3. auto.
  - rewrite blocked_false in E. apply blocked_false. intros q nd H1 H2. unfold with_dirs.
    destruct (m q) eqn:Eq.
    + intros H. injection H as <-. eapply E; eauto.
    + destruct q; [easy|]. destruct (is_prefix _ p); [|easy]. intros H. now injection H as <-.
Qed.

(** [add_entry_in] *)
Definition closed (m : pmap) : Prop := forall p n, m (p ++ [n]) <> None -> all_dirs m p.

Lemma mkchild_dir s : CDir s = mkchild KDir s. Proof. reflexivity. Qed.

Lemma add_entry_in_sim st m d pd e : cinv st -> represents st m -> valid_dir (cs_store st) d ->
  dpath (cs_store st) d pd -> all_dirs m pd ->
  let (st', o) := add_entry_in st d e in
  let (m', o') := spec_add1 m pd (file_name (e_path e)) (e_kind e) (e_meta e) in
  cinv st' /\ represents st' m' /\ o = o'.
Proof.
  intros Hi Hr Hv Hd Ha. unfold add_entry_in, spec_add1.
  assert (Hb : blocked m pd = false).
  { apply blocked_false. intros q nd H1 H2 H3. destruct (Ha q H1 H2) as [mt Hm]. rewrite Hm in H3.
    now injection H3 as <-. }
  rewrite Hb.
  assert (Hr1 : represents st (with_dirs m pd)).
  { apply represents_ext with m; auto. intros q. symmetry. now apply with_dirs_all. }
  destruct (e_kind e) as [[k|]|x| |]; cbn; auto.
  destruct (file_name (e_path e)) as [n|]; auto.
  pose proof (represents_lookup st m d pd n Hi Hr Hd) as Hl.
  destruct (assoc n (cs_heap st d)) as [[s|s]|] eqn:E.
  - destruct Hl as (mt & Hm & _). rewrite Hm. destruct k; cbn; auto.
  - destruct Hl as (nd & Hm & Hnd). rewrite Hm. destruct k; rewrite ?Hnd; cbn; auto.
  - rewrite Hl. 
    assert (Hgoal : cinv (add_child st d (mkchild k) (mkSentry n d k (e_meta e))) /\
                    represents (add_child st d (mkchild k) (mkSentry n d k (e_meta e)))
                       (update (with_dirs m pd) (pd ++ [n]) (k, e_meta e)) /\ @Ok unit tt = Ok tt).
    { split; [|split; auto].
      - now apply add_child_inv.
      - apply represents_add; auto. }
    destruct k; exact Hgoal.
Qed.

Lemma prefix_cmp (q p x r : path) : p ++ r = q ++ x -> is_prefix q p = true \/ is_prefix p q = true.
Proof.
  revert p. induction q as [|a q IH]; intros [|c p] H; cbn; auto.
  cbn in H. injection H as -> H. destruct (list_eq_dec N.eq_dec a a) as [_|]; [|easy]. auto.
Qed.

Lemma represents_closed st m : cinv st -> represents st m -> closed m.
Proof.
  intros Hi Hr p n. revert n. induction p as [|x p IH] using rev_ind; intros n Hm q H1 H2.
  - destruct q; [easy|discriminate H2].
  - destruct (m ((p ++ [x]) ++ [n])) as [nd|] eqn:E; [|easy].
    apply Hr in E as (s & e & He & Hs & _).
    apply spath_inv in Hs as (e' & q' & He' & Hq & Heq). rewrite He in He'. injection He' as <-.
    apply app_inj_tail in Heq as [<- _].
    destruct (ci_parent _ Hi _ _ He) as [Hv _]. destruct (se_parent e) as [d|]; cbn in *.
    2:{ now destruct p. }
    destruct Hv as (ed & Hed & Hk).
    assert (Hmp : m (p ++ [x]) = Some (KDir, se_meta ed)).
    { apply Hr. exists d, ed. rewrite Hk. auto. }
    apply is_prefix_snoc in H2 as [H2| ->]; [|eauto].
    apply (IH x); auto. congruence.
Qed.

Lemma add_sim comps : forall st m d pd e, cinv st -> represents st m -> valid_dir (cs_store st) d ->
  dpath (cs_store st) d pd -> all_dirs m pd ->
  let (st', o) := add st d comps e in
  let (m', o') := spec_add1 m (pd ++ map as_str comps) (file_name (e_path e)) (e_kind e) (e_meta e) in
  cinv st' /\ represents st' m' /\ o = o'.
Proof.
  induction comps as [|c comps IH]; intros st m d pd e Hi Hr Hv Hd Ha.
  - cbn [add map]. rewrite app_nil_r. now apply add_entry_in_sim.
  - cbn [add map]. set (n := as_str c). set (r := map as_str comps).
    pose proof (represents_lookup st m d pd n Hi Hr Hd) as Hl.
    unfold ensure_dir. destruct (assoc n (cs_heap st d)) as [[s|s]|] eqn:E.
    + rewrite E. destruct Hl as (mt & Hm & Hs & Hvs).
      replace (pd ++ n :: r) with ((pd ++ [n]) ++ r) by now rewrite <- app_assoc.
      apply IH; auto. intros q H1 H2. apply is_prefix_snoc in H2 as [H2| ->]; eauto.
    + rewrite E. destruct Hl as (nd & Hm & Hnd). unfold spec_add1.
      assert (Hb : blocked m (pd ++ n :: r) = true).
      { apply blocked_true. exists (pd ++ [n]), nd. repeat split; auto.
        - now destruct pd.
        - apply is_prefix_spec. exists r. now rewrite <- app_assoc. }
      rewrite Hb. auto.
    + set (st1 := add_child st d CDir (mkSentry n d KDir default_dir_meta)).
      assert (Hi1 : cinv st1) by (apply (add_child_inv st d n KDir); auto).
      pose proof (represents_add st m d pd n KDir default_dir_meta Hi Hr Hv Hd E) as Hr1.
      change (add_child st d (mkchild KDir) (mkSentry n d KDir default_dir_meta)) with st1 in Hr1.
      assert (Hd1 : dpath (cs_store st1) d pd).
      { destruct d as [t|]; cbn in *; auto. now apply spath_snoc_old. }
      pose proof (represents_lookup st1 _ d pd n Hi1 Hr1 Hd1) as Hl1.
      assert (E1 : assoc n (cs_heap st1 d) = Some (CDir (length (cs_store st)))).
      { unfold st1. cbn. destruct (dirref_eqb_spec d d); [|easy]. cbn. now rewrite bytes_eqb_refl. }
      rewrite E1 in Hl1 |- *. destruct Hl1 as (mt & Hm1 & Hs1 & Hv1).
      set (m1 := update m (pd ++ [n]) (KDir, default_dir_meta)) in *.
      assert (Ha1 : all_dirs m1 (pd ++ [n])).
      { intros q H1 H2. apply is_prefix_snoc in H2 as [H2| ->]; [|eauto].
        destruct (Ha q H1 H2) as [mt' Hq]. unfold m1, update.
        destruct (path_beq_spec q (pd ++ [n])); eauto. }
      specialize (IH st1 m1 (Some (length (cs_store st))) (pd ++ [n]) e Hi1 Hr1 Hv1 Hs1 Ha1).
      fold r in IH. replace (pd ++ n :: r) with ((pd ++ [n]) ++ r) by now rewrite <- app_assoc.
      fold n in IH |- *. fold st1 in IH |- *.
      destruct (add st1 (Some (length (cs_store st))) comps e) as [st' o].
      (* spec_add1 from m1 and from m agree *)
      assert (Hw : forall q, m1 q = with_dirs m (pd ++ [n]) q).
      { intros q. symmetry. apply with_dirs_snoc; auto. }
      assert (Hb : blocked m1 ((pd ++ [n]) ++ r) = blocked m ((pd ++ [n]) ++ r)).
      { rewrite (blocked_ext m1 _ _ Hw). apply blocked_with_dirs. }
      assert (Hw2 : forall q, with_dirs m1 ((pd ++ [n]) ++ r) q = with_dirs m ((pd ++ [n]) ++ r) q).
      { intros q. rewrite <- (with_dirs_idem m (pd ++ [n]) r q). now apply with_dirs_ext. }
      assert (Hb0 : blocked m ((pd ++ [n]) ++ r) = false).
      { apply blocked_false. intros q nd H1 H2 H3. apply is_prefix_spec in H2 as [x Hx].
        destruct (is_prefix q pd) eqn:Eq.
        { destruct (Ha q H1 Eq) as [mt' Hq]. rewrite Hq in H3. now injection H3 as <-. }
        exfalso. destruct (is_prefix (pd ++ [n]) q) eqn:Eq2.
        - apply is_prefix_spec in Eq2 as [y ->].
          destruct y as [|z y _] using rev_ind; [rewrite app_nil_r in H3; congruence|].
          rewrite app_assoc in H3.
          assert (Hc : all_dirs m ((pd ++ [n]) ++ y)).
          { apply (represents_closed st m Hi Hr _ z). congruence. }
          destruct (Hc (pd ++ [n])) as [mt' Hc']; [now destruct pd|apply is_prefix_app|congruence].
        - destruct (prefix_cmp q (pd ++ [n]) x r Hx) as [H|H]; [|congruence].
          apply is_prefix_snoc in H as [H| ->]; congruence. }
      unfold spec_add1 in *. rewrite Hb, Hb0 in IH. rewrite Hb0.
      assert (Hp : forall n', m1 (((pd ++ [n]) ++ r) ++ [n']) = m (((pd ++ [n]) ++ r) ++ [n'])).
      { intros n'. unfold m1, update.
        destruct (path_beq_spec (((pd ++ [n]) ++ r) ++ [n']) (pd ++ [n])) as [H|]; auto.
        apply (f_equal (@length _)) in H. rewrite !app_length in H. cbn in H. lia. }
      assert (Hext2 : forall st0 p nd, represents st0 (update (with_dirs m1 ((pd ++ [n]) ++ r)) p nd) ->
                               represents st0 (update (with_dirs m ((pd ++ [n]) ++ r)) p nd)).
      { intros st0 p nd. apply represents_ext. intros q. unfold update. now rewrite Hw2. }
      assert (Hext1 : forall st0, represents st0 (with_dirs m1 ((pd ++ [n]) ++ r)) ->
                               represents st0 (with_dirs m ((pd ++ [n]) ++ r))).
      { intros st0. apply represents_ext. exact Hw2. }
      assert (Hfin : forall m2 o2 m3, (forall st0, represents st0 m2 -> represents st0 m3) ->
        cinv st' /\ represents st' m2 /\ o = o2 -> cinv st' /\ represents st' m3 /\ o = o2).
      { intros m2 o2 m3 Hx (? & ? & ?). auto. }
      destruct (e_kind e) as [[k|]|x| |]; try (eapply Hfin; [exact Hext1|exact IH]).
      destruct (file_name (e_path e)) as [n'|]; [|eapply Hfin; [exact Hext1|exact IH]].
      cbv zeta in IH |- *. rewrite Hp in IH.
      destruct (m (((pd ++ [n]) ++ r) ++ [n'])) as [old|]; destruct k;
        try destruct (is_dir_node old);
        (eapply Hfin; [|exact IH]; intros st0; first [apply Hext1|apply Hext2]).
Qed.

(** ** The whole call *)
Lemma closed_exists m p n nd : closed m -> m (p ++ [n]) = Some nd -> forall q, with_dirs m p q = m q.
Proof. intros Hc Hm. apply with_dirs_all. apply (Hc p n). congruence. Qed.

Lemma pieces_parent_dir s : pieces (match parent s with Some p => p | None => [] end) = dir_of s.
Proof.
  unfold dir_of. destruct (parent s) as [p|] eqn:E.
  - now apply parent_pieces.
  - destruct s; [reflexivity|discriminate E].
Qed.

Lemma add_entry_unfold st e : add_entry st e = add st None (map classify (dir_of (e_path e))) e.
Proof.
  unfold add_entry. rewrite <- pieces_parent_dir. destruct (parent (e_path e)) as [p|]; reflexivity.
Qed.

Lemma map_as_str_classify l : map as_str (map classify l) = l.
Proof. rewrite map_map. erewrite map_ext; [apply map_id|]. apply classify_as_str. Qed.

Theorem add_entry_sim st m e : cinv st -> represents st m ->
  let (st', o) := add_entry st e in
  let (m', o') := spec_add_entry m e in
  cinv st' /\ represents st' m' /\ o = o'.
Proof.
  intros Hi Hr. rewrite add_entry_unfold.
  pose proof (add_sim (map classify (dir_of (e_path e))) st m None [] e Hi Hr I eq_refl) as H.
  destruct (add st None (map classify (dir_of (e_path e))) e) as [st' o].
  rewrite map_as_str_classify in H. cbn [app] in H.
  unfold spec_add_entry. rewrite file_name_pieces in H. fold (last_of (e_path e)) in H.
  set (dir := dir_of (e_path e)) in *. set (last := last_of (e_path e)) in *.
  unfold spec_add, spec_add1 in *.
  assert (Ha : all_dirs m []).
  { intros q H1 H2. destruct q; [easy|discriminate H2]. }
  specialize (H Ha). destruct (blocked m dir); auto.
  destruct (e_kind e) as [[k|]|x| |]; auto. destruct last as [n|]; auto.
  cbv zeta in H |- *. destruct (m (dir ++ [n])) as [old|] eqn:Em; [|destruct k; auto].
  assert (He : forall st0, represents st0 (with_dirs m dir) -> represents st0 m).
  { intros st0. apply represents_ext. eapply closed_exists; eauto. eapply represents_closed; eauto. }
  destruct k; try destruct (is_dir_node old); destruct H as (? & ? & ?); auto.
Qed.

Lemma represents_new : represents creator_new empty_map.
Proof.
  intros p nd. split; [|easy]. intros (s & e & He & _). destruct s; discriminate He.
Qed.

Lemma run_adds_sim l : forall st m, cinv st -> represents st m ->
  let (st', outs) := run_adds st l in
  let (m', outs') := spec_adds m l in
  cinv st' /\ represents st' m' /\ outs = outs'.
Proof.
  induction l as [|e l IH]; intros st m Hi Hr; cbn [run_adds spec_adds]; auto.
  pose proof (add_entry_sim st m e Hi Hr) as H.
  destruct (add_entry st e) as [st1 o], (spec_add_entry m e) as [m1 o'].
  destruct H as (Hi1 & Hr1 & ->). destruct o' as [u|x| |]; auto;
  specialize (IH st1 m1 Hi1 Hr1); destruct (run_adds st1 l) as [st2 outs], (spec_adds m1 l) as [m2 outs'];
  destruct IH as (? & ? & ->); auto.
Qed.

Lemma holds_intro st m : cinv st -> represents st m -> holds (cs_store st) m.
Proof.
  intros Hi Hr. split; [exact Hr|]. split; [intros s Hs; now apply spath_total|].
  split; [intros; eapply spath_det; eauto|intros; eapply spath_inj; eauto].
Qed.

Theorem run_adds_refines l :
  snd (run_adds creator_new l) = snd (spec_adds empty_map l) /\ holds (cs_store (fst (run_adds creator_new l))) (fst (spec_adds empty_map l)).
Proof.
  pose proof (run_adds_sim l _ _ cinv_new represents_new) as H.
  destruct (run_adds creator_new l) as [st outs], (spec_adds empty_map l) as [m outs'].
  destruct H as (Hi & Hr & ->). split; auto. now apply holds_intro.
Qed.

Lemma run_adds_inv l : cinv (fst (run_adds creator_new l)).
Proof.
  pose proof (run_adds_sim l _ _ cinv_new represents_new) as H.
  destruct (run_adds creator_new l) as [st outs], (spec_adds empty_map l) as [m outs'].
  cbn. tauto.
Qed.
