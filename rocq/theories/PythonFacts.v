(** Facts for C52-C54. *)
From Verif Require Export SpecPython PropCli2 ConvertSession NameFacts.

(** ** The creator *)
Definition raises {A} (r : res A) : Prop := exists e, r = Err e.

Definition st_fresh : pycreator := mkPy false (Some creator_empty).
Definition st_open (c : creator) : pycreator := mkPy true (Some c).
Definition st_done : pycreator := mkPy false None.

Lemma run_app fuel h : forall st h', py_run fuel st (h ++ h') =
  let '(st1, l1, o1) := py_run fuel st h in let '(st2, l2, o2) := py_run fuel st1 h' in (st2, l1 ++ l2, o1 ++ o2).
Proof.
  induction h as [|k h IH]; intros st h'; cbn [app py_run].
  - destruct (py_run fuel st h') as [[st2 l2] o2]. reflexivity.
  - destruct (py_step fuel st k) as [[st1 x] o]. rewrite IH. destruct (py_run fuel st1 h) as [[st2 l1] o1].
    destruct (py_run fuel st2 h') as [[st3 l2] o2]. destruct x; reflexivity.
Qed.

Lemma fresh_run fuel h : never_entered h -> exists os, py_run fuel st_fresh h = (st_fresh, [], os) /\ Forall raises os.
Proof.
  induction h as [|k h IH]; intros H; [exists []; split; [reflexivity|constructor]|].
  destruct IH as (os & E & Hos); [intros Hin; apply H; now right|].
  destruct k as [|exc|w p rc]; [exfalso; apply H; now left| |];
    cbn [py_run py_step py_exit py_add st_fresh py_started py_creator]; fold st_fresh; rewrite E; eexists; (split; [reflexivity|constructor; [eexists; reflexivity|exact Hos]]).
Qed.

Definition one_add fuel c (x : world * bytes * bool) : creator := fst (add_from_path fuel (fst (fst x)) [] (snd (fst x)) (snd x) c).

Lemma open_run fuel h : forall c, not_left h -> exists os, py_run fuel (st_open c) h = (st_open (fold_left (one_add fuel) (added h) c), [], os).
Proof.
  induction h as [|k h IH]; intros c H; [now exists []|].
  assert (H' : not_left h) by (intros exc Hin; apply (H exc); now right).
  destruct k as [|exc|w p rc]; [|exfalso; apply (H exc); now left|]; cbn [py_run py_step py_enter py_add st_open py_started py_creator added fold_left].
  - fold (st_open c). destruct (IH c H') as [os ->]. eexists. reflexivity.
  - destruct (add_from_path fuel w [] p rc c) as [c' r] eqn:E. fold (st_open c'). destruct (IH c' H') as [os E2]. rewrite E2.
    assert (X : one_add fuel c (w, p, rc) = c') by (unfold one_add; cbn [fst snd]; now rewrite E). rewrite X. eexists. reflexivity.
Qed.

Lemma done_step fuel k : exists e, py_step fuel st_done k = (st_done, None, Err e).
Proof. destruct k as [|exc|w p rc]; eexists; reflexivity. Qed.
Lemma done_run fuel h : exists os, py_run fuel st_done h = (st_done, [], os) /\ Forall raises os.
Proof.
  induction h as [|k h (os & E & H)]; [exists []; split; [reflexivity|constructor]|]. cbn [py_run].
  destruct (done_step fuel k) as [e ->]. rewrite E. eexists. split; [reflexivity|]. constructor; auto. now exists e.
Qed.

(** The creator stays consistent, whatever is added. *)
Lemma add_entry_inv st e : cinv st -> (exists m, represents st m) -> cinv (fst (add_entry st e)) /\ exists m, represents (fst (add_entry st e)) m.
Proof.
  intros Hi [m Hm]. pose proof (add_entry_sim st m e Hi Hm) as H. destruct (add_entry st e) as [st' r]. cbn [fst]. destruct (spec_add_entry m e) as [m' r'].
  intuition eauto.
Qed.
Definition sound (c : creator) : Prop := cinv (cr_entries c) /\ exists m, represents (cr_entries c) m.
Lemma sound_entry w pre s follow c : sound c -> sound (fst (add_entry_from_path w pre s follow c)).
Proof.
  intros H. unfold add_entry_from_path. destruct (from_path s) as [ap| | |]; try exact H. destruct (strip_prefix ap pre) as [b0|]; try exact H. destruct (nonempty b0); try exact H.
  destruct (new_from_path w s b0 (cr_contents c) follow) as [[l e]| | |]; try exact H.
  destruct H as [H1 H2]. destruct (add_entry_inv _ e H1 H2) as [H3 H4]. destruct (add_entry (cr_entries c) e) as [st r]. cbn [fst]. now split.
Qed.
Lemma sound_each w pre l : forall c, sound c -> sound (fst (add_each w pre l c)).
Proof.
  induction l as [|[s f] l IH]; intros c H; cbn [add_each]; [exact H|].
  pose proof (sound_entry w pre s f c H) as H1. destruct (add_entry_from_path w pre s f c) as [c1 r]. cbn [fst] in H1. destruct r; cbn [fst]; auto.
Qed.
Lemma sound_add fuel w pre s rc c : sound c -> sound (fst (add_from_path fuel w pre s rc c)).
Proof. intros H. unfold add_from_path. destruct (walk fuel w s rc); [now apply sound_each|exact H]. Qed.
Lemma sound_filled fuel l : sound (filled fuel l).
Proof.
  unfold filled. assert (H : sound creator_empty).
  { split; [apply (run_adds_inv [])|]. exists empty_map. apply represents_new. }
  revert H. generalize creator_empty. induction l as [|x l IH]; intros c H; cbn [fold_left]; auto. apply IH. now apply sound_add.
Qed.
Lemma sound_finalize c : sound c -> exists a, finalize c = Some a.
Proof. intros [H _]. unfold finalize, write_archive. destruct (layout_ok (cr_entries c) H) as (ord & -> & _). eauto. Qed.

Lemma in_block_run fuel h l : in_block h l -> exists os, py_run fuel st_fresh h = (st_open (filled fuel l), [], os).
Proof.
  intros (h1 & h2 & -> & H1 & H2 & ->). rewrite run_app. destruct (fresh_run fuel h1 H1) as (os & -> & _). cbn [py_run py_step py_enter st_fresh py_creator py_started].
  fold (st_open creator_empty). destruct (open_run fuel h2 creator_empty H2) as (os2 & ->). eexists. reflexivity.
Qed.
Lemma block_left_run fuel h l : block_left h l -> exists a os, finalize (filled fuel l) = Some a /\ py_run fuel st_fresh h = (st_done, [a], os).
Proof.
  intros (h0 & exc & h3 & -> & H). destruct (in_block_run fuel h0 l H) as [os E]. destruct (sound_finalize _ (sound_filled fuel l)) as [a Ha].
  rewrite run_app, E. cbn [py_run py_step py_exit st_open py_started py_creator]. rewrite Ha. fold st_done. destruct (done_run fuel h3) as (os3 & -> & _).
  exists a. eexists. split; auto.
Qed.

(** Every program is in exactly one of the three situations. *)
Lemma situations h : never_entered h \/ (exists l, in_block h l) \/ (exists l, block_left h l).
Proof.
  induction h as [|k h IH] using rev_ind; [left; intros []|].
  destruct IH as [IH|[(l & h1 & h2 & -> & H1 & H2 & ->)|(l & h0 & exc & h3 & -> & H)]].
  - destruct k as [|exc|w p rc].
    + right. left. exists [], h, []. repeat split; auto. intros exc [].
    + left. intros Hin. apply in_app_iff in Hin as [Hin|[Hin|[]]]; [easy|discriminate Hin].
    + left. intros Hin. apply in_app_iff in Hin as [Hin|[Hin|[]]]; [easy|discriminate Hin].
  - destruct k as [|exc|w p rc].
    + right. left. eexists. exists h1, (h2 ++ [PyEnter]). split; [now rewrite <- app_assoc|]. split; auto. split; [|reflexivity].
      intros exc Hin. apply in_app_iff in Hin as [Hin|[Hin|[]]]; [now apply (H2 exc)|discriminate Hin].
    + right. right. eexists. exists (h1 ++ PyEnter :: h2), exc, []. split; auto. exists h1, h2. auto.
    + right. left. eexists. exists h1, (h2 ++ [PyAdd w p rc]). split; [now rewrite <- app_assoc|]. split; auto. split; [|reflexivity].
      intros exc Hin. apply in_app_iff in Hin as [Hin|[Hin|[]]]; [now apply (H2 exc)|discriminate Hin].
  - right. right. exists l, h0, exc, (h3 ++ [k]). split; auto. now rewrite <- app_assoc.
Qed.

(** ** Streams *)
Lemma skip_skip {A} k (l : list A) : forall m, skipn k (skipn m l) = skipn (k + m) l.
Proof.
  induction l as [|x l IH]; intros m; [now rewrite !skipn_nil|]. destruct m as [|m]; [now rewrite Nat.add_0_r|].
  replace (k + S m)%nat with (S (k + m)) by lia. cbn [skipn]. apply IH.
Qed.
Lemma read_spec s n : sm_pos s <= stream_size s -> let (s', x) := stream_read s n in
  sm_data s' = sm_data s /\ sm_pos s' = sm_pos s + N.of_nat (length x) /\ sm_pos s' <= stream_size s /\
  N.of_nat (length x) = N.min n (stream_left s) /\
  skipn (N.to_nat (sm_pos s)) (sm_data s) = x ++ skipn (N.to_nat (sm_pos s')) (sm_data s).
Proof.
  intros H. unfold stream_read. cbn [sm_data sm_pos]. unfold stream_left, stream_size in *.
  set (k := N.min n (N.of_nat (length (sm_data s)) - sm_pos s)).
  assert (L : length (firstn (N.to_nat k) (skipn (N.to_nat (sm_pos s)) (sm_data s))) = N.to_nat k).
  { rewrite firstn_length, skipn_length. lia. }
  rewrite L. repeat split; try lia.
  replace (N.to_nat (sm_pos s + k)) with (N.to_nat k + N.to_nat (sm_pos s))%nat by lia.
  rewrite <- skip_skip. now rewrite firstn_skipn.
Qed.

Lemma reads_spec ns : forall s, sm_pos s <= stream_size s -> let (s', l) := reads s ns in
  sm_data s' = sm_data s /\ sm_pos s' <= stream_size s /\
  sm_pos s' = N.min (stream_size s) (sm_pos s + fold_right N.add 0 ns) /\
  concat l = firstn (N.to_nat (sm_pos s' - sm_pos s)) (skipn (N.to_nat (sm_pos s)) (sm_data s)) /\
  Forall2 (fun n x => N.of_nat (length x) <= n) ns l.
Proof.
  induction ns as [|n ns IH]; intros s H; cbn [reads fold_right].
  - split; auto. split; auto. split; [lia|]. split; [|constructor]. replace (sm_pos s - sm_pos s) with 0 by lia. reflexivity.
  - pose proof (read_spec s n H) as H1. destruct (stream_read s n) as [s1 x]. destruct H1 as (E1 & E2 & E3 & E4 & E5).
    assert (Hsz : stream_size s1 = stream_size s) by (unfold stream_size; now rewrite E1).
    specialize (IH s1). rewrite Hsz, E1 in IH. specialize (IH E3). destruct (reads s1 ns) as [s2 l]. destruct IH as (F1 & F2 & F3 & F4 & F5).
    split; auto. split; auto. unfold stream_left in E4. split; [lia|]. split; [|constructor; auto; lia].
    cbn [concat]. rewrite F4, E5. replace (N.to_nat (sm_pos s2 - sm_pos s)) with (length x + N.to_nat (sm_pos s2 - sm_pos s1))%nat by lia.
    now rewrite firstn_app_2.
Qed.

(** ** Iteration *)
Section Iter.
  Context (a : archive) (Hw : wf a).
  Local Notation recs := (a_recs a).

  Lemma nexts_spec m : forall lo es, Forall2 (fun e i => get_entry_at_idx full_builder a i = Ok e) es (iota lo m) ->
    forall k, py_nexts a k (lo, lo + N.of_nat m) = firstn k (map (fun e => Ok (Some e)) es) ++ repeat (Ok None) (k - m).
  Proof.
    induction m as [|m IH]; intros lo es H k; cbn [iota] in H; inversion H as [|e i es' is He Hr E1 E2]; subst.
    - cbn [map]. rewrite firstn_nil. cbn [app]. rewrite Nat.sub_0_r. replace (lo + N.of_nat 0) with lo by lia. clear.
      induction k as [|k IH]; [reflexivity|]. cbn [py_nexts repeat]. unfold py_next. cbn [fst snd]. rewrite N.eqb_refl. now rewrite IH.
    - destruct k as [|k]; [reflexivity|]. cbn [py_nexts firstn map app]. unfold py_next. cbn [fst snd].
      destruct (N.eqb_spec lo (lo + N.of_nat (S m))); [lia|]. rewrite He. cbn [fst snd].
      replace (lo + N.of_nat (S m)) with (lo + 1 + N.of_nat m) by lia. rewrite (IH (lo + 1) es' Hr k). reflexivity.
  Qed.

  Lemma range_entries m : forall lo, lo + N.of_nat m <= N.of_nat (length recs) ->
    exists es, Forall2 (fun e i => get_entry_at_idx full_builder a i = Ok e) es (iota lo m).
  Proof.
    induction m as [|m IH]; intros lo H; [exists []; constructor|]. destruct (IH (lo + 1)) as [es Hes]; [lia|].
    destruct (at_ recs lo) as [r|] eqn:E.
    - destruct (full_total a Hw lo r E) as [e He]. exists (e :: es). cbn [iota]. now constructor.
    - unfold at_ in E. destruct (N.ltb_spec lo (N.of_nat (length recs))); [|lia]. apply nth_error_None in E. lia.
  Qed.
End Iter.
