(** A whole sequential extraction on a destination without symbolic links. *)
From Verif Require Export HostSteps.

Lemma unchanged_refl f q : unchanged f f q.
Proof. split; auto. Qed.
Lemma unchanged_trans f g h q : unchanged f g q -> unchanged g h q -> unchanged f h q.
Proof.
  intros [A1 A2] [B1 B2]. split; [congruence|]. intros i Hi. destruct (A2 i Hi) as [E1 E2]. rewrite <- A1 in Hi. destruct (B2 i Hi) as [E3 E4]. split; congruence.
Qed.
Lemma has_file_kept g h q d : has_file g q d -> unchanged g h q -> has_file h q d.
Proof. intros (i & Hi & <-) [H1 H2]. exists i. rewrite H1. split; auto. now apply H2. Qed.
Lemma has_link_kept g h q t : has_link g q t -> unchanged g h q -> has_link h q t.
Proof. intros (m & Hm) [H1 H2]. exists m. now rewrite H1. Qed.

Lemma placed_kept a pol f g h q nd : placed a pol f g q nd -> unchanged g h q -> placed a pol f h q nd.
Proof.
  intros H Hu. unfold placed, by_policy in *. destruct (fst nd) as [|size addr|t].
  - now rewrite (proj1 Hu).
  - destruct (a_fetch a addr); try contradiction; try (eapply unchanged_trans; eauto; fail).
    destruct (time_of f q); [|eapply has_file_kept; eauto].
    destruct pol; try (eapply unchanged_trans; eauto; fail); auto.
    + destruct H as [H1 H2]. split; intros; [eapply has_file_kept|eapply unchanged_trans]; eauto.
    + eapply has_file_kept; eauto.
  - destruct (time_of f q); [|eapply has_link_kept; eauto].
    destruct pol; try (eapply unchanged_trans; eauto; fail); auto.
    + destruct H as [H1 H2]. split; intros; [eapply has_link_kept|eapply unchanged_trans]; eauto.
    + eapply has_link_kept; eauto.
Qed.

Lemma time_of_kept f g q : unchanged f g q -> h_dirtime g = h_dirtime f -> time_of g q = time_of f q.
Proof.
  intros [H1 H2] Hd. unfold time_of. rewrite H1. destruct (h_names f q) as [[|i|t m]|]; auto; [now rewrite Hd|].
  destruct (H2 i eq_refl) as [_ ->]. reflexivity.
Qed.

(** What was there before the step may also be measured from the start. *)
Lemma placed_from a pol f0 f g q nd : unchanged f0 f q -> h_dirtime f = h_dirtime f0 ->
  placed a pol f g q nd -> placed a pol f0 g q nd.
Proof.
  intros Hu Hd H. unfold placed, by_policy in *. rewrite (time_of_kept f0 f q Hu Hd) in H.
  destruct (fst nd) as [|size addr|t]; auto.
  - destruct (a_fetch a addr); try contradiction; try (eapply unchanged_trans; eauto; fail).
    destruct (time_of f0 q); auto. destruct pol; try (eapply unchanged_trans; eauto; fail); auto.
    destruct H as [H1 H2]. split; auto. intros. eapply unchanged_trans; eauto.
  - destruct (time_of f0 q); auto. destruct pol; try (eapply unchanged_trans; eauto; fail); auto.
    destruct H as [H1 H2]. split; auto. intros. eapply unchanged_trans; eauto.
Qed.

Lemma fits_from a pol f0 f q nd : unchanged f0 f q -> h_dirtime f = h_dirtime f0 -> fits a pol f0 q nd -> fits a pol f q nd.
Proof.
  intros Hu Hd H. unfold fits, replaceable in *. rewrite (time_of_kept f0 f q Hu Hd). destruct Hu as [-> _]. exact H.
Qed.

Lemma nodup_snoc {A} (l : list A) x : NoDup l -> ~ In x l -> NoDup (l ++ [x]).
Proof.
  induction l as [|y l IH]; cbn; intros H Hx; [repeat constructor; easy|]. apply NoDup_cons_iff in H as [H1 H2]. constructor.
  - rewrite in_app_iff. cbn. intuition congruence.
  - apply IH; auto.
Qed.

Section Fold.
  Variables (a : archive) (cfg : config) (out : path).
  Hypothesis Hshape : shaped (x_base cfg) out.
  Variable f0 : hostfs.
  Hypothesis Hup0 : dirs_up f0 out.
  Hypothesis Htidy0 : tidy f0.

  (** [done] has been extracted. *)
  Record state (done : list (path * node)) (f : hostfs) (log : list (N * bytes)) : Prop := {
    s_up : dirs_up f out;
    s_tidy : tidy f;
    s_done : forall p nd, In (p, nd) done ->
      if chosen cfg p nd then placed a (x_policy cfg) f0 f (out ++ p) nd else unchanged f0 f (out ++ p);
    s_rest : forall q, (forall p nd, In (p, nd) done -> q <> out ++ p) -> unchanged f0 f q;
    s_log : NoDup (map fst log) /\ forall i, In i (map fst log) -> exists p nd, In (p, nd) done /\ chosen cfg p nd = true /\ h_names f (out ++ p) = Some (HFile i);
    s_next : h_next f0 <= h_next f;
    s_data : forall i, i < h_next f0 -> (forall q, h_names f0 q <> Some (HFile i)) -> h_data f i = h_data f0 i /\ h_mtime f i = h_mtime f0 i;
    s_dirtime : h_dirtime f = h_dirtime f0;
    s_now : h_now f = h_now f0 }.

  (** A name apart from [q] is not touched by a step at [q]. *)
  Lemma step_away f g q o q' : tidy f -> stepped f g q o -> q' <> q -> unchanged f g q'.
  Proof.
    intros Ht Hs Hq. split; [now apply (st_names _ _ _ _ Hs)|]. intros i Hi. apply (st_inodes _ _ _ _ Hs).
    intros d ->. pose proof (st_open _ _ _ _ Hs) as (_ & _ & [(_ & E & _)|[E _]]).
    - apply (td_next _ Ht) in Hi. lia.
    - apply Hq. now apply (td_links _ Ht q' q i).
  Qed.

  Lemma step_tidy f g q n o : tidy f -> stepped f g (q ++ [n]) o -> (q = [] \/ h_names f q = Some HDir) -> tidy g.
  Proof.
    intros Ht Hs Hq. pose proof (st_open _ _ _ _ Hs) as Ho.
    assert (Hdir : forall p, h_names f p = Some HDir -> h_names g p = Some HDir).
    { intros p Hp. destruct (list_eq_dec (list_eq_dec N.eq_dec) p (q ++ [n])) as [->|Hne]; [now apply (st_dir _ _ _ _ Hs)|].
      now rewrite (st_names _ _ _ _ Hs). }
    assert (Hnext : h_next f <= h_next g).
    { destruct o as [[i d]|]; [destruct Ho as (_ & _ & [(_ & _ & E)|[_ E]])|destruct Ho as [E _]]; lia. }
    assert (Hfile : forall p i, h_names g p = Some (HFile i) -> h_names f p = Some (HFile i) \/ (p = q ++ [n] /\ i = h_next f /\ h_next g = h_next f + 1)).
    { intros p i Hp. destruct (list_eq_dec (list_eq_dec N.eq_dec) p (q ++ [n])) as [->|Hne].
      - destruct o as [[i' d]|].
        + destruct Ho as (E0 & _ & [(_ & E1 & E2)|[E1 E2]]); rewrite Hp in E0; injection E0 as <-; auto.
        + destruct Ho as [_ Ho]. left. now apply Ho.
      - left. now rewrite <- (st_names _ _ _ _ Hs). }
    constructor.
    - intros p x n' Hp. destruct (list_eq_dec (list_eq_dec N.eq_dec) (p ++ [x]) (q ++ [n])) as [E|Hne].
      + apply app_inj_tail in E as [-> ->]. destruct Hq as [Hq|Hq]; auto.
      + rewrite (st_names _ _ _ _ Hs) in Hp by auto. apply (td_parent _ Ht) in Hp as [Hp|Hp]; auto.
    - rewrite (st_names _ _ _ _ Hs); [apply (td_root _ Ht)|now destruct q].
    - intros p i Hp. apply Hfile in Hp as [Hp|(_ & -> & E)]; [|lia]. apply (td_next _ Ht) in Hp. lia.
    - intros p p' i Hp Hp'. apply Hfile in Hp. apply Hfile in Hp'. destruct Hp as [Hp|(-> & Ei & _)]; destruct Hp' as [Hp'|(-> & Ei' & _)]; auto.
      + now apply (td_links _ Ht p p' i).
      + apply (td_next _ Ht) in Hp. lia.
      + apply (td_next _ Ht) in Hp'. lia.
  Qed.

  Lemma state_start : state [] f0 [].
  Proof.
    constructor; auto; try easy.
    split; [constructor|easy].
  Qed.

  Lemma state_step done f log d n nd : state done f log ->
    (forall nd', ~ In (d ++ [n], nd') done) ->
    (forall q, q <> [] -> (exists t, d = q ++ t) -> exists mt, In (q, (KDir, mt)) done /\ should_extract cfg (join q) true = true) ->
    Forall ordinary d -> ordinary n ->
    (forall t m, h_names f0 (out ++ d ++ [n]) = Some (HLink t m) -> exists t', fst nd = KLink t') ->
    exists g o r, xone a cfg f (d ++ [n]) nd = (g, o, r) /\
      (r = Ok tt -> state (done ++ [(d ++ [n], nd)]) g (match o with Some x => log ++ [x] | None => log end)) /\
      (r <> Ok tt -> g = f /\ o = None) /\
      ((match fst nd with KLink t => utf8 t = true | _ => True end) ->
       (chosen cfg (d ++ [n]) nd = true -> fits a (x_policy cfg) f0 (out ++ d ++ [n]) nd) -> r = Ok tt).
  Proof.
    intros HS Hnew Hanc Ho Hn Hl.
    assert (Hq0 : unchanged f0 f (out ++ d ++ [n])).
    { apply (s_rest _ _ _ HS). intros p nd' Hp E. apply app_inv_head in E. subst p. now apply (Hnew nd'). }
    assert (Hup : dirs_up f (out ++ d)).
    { apply dirs_up_app; [apply (s_up _ _ _ HS)|]. intros q t E Hq.
      destruct (Hanc q Hq) as (mt & Hin & Hsel); [now exists t|]. pose proof (s_done _ _ _ HS _ _ Hin) as Hp.
      unfold chosen in Hp. cbn [is_dir_node is_dir_kind fst] in Hp. rewrite Hsel in Hp. exact Hp. }
    destruct (one_step a cfg out Hshape f d n nd Hup Ho Hn) as (g & o & r & E & Hst & Hok & Herr & Hcho & Hfit).
    { intros t m. rewrite (proj1 Hq0). apply Hl. }
    exists g, o, r. split; auto. split; [|split; auto].
    2: { intros Hu Hc. apply Hfit; auto. intros Hs. eapply fits_from; eauto. apply (s_dirtime _ _ _ HS). }
    intros ->. specialize (Hok eq_refl). set (q := out ++ d ++ [n]) in *.
    pose proof (s_tidy _ _ _ HS) as Ht.
    assert (Hpar : out ++ d = [] \/ h_names f (out ++ d) = Some HDir).
    { destruct (out ++ d) as [|x l] eqn:El; auto. right. rewrite <- El. apply (Hup (out ++ d) []); [now rewrite app_nil_r, El|now rewrite El]. }
    assert (Eq : q = (out ++ d) ++ [n]) by (subst q; now rewrite app_assoc).
    assert (Hup' : dirs_up g out).
    { intros q' t E' Hq'. rewrite (st_names _ _ _ _ Hst); [now apply (s_up _ _ _ HS q' t)|].
      intros ->. rewrite Eq in E'. apply (f_equal (@length _)) in E'. rewrite !app_length in E'. cbn in E'. lia. }
    constructor; auto.
    - rewrite Eq in Hst. eapply step_tidy; eauto.
    - intros p nd' Hin. apply in_app_iff in Hin as [Hin|[Hin|[]]].
      + assert (Hne : out ++ p <> q). { subst q. intros E'. apply app_inv_head in E'. subst p. now apply (Hnew nd'). }
        pose proof (s_done _ _ _ HS _ _ Hin) as Hd. pose proof (step_away f g q o _ Ht Hst Hne) as Hu.
        destruct (chosen cfg p nd'); [eapply placed_kept|eapply unchanged_trans]; eauto.
      + injection Hin as <- <-. destruct (chosen cfg (d ++ [n]) nd); [|eapply unchanged_trans; eauto].
        eapply placed_from; eauto. apply (s_dirtime _ _ _ HS).
    - intros q' Hq'. apply (unchanged_trans f0 f g).
      + apply (s_rest _ _ _ HS). intros p nd' Hin. apply (Hq' p nd'). apply in_app_iff. auto.
      + apply (step_away f g q o); auto. intros ->. apply (Hq' (d ++ [n]) nd); auto. apply in_app_iff. right. now left.
    - destruct (s_log _ _ _ HS) as [Hnd Hin].
      assert (Hin' : forall i, In i (map fst log) -> exists p nd0, In (p, nd0) (done ++ [(d ++ [n], nd)]) /\ chosen cfg p nd0 = true /\ h_names g (out ++ p) = Some (HFile i)).
      { intros i Hi. destruct (Hin i Hi) as (p & nd0 & Hp & Hc & Hf). exists p, nd0. split; [apply in_app_iff; auto|]. split; auto.
        rewrite (st_names _ _ _ _ Hst); auto. intros E'. subst q. apply app_inv_head in E'. subst p. now apply (Hnew nd0). }
      destruct o as [[i dt]|]; [|auto]. pose proof (st_open _ _ _ _ Hst) as (Hi & _ & Hopen).
      rewrite map_app. cbn [map fst]. split.
      + apply nodup_snoc; auto. intros Hi'. destruct (Hin i Hi') as (p & nd0 & Hp & Hc & Hf).
        destruct Hopen as [(_ & -> & _)|[Hf' _]]; [apply (td_next _ Ht) in Hf; lia|].
        pose proof (td_links _ Ht _ _ _ Hf Hf') as E'. subst q. apply app_inv_head in E'. subst p. now apply (Hnew nd0).
      + intros k Hk. apply in_app_iff in Hk as [Hk|[<-|[]]]; auto. exists (d ++ [n]), nd. split; [apply in_app_iff; right; now left|]. split; [apply Hcho; easy|exact Hi].
    - pose proof (s_next _ _ _ HS). pose proof (st_open _ _ _ _ Hst) as Hopen.
      destruct o as [[i dt]|]; [destruct Hopen as (_ & _ & [(_ & _ & E')|[_ E']])|destruct Hopen as [E' _]]; lia.
    - intros i Hi Hnn. destruct (s_data _ _ _ HS i Hi Hnn) as [<- <-]. apply (st_inodes _ _ _ _ Hst). intros dt ->.
      pose proof (st_open _ _ _ _ Hst) as (_ & _ & [(_ & E' & _)|[E' _]]).
      + pose proof (s_next _ _ _ HS). lia.
      + rewrite (proj1 Hq0) in E'. now apply (Hnn q).
    - rewrite (st_dirtime _ _ _ _ Hst). apply (s_dirtime _ _ _ HS).
    - rewrite (st_now _ _ _ _ Hst). apply (s_now _ _ _ HS).
  Qed.

  (** The whole list. *)
  Variable items : list (path * node).
  Hypothesis Hsorted : StronglySorted path_lt (map fst items).
  Hypothesis Hord : forall p nd, In (p, nd) items -> p <> [] /\ Forall ordinary p.
  Hypothesis Hanc : forall p nd q, In (p, nd) items -> q <> [] -> below q p ->
    exists mt, In (q, (KDir, mt)) items /\ should_extract cfg (join q) true = true.
  Hypothesis Hnolinks : forall p nd t m, In (p, nd) items -> h_names f0 (out ++ p) = Some (HLink t m) -> exists t', fst nd = KLink t'.

  Lemma fold_run todo : forall done f log, items = done ++ todo -> state done f log ->
    exists done' todo' g log' r, xseq a cfg todo f log = (g, log', r) /\ items = done' ++ todo' /\ state done' g log' /\
      (r = Ok tt <-> todo' = []) /\
      ((forall p nd, In (p, nd) todo -> match fst nd with KLink t => utf8 t = true | _ => True end) ->
       (forall p nd, In (p, nd) todo -> chosen cfg p nd = true -> fits a (x_policy cfg) f0 (out ++ p) nd) -> r = Ok tt).
  Proof.
    induction todo as [|[p nd] todo IH]; intros done f log E HS; cbn [xseq].
    - exists done, [], f, log, (Ok tt). split; auto. split; auto. split; auto. split; [easy|auto].
    - assert (Hin : In (p, nd) items) by (rewrite E; apply in_app_iff; right; now left).
      destruct (Hord _ _ Hin) as [Hp Hop].
      destruct p as [|n d _] using rev_ind; [easy|]. apply Forall_app in Hop as [Hod Hon]. apply Forall_inv in Hon.
      assert (Hs2 : forall p' nd', In (p', nd') done -> path_lt p' (d ++ [n])).
      { intros p' nd' Hin'. rewrite E, map_app in Hsorted. cbn [map fst] in Hsorted. apply (in_map fst) in Hin'. cbn [fst] in Hin'.
        clear - Hsorted Hin'. induction (map fst done) as [|y l IHl]; [easy|]. cbn [app] in Hsorted. apply StronglySorted_inv in Hsorted as [H1 H2].
        destruct Hin' as [->|Hin']; auto. rewrite Forall_forall in H2. apply H2. apply in_app_iff. right. now left. }
      assert (Hs3 : forall p' nd', In (p', nd') todo -> path_lt (d ++ [n]) p').
      { intros p' nd' Hin'. rewrite E, map_app in Hsorted. cbn [map fst] in Hsorted. apply (in_map fst) in Hin'. cbn [fst] in Hin'.
        clear - Hsorted Hin'. induction (map fst done) as [|y l IHl]; cbn [app] in Hsorted; apply StronglySorted_inv in Hsorted as [H1 H2]; auto.
        rewrite Forall_forall in H2. now apply H2. }
      destruct (state_step done f log d n nd HS) as (g & o & r & Ex & Hok & Herr & Hfit); auto.
      + intros nd' Hin'. apply Hs2 in Hin'. now apply path_lt_irrefl in Hin'.
      + intros q Hq (t & Et). destruct (Hanc _ _ q Hin Hq) as (mt & Hqin & Hsel).
        { rewrite Et. destruct t as [|y t]; [exists n, []; now rewrite app_nil_r|exists y, (t ++ [n]); now rewrite <- app_assoc]. }
        exists mt. split; auto. rewrite E in Hqin. apply in_app_iff in Hqin as [Hqin|[Hqin|Hqin]]; auto; exfalso.
        * injection Hqin as E' _. rewrite Et in E'. apply (f_equal (@length _)) in E'. rewrite !app_length in E'. cbn in E'. lia.
        * apply Hs3 in Hqin. apply (path_lt_asym _ _ Hqin). rewrite Et. rewrite <- app_assoc.
          destruct t as [|y t]; [apply path_lt_below|apply path_lt_below].
      + intros t m. apply (Hnolinks (d ++ [n]) nd t m Hin).
      + rewrite Ex. destruct r as [[]|e| |].
        2-4: destruct (Herr ltac:(easy)) as [-> ->]; exists done, ((d ++ [n], nd) :: todo), f, log; eexists; split; [reflexivity|]; split; auto; split; auto;
             split; [split; [easy|easy]|]; intros Hu Hf; exfalso; assert (H := Hfit (Hu _ _ (or_introl eq_refl)) (Hf _ _ (or_introl eq_refl))); discriminate H.
        destruct (IH (done ++ [(d ++ [n], nd)]) g (match o with Some x => log ++ [x] | None => log end)) as (done' & todo' & g' & log' & r & E1 & E2 & E3 & E4 & E5); auto.
        { now rewrite <- app_assoc. }
        exists done', todo', g', log', r. split; auto. split; auto. split; auto. split; auto.
        intros Hu Hf. apply E5; intros p' nd' Hp'; [apply (Hu p' nd')|apply (Hf p' nd')]; now right.
  Qed.
End Fold.
