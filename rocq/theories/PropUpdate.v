(** C87-C88: extracting again, and in parts, in one directory. *)
From Verif Require Export UpdateFacts.

(** ** Times *)
(** Whatever the archive, the policy and the schedule: every file or link keeps its time or gets the
    time of the extraction.  In particular what is written does not get the time in the archive. *)
Theorem C87_times : forall a rg cfg sched last f g res,
  (forall q i, h_names f q = Some (HFile i) -> i < h_next f) -> extract_range a rg cfg sched last f = (g, res) ->
  forall q t, h_names g q <> Some HDir -> time_of g q = Some t -> time_of f q = Some t \/ t = h_now f.
Proof.
  intros a rg cfg sched last f g res Hnext Hrun q t Hd Ht. destruct (extract_stamped a cfg sched rg last f g res Hrun) as [S1 S2 S3 S4 S5 S6].
  unfold time_of in *. destruct (h_names g q) as [[|i|x m]|] eqn:E; [easy| | |discriminate Ht]; injection Ht as <-.
  - destruct (S5 q i E) as [E'|Hi]; [|right; now apply S4]. destruct (S3 i (Hnext q i E')) as [->| ->]; rewrite ?E'; auto.
  - destruct (S6 q x m E) as [->| ->]; auto.
Qed.
Print Assumptions C87_times.

Lemma cmd_range w a od files rc pol sched last :
  extract_cmd w a od files None None rc pol sched last = extract_range a (a_root a) (mkConfig files (base_of w od) rc pol) sched last (w_fs w).
Proof. reflexivity. Qed.

Lemma empty_holds l fetch f out : (forall p, p <> [] -> h_names f (out ++ p) = None) -> holds_part l fetch f out (fun _ _ => False).
Proof. intros H p Hp. split; [easy|]. rewrite (H p Hp). easy. Qed.

(** ** An update *)
(** [a1] was extracted in an empty directory, later [a2] in the same one; both have the same kinds of
    things where they have both something.  What only [a1] has stays; what [a2] has is as in [a2], with
    the policy "overwrite"; with "newer", if it is new or its archived time is not before the time of the
    first extraction, otherwise it stays as in [a1]. *)
Theorem C87_update : forall l1 F1 a1 l2 F2 a2 w w2 od out rc1 rc2 pol1 pol sched1 last1 g1 t2 sched last g res,
  ready l1 F1 a1 -> ready l2 F2 a2 -> (forall p x y, has l1 p x -> has l2 p y -> same_kind x y) ->
  tidy (w_fs w) -> outdir (w_fs w) (base_of w od) out -> (forall p, p <> [] -> h_names (w_fs w) (out ++ p) = None) ->
  extract_cmd w a1 od [] None None rc1 pol1 sched1 last1 = (g1, Ok tt) ->
  w_fs w2 = later g1 t2 -> w_cwd w2 = w_cwd w ->
  extract_cmd w2 a2 od [] None None rc2 pol sched last = (g, res) ->
  pol = Overwrite \/ pol = Newer /\ goes_on Newer l2 ->
  (quiet sched last -> res <> Diverge -> res = Ok tt) /\
  (res = Ok tt -> forall p, p <> [] ->
     (forall nd, has l2 p nd ->
        (pol = Overwrite \/ (forall x, ~ has l1 p x) \/ not_older (m_mtime (snd nd)) (h_now (w_fs w)) -> is_shown F2 g (out ++ p) nd) /\
        (pol = Newer -> ~ not_older (m_mtime (snd nd)) (h_now (w_fs w)) -> forall x, has l1 p x -> is_shown F1 g (out ++ p) x)) /\
     (forall x, has l1 p x -> (forall nd, ~ has l2 p nd) -> is_shown F1 g (out ++ p) x) /\
     (h_names g (out ++ p) <> None -> exists nd, has l1 p nd \/ has l2 p nd)).
Proof.
  intros l1 F1 a1 l2 F2 a2 w w2 od out rc1 rc2 pol1 pol sched1 last1 g1 t2 sched last g res R1 R2 Hkinds Htidy Hout Hempty Hrun1 Ew2 Ecwd Hrun Hpol.
  rewrite cmd_range in Hrun1, Hrun. set (cfg1 := mkConfig [] (base_of w od) rc1 pol1) in *. set (cfg := mkConfig [] (base_of w2 od) rc2 pol) in *.
  assert (Eb : base_of w2 od = base_of w od) by (unfold base_of; now rewrite Ecwd).
  assert (Hpl1 : plain_list (x_files cfg1)) by (intros s []). assert (Hpl : plain_list (x_files cfg)) by (intros s []).
  pose proof (empty_holds l1 F1 (w_fs w) out Hempty) as Hh0.
  pose proof (part_step l1 F1 a1 cfg1 out R1 Hpl1 (w_fs w) g1 _ sched1 last1 _ Htidy Hout Hh0 Hrun1 eq_refl) as Hh1.
  destruct (again_tidy l1 F1 a1 (w_fs w) cfg1 out R1 Htidy Hout (part_kinds l1 F1 out (w_fs w) _ Hh0) sched1 last1 g1 _ Hrun1) as [Ht1 Ho1].
  pose proof (extract_stamped a1 cfg1 sched1 _ last1 _ _ _ Hrun1) as Hst.
  rewrite Ew2 in Hrun.
  assert (Hsel1 : forall p nd, asked (x_files cfg1) (x_recurse cfg1) p nd) by (intros p nd; now left).
  assert (Hsel : forall p dir, selected (x_files cfg) (x_recurse cfg) p dir) by (intros p dir; now left).
  assert (Hon : forall p, p <> [] -> h_names g1 (out ++ p) <> None -> exists x, has l1 p x /\ is_shown F1 g1 (out ++ p) x).
  { intros p Hp Hn. destruct (Hh1 p Hp) as [A B]. destruct (B Hn) as (x & Hx & _). eauto. }
  assert (Hk : forall p nd, p <> [] -> has l2 p nd -> h_names (later g1 t2) (out ++ p) <> None -> kind_there (later g1 t2) (out ++ p) nd).
  { intros p nd Hp Hh Hn. destruct (Hon p Hp Hn) as (x & Hx & Hs). pose proof (Hkinds p x nd Hx Hh) as Hsk. apply shown_kind in Hs.
    unfold kind_there, same_kind in *. destruct (fst x), (fst nd); auto; easy. }
  pose proof (at_time_tidy g1 t2 Ht1) as Ht1'.
  assert (Ho1' : outdir (later g1 t2) (x_base cfg) out) by (cbn [cfg x_base]; rewrite Eb; exact Ho1).
  split.
  - intros Hq Hd. eapply (again_ok l2 F2 a2 (later g1 t2) cfg out R2 Ht1' Ho1' Hk sched last g res Hpl Hrun); auto.
    destruct Hpol as [Ep|[Ep Hg]]; cbn [cfg x_policy]; rewrite Ep; [exact I|exact Hg].
  - intros Hok p Hp.
    assert (Hplc : forall nd, has l2 p nd -> placed a2 pol (later g1 t2) g (out ++ p) nd).
    { intros nd Hh. exact (again_placed l2 F2 a2 (later g1 t2) cfg out R2 Ht1' Ho1' Hk sched last g res Hpl Hrun Hok p nd Hp Hh (Hsel _ _)). }
    pose proof (again_bystanders l2 F2 a2 (later g1 t2) cfg out R2 Ht1' Ho1' Hk sched last g res Hpl Hrun p Hp) as Hby.
    assert (Ef : a_fetch a2 = F2) by exact (session_fetch l2 F2 a2 _ [] out _ cfg (again_setting l2 F2 a2 _ cfg out R2 Ht1' Ho1' Hk)).
    (* the time of what the first extraction made *)
    assert (Htime : forall t, time_of (later g1 t2) (out ++ p) = Some t -> h_names g1 (out ++ p) <> Some HDir -> t = h_now (w_fs w)).
    { intros t Ht Hd. destruct (C87_times a1 _ cfg1 sched1 last1 (w_fs w) g1 _ (td_next _ Htidy) Hrun1 (out ++ p) t Hd Ht) as [E|E]; [|exact E].
      unfold time_of in E. rewrite (Hempty p Hp) in E. discriminate E. }
    assert (Hold : forall x, has l1 p x -> unchanged (later g1 t2) g (out ++ p) -> is_shown F1 g (out ++ p) x).
    { intros x Hx Hu. apply (shown_unchanged F1 (later g1 t2) g _ _ Hu). destruct (Hh1 p Hp) as [A _].
      exact (A x Hx (or_intror (Hsel1 p x))). }
    split; [|split].
    + intros nd Hh. specialize (Hplc nd Hh).
      assert (Hby2 : forall P : Prop, fst nd <> KDir -> by_policy pol (later g1 t2) g (out ++ p) (m_mtime (snd nd)) P -> (P -> is_shown F2 g (out ++ p) nd) ->
        (pol = Overwrite \/ (forall x, ~ has l1 p x) \/ not_older (m_mtime (snd nd)) (h_now (w_fs w)) -> is_shown F2 g (out ++ p) nd) /\
        (pol = Newer -> ~ not_older (m_mtime (snd nd)) (h_now (w_fs w)) -> forall x, has l1 p x -> is_shown F1 g (out ++ p) x)).
      { intros P Hnd Hb Hi. unfold by_policy in Hb. destruct (time_of (later g1 t2) (out ++ p)) as [t|] eqn:Et.
        - assert (Hnn : h_names g1 (out ++ p) <> None) by (intros E; unfold time_of in Et; cbn [later h_names] in Et; rewrite E in Et; discriminate Et).
          destruct (Hon p Hp Hnn) as (x & Hx & Hs).
          assert (Hdir : h_names g1 (out ++ p) <> Some HDir).
          { pose proof (Hk p nd Hp Hh Hnn) as Hkk. unfold kind_there in Hkk. cbn [later h_names] in Hkk.
            destruct (fst nd); [easy|destruct Hkk as [? ->]; discriminate|destruct Hkk as (? & ? & ->); discriminate]. }
          rewrite (Htime t eq_refl Hdir) in Hb. split.
          + intros [Ep|[Hno|Hno]]; [rewrite Ep in Hb; auto|now apply Hno in Hx|]. destruct Hpol as [Ep|[Ep _]]; rewrite Ep in Hb; auto. now apply Hi, Hb.
          + intros Ep Hn y Hy. rewrite Ep in Hb. apply (Hold y Hy). now apply Hb.
        - split; [auto|]. intros _ _ x Hx. exfalso. destruct (Hh1 p Hp) as [A _]. pose proof (A x Hx (or_intror (Hsel1 p x))) as Hs.
          apply shown_kind in Hs. unfold time_of in Et. cbn [later h_names] in Et. unfold kind_there in Hs.
          destruct (fst x); [rewrite Hs in Et|destruct Hs as [i Hs]; rewrite Hs in Et|destruct Hs as (tt0 & m & Hs); rewrite Hs in Et]; discriminate Et. }
      unfold placed in Hplc. rewrite Ef in Hplc. destruct nd as [[|size addr|t] mt]; cbn [fst snd] in *.
      * split; [auto|]. intros _ _ x Hx. pose proof (Hkinds p x _ Hx Hh) as Hsk. unfold same_kind in Hsk. cbn [fst] in Hsk. unfold is_shown.
        destruct (fst x); [exact Hplc|easy|easy].
      * destruct (rd_bytes _ _ _ R2 p size addr mt Hh) as [data Hd]. rewrite Hd in Hplc. apply (Hby2 _ ltac:(discriminate) Hplc).
        intros Hf. exists data. auto.
      * apply (Hby2 _ ltac:(discriminate) Hplc). auto.
    + intros x Hx Hno. apply (Hold x Hx). apply Hby. intros nd Hh. now apply Hno in Hh.
    + intros Hn. destruct (has_dec l2 F2 a2 R2 p) as [[nd Hh]|Hno]; [eauto|].
      destruct Hby as [U _]; [intros nd Hh; now apply Hno in Hh|]. rewrite U in Hn. destruct (Hon p Hp Hn) as (x & Hx & _). eauto.
Qed.
Print Assumptions C87_update.

(** With "newer": if everything that [a2] changed has a time not before that of the first extraction, the
    directory holds all of [a2] afterwards. *)
Theorem C87_newer_is_enough : forall l1 F1 a1 l2 F2 a2 w w2 od out rc1 rc2 pol1 sched1 last1 g1 t2 sched last g,
  ready l1 F1 a1 -> ready l2 F2 a2 -> (forall p x y, has l1 p x -> has l2 p y -> same_kind x y) ->
  tidy (w_fs w) -> outdir (w_fs w) (base_of w od) out -> (forall p, p <> [] -> h_names (w_fs w) (out ++ p) = None) ->
  extract_cmd w a1 od [] None None rc1 pol1 sched1 last1 = (g1, Ok tt) ->
  w_fs w2 = later g1 t2 -> w_cwd w2 = w_cwd w ->
  extract_cmd w2 a2 od [] None None rc2 Newer sched last = (g, Ok tt) -> goes_on Newer l2 ->
  (forall p x y, has l1 p x -> has l2 p y ->
     match fst x, fst y with
     | KFile _ i, KFile _ j => F1 i = F2 j
     | KLink s, KLink t => s = t
     | _, _ => True
     end \/ not_older (m_mtime (snd y)) (h_now (w_fs w))) ->
  forall p nd, p <> [] -> has l2 p nd -> is_shown F2 g (out ++ p) nd.
Proof.
  intros l1 F1 a1 l2 F2 a2 w w2 od out rc1 rc2 pol1 sched1 last1 g1 t2 sched last g R1 R2 Hk Htidy Hout Hempty H1 Ew Ec H2 Hg Hch p nd Hp Hh.
  destruct (C87_update l1 F1 a1 l2 F2 a2 w w2 od out rc1 rc2 pol1 Newer sched1 last1 g1 t2 sched last g _ R1 R2 Hk Htidy Hout Hempty H1 Ew Ec H2 (or_intror (conj eq_refl Hg))) as [_ U].
  destruct (U eq_refl p Hp) as [A _]. destruct (A nd Hh) as [A1 A2].
  destruct (Z_le_dec (h_now (w_fs w)) (1000000000 * Z.of_N (m_mtime (snd nd)))) as [Hle|Hle]; [apply A1; right; right; exact Hle|].
  destruct (has_dec l1 F1 a1 R1 p) as [[x Hx]|Hno]; [|apply A1; right; left; exact Hno].
  pose proof (A2 eq_refl Hle x Hx) as Hs. destruct (Hch p x nd Hx Hh) as [E|E]; [|easy]. pose proof (Hk p x nd Hx Hh) as Hsk.
  unfold is_shown, same_kind in *. destruct (fst x) as [|s1 i|s1], (fst nd) as [|s2 j|s2]; try easy.
  - now rewrite <- E.
  - now subst s2.
Qed.
Print Assumptions C87_newer_is_enough.

(** ** In parts *)
Lemma parts_hold l fetch a od rc : ready l fetch a -> forall parts w w', in_parts a od rc w parts w' ->
  forall out sel, tidy (w_fs w) -> outdir (w_fs w) (base_of w od) out -> holds_part l fetch (w_fs w) out sel ->
  (forall files, In files parts -> plain_list files) ->
  tidy (w_fs w') /\ outdir (w_fs w') (base_of w' od) out /\
  holds_part l fetch (w_fs w') out (fun p nd => sel p nd \/ exists files, In files parts /\ asked files rc p nd).
Proof.
  intros Hr parts w w' H. induction H as [w|w files parts w1 w2 pol sched last g t Hrun E1 E2 _ IH]; intros out sel Ht Ho Hp Hpl.
  - split; [exact Ht|]. split; [exact Ho|]. intros p Hne. destruct (Hp p Hne) as [A B]. split.
    + intros nd Hh [Hs|(f & [] & _)]. auto.
    + intros Hn. destruct (B Hn) as (nd & H1 & H2). eauto.
  - rewrite cmd_range in Hrun. set (cfg := mkConfig files (base_of w od) rc pol) in *.
    assert (Hpf : plain_list (x_files cfg)) by (apply Hpl; now left).
    pose proof (part_step l fetch a cfg out Hr Hpf (w_fs w) g sel sched last _ Ht Ho Hp Hrun eq_refl) as Hg.
    destruct (again_tidy l fetch a (w_fs w) cfg out Hr Ht Ho (part_kinds l fetch out (w_fs w) sel Hp) sched last g _ Hrun) as [Tg Og].
    destruct (IH out (fun p nd => sel p nd \/ asked files rc p nd)) as (T & O & P).
    + rewrite E1. now apply at_time_tidy.
    + rewrite E1. unfold base_of. rewrite E2. exact Og.
    + rewrite E1. exact Hg.
    + intros f Hf. apply Hpl. now right.
    + split; [exact T|]. split; [exact O|]. intros p Hne. destruct (P p Hne) as [A B]. split.
      * intros nd Hh [Hs|(f & [<-|Hf] & Hs)]; apply A; eauto.
      * intros Hn. destruct (B Hn) as (nd & Hh & [[Hs|Hs]|(f & Hf & Hs)]); exists nd; (split; [exact Hh|]); [now left|right; exists files; split; [now left|exact Hs]|right; exists f; split; [now right|exact Hs]].
Qed.

(** Extracting lists of paths one after the other in an empty directory gives exactly what the lists
    select together. *)
Theorem C88_parts : forall l fetch a od rc w parts w' out, ready l fetch a ->
  tidy (w_fs w) -> outdir (w_fs w) (base_of w od) out -> (forall p, p <> [] -> h_names (w_fs w) (out ++ p) = None) ->
  parts <> [] -> (forall files, In files parts -> files <> [] /\ plain_list files) -> in_parts a od rc w parts w' ->
  holds_part l fetch (w_fs w') out (asked (concat parts) rc).
Proof.
  intros l fetch a od rc w parts w' out Hr Ht Ho He Hne Hpl H.
  destruct (parts_hold l fetch a od rc Hr parts w w' H out _ Ht Ho (empty_holds l fetch (w_fs w) out He)) as (_ & _ & P); [intros f Hf; now apply Hpl|].
  assert (Heq : forall p nd, (False \/ exists files, In files parts /\ asked files rc p nd) <-> asked (concat parts) rc p nd).
  { intros p nd. unfold asked, selected. split.
    - intros [[]|(files & Hf & [E|(s & Hs & Hc)])]; [now apply Hpl in Hf|]. right. exists s. split; [|exact Hc]. apply in_concat. eauto.
    - intros [E|(s & Hs & Hc)]; right.
      + destruct parts as [|f0 parts]; [easy|]. cbn in E. apply app_eq_nil in E as [E _]. exfalso. apply (proj1 (Hpl f0 (or_introl eq_refl))). exact E.
      + apply in_concat in Hs as (files & Hf & Hs). exists files. split; [exact Hf|]. right. eauto. }
  intros p Hp. destruct (P p Hp) as [A B]. split.
  - intros nd Hh Hs. apply A; [exact Hh|]. now apply Heq.
  - intros Hn. destruct (B Hn) as (nd & Hh & Hs). exists nd. split; [exact Hh|]. now apply Heq.
Qed.
Print Assumptions C88_parts.

(** It is what a single extraction of all the paths gives: the same names, files with the same bytes,
    links with the same targets. *)
Theorem C88_as_one : forall l fetch a od rc w parts w' out pol sched last g, ready l fetch a ->
  tidy (w_fs w) -> outdir (w_fs w) (base_of w od) out -> (forall p, p <> [] -> h_names (w_fs w) (out ++ p) = None) ->
  parts <> [] -> (forall files, In files parts -> files <> [] /\ plain_list files) -> in_parts a od rc w parts w' ->
  extract_cmd w a od (concat parts) None None rc pol sched last = (g, Ok tt) ->
  forall p, p <> [] -> same_node (w_fs w') g (out ++ p).
Proof.
  intros l fetch a od rc w parts w' out pol sched last g Hr Ht Ho He Hne Hpl H Hrun p Hp.
  pose proof (C88_parts l fetch a od rc w parts w' out Hr Ht Ho He Hne Hpl H) as P1.
  assert (P2 : holds_part l fetch g out (asked (concat [concat parts]) rc)).
  { pose proof (C88_parts l fetch a od rc w [concat parts] (mkWorld (later g 0) (w_attr w) (w_list w) (w_cwd w)) out Hr Ht Ho He) as P2. apply P2.
    - discriminate.
    - intros files [<-|[]]. split.
      + destruct parts as [|f0 parts]; [easy|]. intros E. cbn in E. apply app_eq_nil in E as [E _]. apply (proj1 (Hpl f0 (or_introl eq_refl))). exact E.
      + intros s Hs. apply in_concat in Hs as (files & Hf & Hs). exact (proj2 (Hpl files Hf) s Hs).
    - refine (parts_more a od rc w _ _ (mkWorld (later g 0) (w_attr w) (w_list w) (w_cwd w)) _ pol sched last g 0%Z Hrun eq_refl eq_refl (parts_none a od rc _)). }
  cbn [concat] in P2. rewrite app_nil_r in P2. destruct (P1 p Hp) as [A1 B1], (P2 p Hp) as [A2 B2].
  assert (Hsame : forall nd, is_shown fetch (w_fs w') (out ++ p) nd -> is_shown fetch g (out ++ p) nd -> same_node (w_fs w') g (out ++ p)).
  { intros nd S1 S2. unfold is_shown, same_node in *. destruct (fst nd) as [|size addr|t].
    - now rewrite S1, S2.
    - destruct S1 as (d1 & D1 & i1 & E1 & F1), S2 as (d2 & D2 & i2 & E2 & F2). rewrite E1, E2. congruence.
    - destruct S1 as [m1 E1], S2 as [m2 E2]. now rewrite E1, E2. }
  destruct (h_names (w_fs w') (out ++ p)) as [n1|] eqn:E1.
  - destruct B1 as (nd & Hh & Hs); [discriminate|]. apply (Hsame nd); auto. 
  - destruct (h_names g (out ++ p)) as [n2|] eqn:E2.
    + destruct B2 as (nd & Hh & Hs); [discriminate|]. apply (Hsame nd); auto.
    + unfold same_node. now rewrite E1, E2.
Qed.
Print Assumptions C88_as_one.

(** And the next part goes through, with the policies that do not stop at existing files. *)
Theorem C88_goes_on : forall l fetch a od rc w parts w' out files pol sched last g res, ready l fetch a ->
  tidy (w_fs w) -> outdir (w_fs w) (base_of w od) out -> (forall p, p <> [] -> h_names (w_fs w) (out ++ p) = None) ->
  (forall files, In files parts -> plain_list files) -> in_parts a od rc w parts w' -> plain_list files -> goes_on pol l ->
  extract_cmd w' a od files None None rc pol sched last = (g, res) -> quiet sched last -> res <> Diverge -> res = Ok tt.
Proof.
  intros l fetch a od rc w parts w' out files pol sched last g res Hr Ht Ho He Hpl H Hf Hg Hrun Hq Hd.
  destruct (parts_hold l fetch a od rc Hr parts w w' H out _ Ht Ho (empty_holds l fetch (w_fs w) out He) Hpl) as (T & O & P).
  rewrite cmd_range in Hrun.
  exact (again_ok l fetch a (w_fs w') (mkConfig files (base_of w' od) rc pol) out Hr T O (part_kinds l fetch out (w_fs w') _ P) sched last g res Hf Hrun Hg Hq Hd).
Qed.
Print Assumptions C88_goes_on.
