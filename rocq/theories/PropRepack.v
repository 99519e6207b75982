(** C90: extracting an archive and archiving the copy. *)
From Verif Require Import PropUpdate PropUpdate2 PropRemount SpecRepack.

(** ** What an extraction holds is a tree that can be archived *)
Section Copy.
  Variables (l : list entry) (fetch : caddr -> fetched) (a : archive) (v : world) (out : path) (sel : path -> node -> Prop) (depth : nat).
  Hypothesis Hr : ready l fetch a.
  Hypothesis Ht : tidy (w_fs v).
  Hypothesis Hh : holds_part l fetch (w_fs v) out sel.
  Hypothesis Hc : can_read v out.
  Hypothesis Hd : forall p nd, has l p nd -> (length p <= depth)%nat.

  Lemma held p n : p <> [] -> h_names (w_fs v) (out ++ p) = Some n -> exists nd, has l p nd /\ sel p nd /\ is_shown fetch (w_fs v) (out ++ p) nd.
  Proof. intros Hp Hn. destruct (Hh p Hp) as [A B]. destruct B as (nd & H1 & H2); [congruence|]. exists nd. auto. Qed.

  Lemma copy_tree : source_tree v out depth.
  Proof.
    destruct Hc as [L F]. constructor.
    - intros p x H. destruct p as [|y p]; [now left|]. right. destruct (h_names (w_fs v) (out ++ (y :: p) ++ [x])) as [n|] eqn:E; [|easy].
      rewrite app_assoc in E. destruct (td_parent _ Ht _ _ _ E) as [E'|E']; [destruct out; discriminate E'|exact E'].
    - exact L.
    - intros p n Hn Hi. destruct p as [|y p]; [destruct Hi|]. destruct (h_names (w_fs v) (out ++ y :: p)) as [x|] eqn:E; [|easy].
      destruct (held (y :: p) x) as (nd & H1 & _); [discriminate|exact E|]. eapply rd_names; eauto.
    - intros p Hn. destruct p as [|y p]; [apply Nat.le_0_l|]. destruct (h_names (w_fs v) (out ++ y :: p)) as [x|] eqn:E; [|easy].
      destruct (held (y :: p) x) as (nd & H1 & _); [discriminate|exact E|]. eapply Hd; eauto.
    - exact F.
    - intros p t m Hne E. destruct (held p _ Hne E) as ([k mt] & H1 & _ & H2). unfold is_shown in H2. cbn [fst] in H2. destruct k as [|size addr|t'].
      + rewrite E in H2. discriminate H2.
      + destruct H2 as (data & _ & i & H2 & _). rewrite E in H2. discriminate H2.
      + destruct H2 as [m' H2]. rewrite E in H2. injection H2 as -> _. destruct (rd_targets _ _ _ Hr _ _ _ H1). auto.
  Qed.

  Lemma copy_same p nd n contents nd2 : is_shown fetch (w_fs v) (out ++ p) nd -> h_names (w_fs v) (out ++ p) = Some n ->
    mirrors_as v (out ++ p) n contents nd2 -> same_thing fetch (fetch_of contents) nd nd2.
  Proof.
    intros Hs Hn (_ & _ & _ & _ & Hm). unfold is_shown, same_thing in *. destruct (fst nd) as [|size addr|t].
    - rewrite Hs in Hn. injection Hn as <-. exact Hm.
    - destruct Hs as (data & Hf & i & E & D). rewrite E in Hn. injection Hn as <-. destruct Hm as (addr2 & E2 & F2). rewrite D in *. exists data, addr2. auto.
    - destruct Hs as [m E]. rewrite E in Hn. injection Hn as <-. exact Hm.
  Qed.
End Copy.

Lemma stands_utf8 s p r : stands_for s (p ++ r) -> forallb utf8 (pieces s) = true -> forall n, In n r -> utf8 n = true.
Proof.
  intros [_ E] H n Hn. rewrite forallb_forall in H. apply H. assert (Hi : In n (filter not_dot (pieces s))) by (rewrite E; apply in_or_app; now right).
  now apply filter_In in Hi.
Qed.

(** The directory [out] was empty; paths of the archive were extracted there by one or several runs of
    [arx extract], at any times and with any policies; then [arx create] archives it, under [P].  It
    succeeds, and the new archive holds the entries asked for: same paths below [P], same kinds, bytes and
    targets, with the owner, group, mode and time of the copy.  It can be extracted and archived again. *)
Theorem C90_repacked : forall l fetch a od rc w parts w2 out o v arg P fuel, ready l fetch a ->
  tidy (w_fs w) -> outdir (w_fs w) (base_of w od) out -> (forall p, p <> [] -> h_names (w_fs w) (out ++ p) = None) ->
  (forall files, In files parts -> plain_list files) -> in_parts a od rc w parts w2 ->
  create_of w2 o v arg out P -> can_read v out -> (forall p nd, has l p nd -> (length p < fuel)%nat) -> (0 < fuel)%nat ->
  exists m a2, create fuel w2 true o = ([Opened m; Written a2], Ok tt) /\
    (N.of_nat (length (a_recs a2)) < 2^32 -> exists l2 contents, ready l2 (fetch_of contents) a2 /\
       repacked l fetch (one_asked parts rc) P l2 (fetch_of contents) /\
       forall q nd2, q <> [] -> has l2 (P ++ q) nd2 -> let x := w_attr v (out ++ q) in
         m_uid (snd nd2) = at_uid x /\ m_gid (snd nd2) = at_gid x /\ m_mode (snd nd2) = at_mode x /\ m_mtime (snd nd2) = as_u64 (at_mtime x)).
Proof.
  intros l fetch a od rc w parts w2 out o v arg P fuel Hr Ht Ho He Hpl Hin [C1 C2 C3 C4 C5 C6 C7 C8 C9 C10 C11] Hc Hfuel H0.
  destruct (parts_hold l fetch a od rc Hr parts w w2 Hin out _ Ht Ho (empty_holds l fetch (w_fs w) out He) Hpl) as (Ht2 & _ & Hp2).
  assert (Ev : w_fs v = w_fs w2). { unfold entered in C7. destruct (o_base o); [destruct C7 as [_ ->]; reflexivity|now subst v]. }
  rewrite <- Ev in Ht2, Hp2.
  assert (Hp : holds_part l fetch (w_fs v) out (one_asked parts rc)).
  { intros p Hne. destruct (Hp2 p Hne) as [A B]. split; [intros nd H1 H2; apply A; [exact H1|now right]|].
    intros Hn. destruct (B Hn) as (nd & H1 & [[]|H2]). exists nd. auto. }
  clear Hp2.
  assert (Hd : forall p nd, has l p nd -> (length p <= fuel - 1)%nat) by (intros p nd Hh; apply Hfuel in Hh; lia).
  pose proof (copy_tree l fetch a v out _ (fuel - 1) Hr Ht2 Hp Hc Hd) as HT.
  set (x := mkInput arg out HDir P (fuel - 1)).
  assert (Hprop : proper w2 o v [x]).
  { constructor; auto.
    - constructor; [|constructor]. split; [exact C8|]. split; [exact C9|]. split; [exact C10|]. split; [exact C11|exact HT].
    - repeat constructor. }
  destruct (C64_create fuel w2 o v [x] Hprop) as (m & a2 & E & H2); [constructor; [cbn [in_depth x]; lia|constructor]|].
  exists m, a2. split; [exact E|]. intros Hn. destruct (H2 Hn) as (l2 & contents & S2 & E2 & [A1 A2]). exists l2, contents.
  assert (Hat : forall q n, q <> [] -> at_input v x q n <-> h_names (w_fs v) (out ++ q) = Some n).
  { intros [|y q] n Hne; [easy|]. cbn [at_input x in_node in_root]. split; [now intros [_ H]|intros H; split; [reflexivity|exact H]]. }
  assert (Hback : forall p nd2, has l2 p nd2 ->
     (exists q n nd, q <> [] /\ p = P ++ q /\ has l q nd /\ one_asked parts rc q nd /\ h_names (w_fs v) (out ++ q) = Some n /\
        is_shown fetch (w_fs v) (out ++ q) nd /\ mirrors_as v (out ++ q) n contents nd2) \/ (fst nd2 = KDir /\ exists t, P = p ++ t)).
  { intros p nd2 Hh. destruct (A2 p nd2 Hh) as [(y & q & n & [<-|[]] & -> & Hq & Hm)|(-> & _ & y & z & t & [<-|[]] & Ep)].
    - cbn [x in_path in_root] in *. destruct q as [|z q].
      + right. cbn [at_input x in_node] in Hq. subst n. split; [apply Hm|]. exists []. now rewrite !app_nil_r.
      + left. apply Hat in Hq; [|discriminate]. destruct (held l fetch v out _ Hp (z :: q) n) as (nd & K1 & K2 & K3); [discriminate|exact Hq|].
        exists (z :: q), n, nd. split; [discriminate|]. auto 10.
    - right. split; [reflexivity|]. cbn [x in_path] in Ep. eauto. }
  assert (Hon : forall (q : path) n, In n P -> ordinary n /\ utf8 n = true).
  { intros _ n Hi. split; [rewrite Forall_forall in C10; auto|eapply stands_utf8; eauto]. }
  split; [|split].
  - constructor; [exact S2|exact E2| | |].
    + intros p nd n Hh Hi. destruct (Hback p nd Hh) as [(q & k & nd1 & Hq & -> & K1 & _)|[_ [t Et]]].
      * apply in_app_or in Hi as [Hi|Hi]; [now apply (Hon q)|eapply rd_names; eauto].
      * apply (Hon p). rewrite Et. apply in_or_app. now left.
    + intros p size addr mt Hh. destruct (Hback p _ Hh) as [(q & k & nd1 & Hq & -> & K1 & K2 & K3 & K4 & K5)|[F _]]; [|discriminate F].
      pose proof (copy_same fetch v out q nd1 k contents _ K4 K3 K5) as Hs. unfold same_thing in Hs. cbn [fst] in Hs.
      destruct (fst nd1); [discriminate Hs| |discriminate Hs]. destruct Hs as (data & addr2 & _ & Es & Fs). injection Es as _ ->. eauto.
    + intros p t mt Hh. destruct (Hback p _ Hh) as [(q & k & nd1 & Hq & -> & K1 & K2 & K3 & K4 & K5)|[F _]]; [|discriminate F].
      pose proof (copy_same fetch v out q nd1 k contents _ K4 K3 K5) as Hs. unfold same_thing in Hs. cbn [fst] in Hs.
      destruct nd1 as [k1 m1]. cbn [fst] in Hs. destruct k1 as [|s1 d1|t1]; [discriminate Hs|destruct Hs as (? & ? & _ & Hs & _); discriminate Hs|].
      injection Hs as ->. eapply rd_targets; eauto.
  - split.
    + intros q nd Hh Hs. pose proof (has_nonempty _ _ _ Hh) as Hne. destruct (Hp q Hne) as [B1 _]. pose proof (B1 nd Hh Hs) as Hsh.
      assert (Hn' : exists n, h_names (w_fs v) (out ++ q) = Some n).
      { unfold is_shown in Hsh. destruct (fst nd); [eauto|destruct Hsh as (d & _ & i & Ei & _); eauto|destruct Hsh as [mm Em]; eauto]. }
      destruct Hn' as [n Hn']. destruct (A1 x q n) as (nd2 & Hh2 & Hm); [now left|now apply Hat|cbn [x in_path]; intros E0; apply app_eq_nil in E0 as [_ E0]; easy|].
      exists nd2. split; [exact Hh2|]. exact (copy_same fetch v out q nd n contents nd2 Hsh Hn' Hm).
    + intros p nd2 Hh. destruct (Hback p nd2 Hh) as [(q & k & nd1 & Hq & -> & K1 & K2 & K3 & K4 & K5)|K]; [left|now right].
      exists q, nd1. split; [reflexivity|]. split; [exact K1|]. split; [exact K2|]. exact (copy_same fetch v out q nd1 k contents nd2 K4 K3 K5).
  - intros q nd2 Hq Hh. cbv zeta. destruct (Hback _ nd2 Hh) as [(q' & k & nd1 & Hq' & Eq & K1 & K2 & K3 & K4 & K5)|[_ [t Et]]].
    + apply app_inv_head in Eq. subst q'. destruct K5 as (M1 & M2 & M3 & M4 & _). auto.
    + exfalso. rewrite <- app_assoc in Et. apply (f_equal (@length _)) in Et. rewrite !app_length in Et. destruct q; [easy|cbn in Et; lia].
Qed.
Print Assumptions C90_repacked.

(** When one of the runs extracted everything and the copy is archived from inside ([-C DIR] and "."),
    [arx list] and [arx dump] answer for the new archive what they answer for the first... *)
Theorem C90_listing : forall l fetch a parts rc l2 fetch2 a2, ready l fetch a -> ready l2 fetch2 a2 ->
  In [] parts -> repacked l fetch (one_asked parts rc) [] l2 fetch2 -> list_cmd a2 None = list_cmd a None.
Proof.
  intros l fetch a parts rc l2 fetch2 a2 R1 R2 Hin [H1 H2].
  destruct (C42_plain_listing l fetch a (rd_small _ _ _ R1) (rd_built _ _ _ R1)) as (ps & P1 & P2 & P3).
  destruct (C42_plain_listing l2 fetch2 a2 (rd_small _ _ _ R2) (rd_built _ _ _ R2)) as (ps2 & Q1 & Q2 & Q3).
  rewrite P3, Q3. do 2 f_equal. rewrite <- (map_map fst join ps), <- (map_map fst join ps2). f_equal.
  assert (Hs : forall l, StronglySorted path_lt l -> NoDup l).
  { intros k Hk. induction Hk as [|p r Hr IH Hall]; constructor; [|exact IH]. intros Hi. rewrite Forall_forall in Hall. specialize (Hall _ Hi).
    unfold path_lt in Hall. rewrite (proj2 (path_cmp_eq p p) eq_refl) in Hall. discriminate Hall. }
  apply (sorted_unique path_lt); [|apply NoDup_Permutation; auto|exact Q1|exact P1].
  - intros p q Hp Hq. unfold path_lt in *. rewrite path_cmp_antisym, Hp in Hq. discriminate Hq.
  - intros p. rewrite !in_map_iff. split; intros ((p' & nd) & <- & Hi); cbn [fst].
    + apply Q2 in Hi. pose proof (has_nonempty _ _ _ Hi) as Hne. destruct (H2 _ _ Hi) as [(q & nd' & -> & Hh & _)|[_ [t E]]].
      * cbn [app] in *. exists (q, nd'). split; [reflexivity|]. now apply P2.
      * symmetry in E. apply app_eq_nil in E as [E _]. easy.
    + apply P2 in Hi. destruct (H1 p' nd Hi) as (nd2 & Hh & _); [exists []; split; [exact Hin|now left]|]. exists (p', nd2). split; [reflexivity|]. now apply Q2.
Qed.
Print Assumptions C90_listing.

Theorem C90_dump : forall w l fetch a parts rc l2 fetch2 a2 s, ready l fetch a -> ready l2 fetch2 a2 ->
  In [] parts -> repacked l fetch (one_asked parts rc) [] l2 fetch2 -> pieces s <> [] ->
  fst (dump w a2 s None) = fst (dump w a s None) /\ (snd (dump w a2 s None) = Ok tt <-> snd (dump w a s None) = Ok tt).
Proof.
  intros w l fetch a parts rc l2 fetch2 a2 s R1 R2 Hin [H1 H2] Hne. pose proof R1 as [S1 E1 _ Hby _]. pose proof R2 as [S2 E2 _ _ _].
  destruct (has_dec l fetch a R1 (pieces s)) as [[[k m] Hh]|Hno].
  - destruct (H1 _ _ Hh) as ([k2 m2] & Hh2 & Hs); [exists []; split; [exact Hin|now left]|]. unfold same_thing in Hs. cbn [fst app] in *.
    destruct k as [|n addr|t].
    2: { destruct Hs as (data & addr2 & Hf & -> & Hf2).
         rewrite (C44_dump_file w l fetch a s n addr m data None S1 E1 Hne (or_introl eq_refl) Hh Hf).
         rewrite (C44_dump_file w l2 fetch2 a2 s _ addr2 m2 data None S2 E2 Hne (or_introl eq_refl) Hh2 Hf2). split; [reflexivity|tauto]. }
    all: subst k2; destruct (C44_dump_refused w l fetch a s None S1 E1 Hne) as (e & -> & _);
      [intros n' addr' m' Hx; pose proof (has_fun _ _ _ _ Hh Hx) as F; discriminate F|];
      destruct (C44_dump_refused w l2 fetch2 a2 s None S2 E2 Hne) as (e2 & -> & _);
      [intros n' addr' m' Hx; pose proof (has_fun _ _ _ _ Hh2 Hx) as F; discriminate F|];
      cbn [fst snd]; split; [reflexivity|]; split; intros F; discriminate F.
  - destruct (C44_dump_refused w l fetch a s None S1 E1 Hne) as (e & -> & _); [intros n addr m Hh; now apply Hno in Hh|].
    destruct (C44_dump_refused w l2 fetch2 a2 s None S2 E2 Hne) as (e2 & -> & _).
    { intros n addr m Hh. destruct (H2 _ _ Hh) as [(q & nd & Eq & Hq & _)|[F _]]; [|discriminate F]. cbn [app] in Eq. subst q. now apply Hno in Hq. }
    cbn [fst snd]. split; [reflexivity|]. split; intros F; discriminate F.
Qed.
Print Assumptions C90_dump.

(** ... and extracting one or the other in empty directories gives the same tree. *)
Theorem C90_extract : forall l fetch a parts rc l2 fetch2 a2 w1 od1 out1 rc1 pol1 sched1 last1 g1 w2 od2 out2 rc2 pol2 sched2 last2 g2,
  ready l fetch a -> ready l2 fetch2 a2 -> In [] parts -> repacked l fetch (one_asked parts rc) [] l2 fetch2 ->
  tidy (w_fs w1) -> outdir (w_fs w1) (base_of w1 od1) out1 -> (forall p, p <> [] -> h_names (w_fs w1) (out1 ++ p) = None) ->
  tidy (w_fs w2) -> outdir (w_fs w2) (base_of w2 od2) out2 -> (forall p, p <> [] -> h_names (w_fs w2) (out2 ++ p) = None) ->
  extract_cmd w1 a od1 [] None None rc1 pol1 sched1 last1 = (g1, Ok tt) ->
  extract_cmd w2 a2 od2 [] None None rc2 pol2 sched2 last2 = (g2, Ok tt) ->
  forall p, p <> [] -> same_at g1 (out1 ++ p) g2 (out2 ++ p).
Proof.
  intros l fetch a parts rc l2 fetch2 a2 w1 od1 out1 rc1 pol1 sched1 last1 g1 w2 od2 out2 rc2 pol2 sched2 last2 g2
    R1 R2 Hin [H1 H2] T1 O1 N1 T2 O2 N2 X1 X2 p Hp. rewrite cmd_range in X1, X2.
  assert (Hpl : forall b rc pol, plain_list (x_files (mkConfig [] b rc pol))) by (intros ? ? ? s []).
  pose proof (part_step l fetch a _ out1 R1 (Hpl _ _ _) (w_fs w1) g1 _ sched1 last1 _ T1 O1 (empty_holds l fetch (w_fs w1) out1 N1) X1 eq_refl p Hp) as [A1 B1].
  pose proof (part_step l2 fetch2 a2 _ out2 R2 (Hpl _ _ _) (w_fs w2) g2 _ sched2 last2 _ T2 O2 (empty_holds l2 fetch2 (w_fs w2) out2 N2) X2 eq_refl p Hp) as [A2 B2].
  assert (Hall : forall l' b rc pol p nd, has l' p nd -> False \/ asked (x_files (mkConfig [] b rc pol)) (x_recurse (mkConfig [] b rc pol)) p nd) by (intros; right; now left).
  unfold same_at. destruct (has_dec l fetch a R1 p) as [[nd Hh]|Hno].
  - destruct (H1 _ _ Hh) as (nd2 & Hh2 & Hs); [exists []; split; [exact Hin|now left]|]. cbn [app] in Hh2.
    pose proof (A1 nd Hh (Hall _ _ _ _ _ _ Hh)) as S1. pose proof (A2 nd2 Hh2 (Hall _ _ _ _ _ _ Hh2)) as S2.
    unfold is_shown, same_thing in *. destruct (fst nd) as [|size addr|t].
    + rewrite S1. now rewrite Hs in S2.
    + destruct S1 as (data & Hf & i & Ei & Di). destruct Hs as (data' & addr2 & Hf' & E2 & Hf2). rewrite E2 in S2. destruct S2 as (data2 & Hf3 & S2).
      rewrite Ei, Di. congruence.
    + destruct S1 as [m Em]. rewrite Em. now rewrite Hs in S2.
  - destruct (h_names g1 (out1 ++ p)) as [n|] eqn:E1; [destruct B1 as (nd & Hh & _); [congruence|now apply Hno in Hh]|].
    destruct (h_names g2 (out2 ++ p)) as [n|] eqn:E2; [|reflexivity]. destruct B2 as (nd & Hh & _); [congruence|].
    destruct (H2 _ _ Hh) as [(q & nd1 & Eq & Hq & _)|[_ [t Et]]]; [cbn [app] in Eq; subst q; now apply Hno in Hq|].
    symmetry in Et. apply app_eq_nil in Et as [Et _]. easy.
Qed.
Print Assumptions C90_extract.

(** Times are not kept: every file and link of the new archive has the time of the extraction. *)
Theorem C90_times : forall l fetch a od rc w files w2 out o v arg P fuel m a2, ready l fetch a ->
  tidy (w_fs w) -> outdir (w_fs w) (base_of w od) out -> (forall p, p <> [] -> h_names (w_fs w) (out ++ p) = None) ->
  plain_list files -> in_parts a od rc w [files] w2 ->
  create_of w2 o v arg out P -> can_read v out -> true_times v -> (forall p nd, has l p nd -> (length p < fuel)%nat) -> (0 < fuel)%nat ->
  create fuel w2 true o = ([Opened m; Written a2], Ok tt) -> N.of_nat (length (a_recs a2)) < 2^32 ->
  exists l2 contents, ready l2 (fetch_of contents) a2 /\ repacked l fetch (asked files rc) P l2 (fetch_of contents) /\
    forall p nd2, has l2 p nd2 -> fst nd2 <> KDir -> m_mtime (snd nd2) = as_u64 (h_now (w_fs w) / 1000000000).
Proof.
  intros l fetch a od rc w files w2 out o v arg P fuel m a2 Hr Ht Ho He Hpl Hin Hco Hc Htt Hfuel H0 Hrun Hn.
  destruct (C90_repacked l fetch a od rc w [files] w2 out o v arg P fuel Hr Ht Ho He) as (m' & a2' & E & H2); auto.
  { intros f [<-|[]]. exact Hpl. }
  rewrite Hrun in E. injection E as <- <-. destruct (H2 Hn) as (l2 & contents & R2 & [Q1 Q2] & Hm). exists l2, contents. split; [exact R2|].
  assert (Hs : forall q nd, one_asked [files] rc q nd <-> asked files rc q nd).
  { intros q nd. split; [intros (f & [<-|[]] & H); exact H|intros H; exists files; split; [now left|exact H]]. }
  split.
  - split; [intros q nd K1 K2; apply Q1; [exact K1|now apply Hs]|]. intros p nd2 K. destruct (Q2 p nd2 K) as [(q & nd & K1 & K2 & K3 & K4)|K']; [left|now right].
    exists q, nd. split; [exact K1|]. split; [exact K2|]. split; [now apply Hs|exact K4].
  - intros p nd2 Hh Hk. destruct (Q2 p nd2 Hh) as [(q & nd & -> & K1 & K2 & K3)|[F _]]; [|easy].
    pose proof (has_nonempty _ _ _ K1) as Hq. destruct (Hm q nd2 Hq Hh) as (_ & _ & _ & ->).
    inversion Hin as [|w0 f0 parts0 w1 w2' pol sched last g t Hx Ef Ec Hrest]; subst. inversion Hrest; subst.
    assert (Ev : w_fs v = later g t). { destruct Hco as [_ _ _ _ _ _ C7 _ _ _ _]. unfold entered in C7. destruct (o_base o); [destruct C7 as [_ ->]; exact Ef|subst v; exact Ef]. }
    assert (Hp : holds_part l fetch (w_fs v) out (one_asked [files] rc)).
    { destruct (parts_hold l fetch a od rc Hr [files] w w2 Hin out _ Ht Ho (empty_holds l fetch (w_fs w) out He)) as (_ & _ & Hp2); [intros f [<-|[]]; exact Hpl|].
      replace (w_fs v) with (w_fs w2) by congruence. intros p Hne. destruct (Hp2 p Hne) as [A B]. split; [intros x H1 H3; apply A; [exact H1|now right]|].
      intros Hx'. destruct (B Hx') as (x & H1 & [[]|H3]). exists x. auto. }
    destruct (Hp q Hq) as [A _]. specialize (A nd K1 K2). unfold is_shown, same_thing in *.
    assert (Hx' : h_names g (out ++ q) <> None /\ h_names g (out ++ q) <> Some HDir).
    { rewrite Ev in A. cbn [later h_names] in A. destruct (fst nd) as [|sz ad|tg]; [easy| |].
      - destruct A as (d & _ & i & Ei & _). cbn [later h_names] in Ei. rewrite Ei. split; discriminate.
      - destruct A as [mm Em]. cbn [later h_names] in Em. rewrite Em. split; discriminate. }
    destruct Hx' as [X1 X2]. destruct (time_some g (out ++ q) X1) as [t1 Ht1].
    assert (Et : time_of (w_fs v) (out ++ q) = Some t1) by (rewrite Ev; exact Ht1). rewrite (Htt _ _ Et).
    rewrite cmd_range in Hx. destruct (C87_times _ _ _ _ _ _ _ _ (td_next _ Ht) Hx (out ++ q) t1 X2 Ht1) as [F|F]; [|now rewrite F].
    unfold time_of in F. rewrite (He q Hq) in F. discriminate F.
Qed.
Print Assumptions C90_times.

(** ** A case: the file "f" of 1000000 s extracted in /t/out at 1100000 s, archived again from there. *)
Definition r_time (f : hostfs) (q : path) : Z := match time_of f q with Some t => (t / 1000000000)%Z | None => 0%Z end.
Definition r_world (f : hostfs) (cwd : path) : world :=
  mkWorld f (fun q => FsAdder.mkAttr 5 6 33188 (r_time f q) false true) (fun q => if path_eqb' q at_out then Some [b "f"] else Some []) cwd.
Definition r_opts : create_opts := mkOpts false (b "new.arx") None (Some (b "out")) [b "."] None true None false false.

Example C90_meets_hypotheses : exists g w2 m a2,
  in_parts (u_arx 1000000 (b "old")) (Some (b "./out")) false (u_world (u_time 1100000)) [[]] w2 /\ w_fs w2 = later g 5 /\
  create_of w2 r_opts (r_world (w_fs w2) at_out) (b ".") at_out [] /\ can_read (r_world (w_fs w2) at_out) at_out /\
  true_times (r_world (w_fs w2) at_out) /\ (forall p nd, has (u_list 1000000) p nd -> (length p < 3)%nat) /\
  create 3 w2 true r_opts = ([Opened m; Written a2], Ok tt) /\
  a_recs a2 = [mkRec (b "f") 0 5 6 33188 1100000 (RFile (mkAddr 1 0) 3)] /\ a_fetch a2 (mkAddr 1 0) = Found (b "old").
Proof.
  destruct (extract_cmd (u_world (u_time 1100000)) (u_arx 1000000 (b "old")) (Some (b "./out")) [] None None false Error idle all_turns) as [g r] eqn:E.
  assert (Er : r = Ok tt) by (pose proof (f_equal snd E) as F; vm_compute in F; symmetry; exact F). subst r.
  assert (Hin : in_parts (u_arx 1000000 (b "old")) (Some (b "./out")) false (u_world (u_time 1100000)) [[]] (r_world (later g 5) at_t)).
  { refine (parts_more _ _ _ _ _ _ (r_world (later g 5) at_t) _ Error idle all_turns g 5%Z E eq_refl eq_refl (parts_none _ _ _ _)). }
  exists g, (r_world (later g 5) at_t).
  destruct (u_dest 1100000) as (D1 & D2 & D3).
  destruct (parts_hold _ _ _ _ _ (u_ready 1000000 (b "old")) _ _ _ Hin at_out _ D1 D2 (empty_holds (u_list 1000000) (u_fetch (b "old")) _ at_out D3)) as (_ & _ & Hp); [intros f [<-|[]] s []|].
  cbn [w_fs r_world] in Hp.
  assert (Hdir : h_names g at_out = Some HDir) by (pose proof (f_equal (fun x => h_names (fst x) at_out) E) as F; vm_compute in F; symmetry; exact F).
  assert (Hhome : h_names g at_t = Some HDir) by (pose proof (f_equal (fun x => h_names (fst x) at_t) E) as F; vm_compute in F; symmetry; exact F).
  assert (Hnew : h_names g (at_t ++ [b "new.arx"]) = None) by (pose proof (f_equal (fun x => h_names (fst x) (at_t ++ [b "new.arx"])) E) as F; vm_compute in F; symmetry; exact F).
  assert (Hrun : exists m a2, create 3 (r_world (later g 5) at_t) true r_opts = ([Opened m; Written a2], Ok tt) /\
    a_recs a2 = [mkRec (b "f") 0 5 6 33188 1100000 (RFile (mkAddr 1 0) 3)] /\ a_fetch a2 (mkAddr 1 0) = Found (b "old")).
  { replace g with (fst (g, Ok tt : res unit)) by reflexivity. rewrite <- E. clear. eexists. eexists. split; [vm_compute; reflexivity|]. split; vm_compute; reflexivity. }
  destruct Hrun as (m & a2 & Hrun & Hrecs & Hdata). exists m, a2.
  split; [exact Hin|]. split; [reflexivity|]. split; [|split; [|split; [|split; [|split; [exact Hrun|split; [exact Hrecs|exact Hdata]]]]]].
  - constructor; try reflexivity.
    + exists []. reflexivity.
    + exists at_t, (b "new.arx"). split; [reflexivity|].
      replace g with (fst (g, Ok tt : res unit)) by reflexivity. rewrite <- E. clear. split; [eexists; vm_compute; reflexivity|]. intros (q & n & H). vm_compute in H. discriminate H.
    + split; [|reflexivity]. replace g with (fst (g, Ok tt : res unit)) by reflexivity. rewrite <- E. clear. vm_compute. reflexivity.
    + split; vm_compute; reflexivity.
    + constructor.
  - assert (Hf : forall p, p <> [] -> h_names g (at_out ++ p) <> None -> p = [b "f"]).
    { intros p Hne Hn. destruct (Hp p Hne) as [_ B]. destruct (B Hn) as (nd & H & _). now apply u_has in H. }
    assert (Hyes : exists i, h_names g (at_out ++ [b "f"]) = Some (HFile i)).
    { destruct (Hp [b "f"]) as [A _]; [discriminate|]. destruct (A (KFile 3 (mkAddr 1 0), mkMeta 0 0 420 1000000)) as (d & _ & i & Ei & _).
      - now apply u_has.
      - right. exists []. split; [now left|now left].
      - exists i. exact Ei. }
    destruct Hyes as [i Hi]. constructor.
    + intros p [->|H].
      * exists [b "f"]. split; [reflexivity|]. split; [repeat constructor; intros []|]. intros n. cbn [w_fs r_world later h_names app]. split.
        -- intros [<-|[]]. change (at_out ++ [b "f"]) with (at_out ++ [b "f"]) in Hi. rewrite Hi. discriminate.
        -- intros H. apply (Hf [n]) in H; [|discriminate]. injection H as ->. now left.
      * destruct p as [|y p]; [exists [b "f"]|].
        -- split; [reflexivity|]. split; [repeat constructor; intros []|]. intros n. cbn [w_fs r_world later h_names app]. split.
           ++ intros [<-|[]]. rewrite Hi. discriminate.
           ++ intros H'. apply (Hf [n]) in H'; [|discriminate]. injection H' as ->. now left.
        -- exfalso. cbn [w_fs r_world later h_names] in H. assert (E' : y :: p = [b "f"]) by (apply Hf; [discriminate|rewrite H; discriminate]). rewrite E', Hi in H. discriminate H.
    + intros p j _ _. split; reflexivity.
  - intros q t Ht. cbn [w_attr w_fs r_world FsAdder.at_mtime] in *. unfold r_time. now rewrite Ht.
  - intros p nd H. apply u_has in H as [-> _]. cbn [length]. lia.
Qed.
