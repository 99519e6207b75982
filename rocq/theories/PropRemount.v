(** C83: converting an archive by mounting it and archiving the mount (Changelog of arx 0.3.0). *)
From Verif Require Export RemountFacts PropCli PropSame.

(** [arx create ARG], where ARG leads to the directory [M] and stands for [P] in the new archive. *)
Record create_of (w : world) (o : create_opts) (w' : world) (arg : bytes) (M P : path) : Prop := {
  co_compressions : o_list_compressions o = false;
  co_no_list : o_file_list o = None;
  co_infiles : o_infiles o = [arg];
  co_recurse : o_recurse o = true;
  co_concat : exists g, parse_concat g = Some (o_concat o);
  co_out : exists d x, from_root w (o_out o) = d ++ [x] /\ is_directory w d /\ (leads_to_something w (o_out o) -> o_force o = true);
  co_base : entered w (o_base o) w';
  co_stands : stands_for arg (pieces (match o_prefix o with Some p => p | None => [] end) ++ P);
  co_utf8 : forallb utf8 (pieces arg) = true;
  co_path : Forall ordinary P;
  co_leads : look_str w' true arg = At M HDir }.

(** The archive holds the entries of the first below [P], and else only directories above them. *)
Definition converted (l : list entry) (fetch : caddr -> fetched) (rd P : path) (l2 : list entry) (fetch2 : caddr -> fetched) : Prop :=
  (forall q nd, q <> [] -> has l (rd ++ q) nd -> exists nd2, has l2 (P ++ q) nd2 /\ carried fetch fetch2 nd nd2) /\
  (forall p nd2, has l2 p nd2 ->
     (exists q nd, q <> [] /\ p = P ++ q /\ has l (rd ++ q) nd /\ carried fetch fetch2 nd nd2) \/
     (fst nd2 = KDir /\ exists t, P = p ++ t)).

Theorem C83_converted : forall l fetch a root rd w o w' arg M P fuel,
  mount_of l fetch a root rd -> whole l fetch -> narrow a -> mount_seen a root w' M -> create_of w o w' arg M P ->
  (forall p nd, has l p nd -> (length p < fuel)%nat) -> (0 < fuel)%nat ->
  exists m a2, create fuel w true o = ([Opened m; Written a2], Ok tt) /\
    (N.of_nat (length (a_recs a2)) < 2^32 -> exists l2 contents,
       small l2 /\ archive_of l2 (fetch_of contents) a2 /\ converted l fetch rd P l2 (fetch_of contents)).
Proof.
  intros l fetch a root rd w o w' arg M P fuel HM HW Hnar Hseen [C1 C2 C3 C4 C5 C6 C7 C8 C9 C10 C11] Hfuel H0.
  pose proof (seen_agrees l fetch a root rd w' M HM HW Hnar Hseen) as HA.
  assert (Hdec : forall q, q <> [] -> (exists nd, has l (rd ++ q) nd) \/ forall nd, ~ has l (rd ++ q) nd).
  { intros q Hne. destruct (C63_resolves_every_path l fetch a root rd [] fs_new q HM (whole_showable l fetch HW) (served_new a root)) as (h & s & out & Hr).
    pose proof (C63_resolution _ _ _ _ _ _ _ _ _ HM (whole_showable l fetch HW) Hr) as Ho. destruct out as [ino k|e].
    - destruct Ho as [(-> & _)|(_ & _ & nd & Hh & _)]; [easy|]. left. eauto.
    - right. destruct e; try contradiction; exact (proj1 Ho). }
  assert (Hd : forall p nd, has l p nd -> (length p <= fuel - 1)%nat) by (intros p nd Hh; apply Hfuel in Hh; lia).
  pose proof (agrees_tree l fetch rd w' M (fuel - 1) HW HA Hd Hdec) as HT.
  set (x := mkInput arg M HDir P (fuel - 1)).
  assert (Hp : proper w o w' [x]).
  { constructor; auto.
    - constructor; [|constructor]. split; [exact C8|]. split; [exact C9|]. split; [exact C10|]. split; [exact C11|exact HT].
    - repeat constructor. }
  destruct (C64_create fuel w o w' [x] Hp) as (m & a2 & E & H2); [constructor; [cbn [in_depth x]; lia|constructor]|].
  exists m, a2. split; [exact E|]. intros Hn. destruct (H2 Hn) as (l2 & contents & S2 & E2 & [A1 A2]). exists l2, contents. split; [exact S2|]. split; [exact E2|].
  assert (Hat : forall q n, q <> [] -> at_input w' x q n <-> h_names (w_fs w') (M ++ q) = Some n).
  { intros [|y q] n Hne; [easy|]. cbn [at_input x in_node in_root]. split; [now intros [_ H]|intros H; split; [reflexivity|exact H]]. }
  split.
  - intros q nd Hne Hh. destruct (ag_some _ _ _ _ _ HA q nd Hne Hh) as (n & Hn' & _).
    destruct (A1 x q n) as (nd2 & Hh2 & Hm); [now left|now apply Hat|cbn [x in_path]; intros E0; apply app_eq_nil in E0 as [_ E0]; easy|].
    exists nd2. split; [exact Hh2|]. eapply agrees_carried; eauto.
  - intros p nd2 Hh. destruct (A2 p nd2 Hh) as [(y & q & n & [<-|[]] & -> & Hq & Hm)|(-> & _ & y & z & t & [<-|[]] & Ep)].
    + cbn [x in_path in_root] in *. destruct q as [|z q].
      * right. cbn [at_input x in_node] in Hq. subst n. split; [apply Hm|]. exists []. now rewrite !app_nil_r.
      * left. apply Hat in Hq; [|discriminate]. destruct (Hdec (z :: q)) as [[nd Hnd]|Hno]; [discriminate| |].
        -- exists (z :: q), nd. split; [discriminate|]. split; [reflexivity|]. split; [exact Hnd|].
           eapply agrees_carried; eauto. discriminate.
        -- rewrite (ag_none _ _ _ _ _ HA (z :: q)) in Hq; [discriminate Hq|discriminate|exact Hno].
    + right. split; [reflexivity|]. cbn [x in_path] in Ep. eauto.
Qed.
Print Assumptions C83_converted.

(** Archived from inside of the mount point ([-C MNT] and "."), [arx list] and [arx dump] answer as before. *)
Theorem C83_listing : forall l fetch a l2 fetch2 a2, small l -> archive_of l fetch a -> small l2 -> archive_of l2 fetch2 a2 ->
  converted l fetch [] [] l2 fetch2 -> list_cmd a2 None = list_cmd a None.
Proof.
  intros l fetch a l2 fetch2 a2 S1 E1 S2 E2 [H1 H2].
  destruct (C42_plain_listing l fetch a S1 E1) as (ps & P1 & P2 & P3). destruct (C42_plain_listing l2 fetch2 a2 S2 E2) as (ps2 & Q1 & Q2 & Q3).
  rewrite P3, Q3. do 2 f_equal. rewrite <- (map_map fst join ps), <- (map_map fst join ps2). f_equal.
  assert (Hs : forall l, StronglySorted path_lt l -> NoDup l).
  { intros k Hk. induction Hk as [|p r Hr IH Hall]; constructor; [|exact IH]. intros Hi. rewrite Forall_forall in Hall. specialize (Hall _ Hi).
    unfold path_lt in Hall. rewrite (proj2 (path_cmp_eq p p) eq_refl) in Hall. discriminate Hall. }
  apply (sorted_unique path_lt); [|apply NoDup_Permutation; auto|exact Q1|exact P1].
  - intros p q Hp Hq. unfold path_lt in *. rewrite path_cmp_antisym, Hp in Hq. discriminate Hq.
  - intros p. rewrite !in_map_iff. split; intros ((p' & nd) & <- & Hi); cbn [fst].
    + apply Q2 in Hi. pose proof (has_nonempty _ _ _ Hi) as Hne. destruct (H2 _ _ Hi) as [(q & nd' & _ & -> & Hh & _)|[_ [t E]]].
      * cbn [app] in *. exists (q, nd'). split; [reflexivity|]. now apply P2.
      * symmetry in E. apply app_eq_nil in E as [E _]. easy.
    + apply P2 in Hi. pose proof (has_nonempty _ _ _ Hi) as Hne. destruct (H1 p' nd Hne Hi) as (nd2 & Hh & _). exists (p', nd2). split; [reflexivity|]. now apply Q2.
Qed.
Print Assumptions C83_listing.

Theorem C83_dump : forall w l fetch a l2 fetch2 a2 s, small l -> archive_of l fetch a -> small l2 -> archive_of l2 fetch2 a2 ->
  converted l fetch [] [] l2 fetch2 -> whole l fetch -> pieces s <> [] ->
  fst (dump w a2 s None) = fst (dump w a s None) /\ (snd (dump w a2 s None) = Ok tt <-> snd (dump w a s None) = Ok tt).
Proof.
  intros w l fetch a l2 fetch2 a2 s S1 E1 S2 E2 [H1 H2] HW Hne.
  assert (Hd : (exists n addr m, has l (pieces s) (KFile n addr, m)) \/ (forall n addr m, ~ has l (pieces s) (KFile n addr, m))).
  { destruct (C42_plain_listing l fetch a S1 E1) as (ps & _ & P2 & _).
    assert (Hx : forall ps : list (path * node), (exists nd, In (pieces s, nd) ps) \/ forall nd, ~ In (pieces s, nd) ps).
    { clear. induction ps as [|[p nd] ps [[nd' IH]|IH]]; [right; easy|left; exists nd'; now right|].
      destruct (path_eqb' (pieces s) p) eqn:Ep; [apply path_eqb'_true in Ep; left; exists nd; left; congruence|].
      right. intros nd' [E|Hi]; [|now apply IH in Hi]. injection E as -> _. rewrite (proj2 (path_eqb'_spec _ _) eq_refl) in Ep. discriminate Ep. }
    destruct (Hx ps) as [[[k m] Hi]|Hno].
    - apply P2 in Hi. destruct k as [|n addr|t]; [|left; eauto|]; right; intros n' addr' m' Hh; pose proof (has_fun _ _ _ _ Hi Hh) as E; discriminate E.
    - right. intros n addr m Hh. apply P2 in Hh. now apply Hno in Hh. }
  destruct Hd as [(n & addr & m & Hh)|Hno].
  - destruct (HW _ _ Hh) as (_ & _ & _ & data & Hf & _). destruct (H1 _ _ Hne Hh) as ([k m2] & Hh2 & _ & _ & _ & _ & addr2 & Ek & Hf2). cbn [fst app] in *. subst k.
    rewrite Hf in Hf2.
    rewrite (C44_dump_file w l fetch a s n addr m data None S1 E1 Hne (or_introl eq_refl) Hh Hf).
    rewrite (C44_dump_file w l2 fetch2 a2 s n addr2 m2 data None S2 E2 Hne (or_introl eq_refl) Hh2 Hf2). split; [reflexivity|tauto].
  - destruct (C44_dump_refused w l fetch a s None S1 E1 Hne Hno) as (e & -> & _).
    destruct (C44_dump_refused w l2 fetch2 a2 s None S2 E2 Hne) as (e2 & -> & _).
    { intros n addr m Hh. destruct (H2 _ _ Hh) as [(q & nd & _ & Eq & Hq & _ & _ & _ & _ & Hk)|[E _]]; [|discriminate E].
      cbn [app] in Eq, Hq. subst q. destruct nd as [[|n' addr'|t] m']; cbn [fst] in Hk; [discriminate Hk|now apply Hno in Hq|discriminate Hk]. }
    split; [reflexivity|]. cbn [snd]. split; intros E; discriminate E.
Qed.
Print Assumptions C83_dump.

(** The hypotheses are met: the demo archive mounted on /h/m, archived with "arx create -C m .". *)
Definition mnt_names : list (path * hnode) :=
  let m x := b "h" :: b "m" :: x in
  [([b "h"], HDir); (m [], HDir); (m [b "a"], HDir); (m [b "l"], HLink (b "a/b") 1234567%Z); (m [b "a"; b "b"], HDir);
   (m [b "a"; b "z"], HFile 1); (m [b "a"; b "b"; b "f.txt"], HFile 0)].
Definition mnt_attr (q : path) : FsAdder.attr :=
  match lookup_name mnt_names q with
  | Some (HFile _) => FsAdder.mkAttr 1001 100 33060 1234567%Z false true
  | Some (HLink _ _) => FsAdder.mkAttr 1001 100 41252 1234567%Z false true
  | _ => FsAdder.mkAttr 1000 1000 16749 0%Z false true
  end.
Definition mnt_list (q : path) : option (list bytes) :=
  if path_eqb' q [b "h"; b "m"] then Some [b "a"; b "l"]
  else if path_eqb' q [b "h"; b "m"; b "a"] then Some [b "b"; b "z"]
  else if path_eqb' q [b "h"; b "m"; b "a"; b "b"] then Some [b "f.txt"]
  else Some [].
Definition mnt_fs : hostfs := host_of mnt_names [b "hello"; b "xyz"].
Definition mnt_world (cwd : path) : world := mkWorld mnt_fs mnt_attr mnt_list cwd.
Definition mnt : path := [b "h"; b "m"].
Definition o_mnt : create_opts := mkOpts false (b "new.arx") None (Some (b "m")) [b "."] None true None false false.

Lemma spath_inv store s p : spath store s p -> exists e, nth_error store s = Some e /\
  match se_parent e with None => p = [se_name e] | Some d => exists q, spath store d q /\ p = q ++ [se_name e] end.
Proof. intros H. destruct H as [s e He Hp|s e d q He Hp Hq]; exists e; (split; [exact He|]); rewrite Hp; eauto. Qed.

Definition demo_nodes : list (path * node) :=
  [([b "a"], (KDir, default_dir_meta)); ([b "a"; b "b"], (KDir, default_dir_meta)); ([b "a"; b "b"; b "f.txt"], (KFile 5 (mkAddr 1 0), d_meta));
   ([b "l"], (KLink (b "a/b"), d_meta)); ([b "a"; b "z"], (KFile 3 (mkAddr 1 1), d_meta))].
Lemma demo_exact p nd : has demo p nd <-> In (p, nd) demo_nodes.
Proof.
  unfold has, stored. set (st := cs_store (after demo)).
  assert (Est : st = [mkSentry (b "a") None KDir default_dir_meta; mkSentry (b "b") (Some 0%nat) KDir default_dir_meta;
    mkSentry (b "f.txt") (Some 1%nat) (KFile 5 (mkAddr 1 0)) d_meta; mkSentry (b "l") None (KLink (b "a/b")) d_meta;
    mkSentry (b "z") (Some 0%nat) (KFile 3 (mkAddr 1 1)) d_meta]) by (vm_compute; reflexivity).
  clearbody st. subst st. set (st := [_; _; _; _; _]).
  assert (S0 : forall q, spath st 0 q <-> q = [b "a"]).
  { intros q. split; [intros H; apply spath_inv in H as (e & He & H); injection He as <-; exact H|]. intros ->.
    now apply (spath_top st 0 (mkSentry (b "a") None KDir default_dir_meta)). }
  assert (S1 : forall q, spath st 1 q <-> q = [b "a"; b "b"]).
  { intros q. split.
    - intros H. apply spath_inv in H as (e & He & H). injection He as <-. destruct H as (q' & H & ->). now apply S0 in H as ->.
    - intros ->. apply (spath_sub st 1 (mkSentry (b "b") (Some 0%nat) KDir default_dir_meta) 0 [b "a"]); [reflexivity|reflexivity|now apply S0]. }
  split.
  - intros (s & e & He & Hp & ->). apply spath_inv in Hp as (e' & He' & Hp). rewrite He in He'. injection He' as <-.
    destruct s as [|[|[|[|[|s]]]]]; [injection He as <-..|destruct s; discriminate He]; cbn [se_parent se_name se_kind se_meta] in *.
    + subst p. now left.
    + destruct Hp as (q & Hq & ->). apply S0 in Hq as ->. right. now left.
    + destruct Hp as (q & Hq & ->). apply S1 in Hq as ->. do 2 right. now left.
    + subst p. do 3 right. now left.
    + destruct Hp as (q & Hq & ->). apply S0 in Hq as ->. do 4 right. now left.
  - intros [E|[E|[E|[E|[E|[]]]]]]; injection E as <- <-.
    + exists 0%nat. eexists. split; [reflexivity|]. split; [now apply S0|reflexivity].
    + exists 1%nat. eexists. split; [reflexivity|]. split; [now apply S1|reflexivity].
    + exists 2%nat. eexists. split; [reflexivity|]. split; [|reflexivity]. apply (spath_sub st 2 (mkSentry (b "f.txt") (Some 1%nat) (KFile 5 (mkAddr 1 0)) d_meta) 1 [b "a"; b "b"]); [reflexivity|reflexivity|now apply S1].
    + exists 3%nat. eexists. split; [reflexivity|]. split; [|reflexivity]. now apply (spath_top st 3 (mkSentry (b "l") None (KLink (b "a/b")) d_meta)).
    + exists 4%nat. eexists. split; [reflexivity|]. split; [|reflexivity]. apply (spath_sub st 4 (mkSentry (b "z") (Some 0%nat) (KFile 3 (mkAddr 1 1)) d_meta) 0 [b "a"]); [reflexivity|reflexivity|now apply S0].
Qed.

Lemma demo_whole : whole demo demo_fetch.
Proof.
  intros p nd Hh. apply demo_exact in Hh.
  assert (Ho : forall p, forallb (fun n => ordinaryb n && utf8 n) p = true -> forall n, In n p -> ordinary n /\ utf8 n = true).
  { intros q H n Hn. rewrite forallb_forall in H. specialize (H _ Hn). apply andb_true_iff in H as [H1 H2]. split; [now apply ordinaryb_spec|exact H2]. }
  destruct Hh as [E|[E|[E|[E|[E|[]]]]]]; injection E as <- <-; (split; [now apply Ho|]); (split; [reflexivity|]); cbn [fst].
  - exact I.
  - exact I.
  - split; [reflexivity|]. eexists. split; reflexivity.
  - split; [discriminate|]. split; reflexivity.
  - split; [reflexivity|]. eexists. split; reflexivity.
Qed.

Lemma mnt_cases q n : h_names mnt_fs (mnt ++ q) = Some n -> q <> [] -> exists nd, In (q, nd) demo_nodes.
Proof.
  intros H Hne. cbn [mnt_fs host_of h_names] in H. apply lookup_in in H. unfold mnt_names, mnt in H. cbn [app] in H.
  repeat (destruct H as [H|H]; [first [discriminate H | injection H as <- <-; first [now destruct Hne | eexists; unfold demo_nodes; cbn [In]; eauto 10]]|]). destruct H.
Qed.

Lemma mnt_seen cwd : mount_seen demo_arx (a_root demo_arx) (mnt_world cwd) mnt.
Proof.
  apply (agrees_seen demo demo_fetch demo_arx (a_root demo_arx) []); [exact demo_mount|exact demo_whole|reflexivity|]. constructor; cbn [app].
  - intros q Hne Hno. destruct (h_names (w_fs (mnt_world cwd)) (mnt ++ q)) as [n|] eqn:E; [|reflexivity]. exfalso.
    destruct (mnt_cases q n E Hne) as [nd Hi]. apply demo_exact in Hi. now apply Hno in Hi.
  - intros q nd _ Hh. apply demo_exact in Hh. assert (Hb : forall x m k, x = N.lor k (N.land (as_u16 m) 65389) -> forall i, N.testbit x i = N.testbit k i ||
      (N.testbit m i && (i <? 16) && negb ((i =? 1) || (i =? 4) || (i =? 7)))) by (intros x m k -> i; now rewrite N.lor_spec, perm_bits).
    destruct Hh as [E|[E|[E|[E|[E|[]]]]]]; injection E as <- <-; eexists; (split; [reflexivity|]); cbn zeta;
      do 3 (split; [reflexivity|]); (split; [apply Hb; reflexivity|]); cbn [fst]; try reflexivity; eexists; [split; [reflexivity|]; split; [reflexivity|]; split; reflexivity|reflexivity|split; [reflexivity|]; split; [reflexivity|]; split; reflexivity].
  - intros q Hq.
    assert (Hc : q = [] \/ q = [b "a"] \/ q = [b "a"; b "b"]).
    { destruct Hq as [Hq|[mt Hq]]; [now left|]. apply demo_exact in Hq. destruct Hq as [E|[E|[E|[E|[E|[]]]]]]; try discriminate E; injection E as <- <-; auto. }
    assert (Hin : forall q n names, (forall nd, In (q ++ [n], nd) demo_nodes -> In n names) -> (forall m, In m names -> exists nd, In (q ++ [m], nd) demo_nodes) ->
      In n names <-> exists nd, has demo (q ++ [n]) nd).
    { intros q0 n names H1 H2. split; [intros Hi; destruct (H2 n Hi) as [nd Hnd]; exists nd; now apply demo_exact|].
      intros [nd Hnd]. apply (H1 nd). now apply demo_exact. }
    destruct Hc as [->|[->| ->]]; eexists; (split; [reflexivity|]); (split; [repeat constructor|]); intros n; apply Hin.
    + intros nd Hnd. cbn [app] in Hnd. destruct Hnd as [E|[E|[E|[E|[E|[]]]]]]; try discriminate E; injection E as <- <-; cbn [In]; auto.
    + intros m [<-|[<-|[]]]; eexists; cbn [app]; unfold demo_nodes; cbn [In]; eauto 10.
    + intros nd Hnd. cbn [app] in Hnd. destruct Hnd as [E|[E|[E|[E|[E|[]]]]]]; try discriminate E; injection E as <- <-; cbn [In]; auto.
    + intros m [<-|[<-|[]]]; eexists; cbn [app]; unfold demo_nodes; cbn [In]; eauto 10.
    + intros nd Hnd. cbn [app] in Hnd. destruct Hnd as [E|[E|[E|[E|[E|[]]]]]]; try discriminate E; injection E as <- <-; cbn [In]; auto.
    + intros m [<-|[]]; eexists; cbn [app]; unfold demo_nodes; cbn [In]; eauto 10.
Qed.

Example C83_meets_hypotheses : exists m a2,
  mount_of demo demo_fetch demo_arx (a_root demo_arx) [] /\ whole demo demo_fetch /\ narrow demo_arx /\ mount_seen demo_arx (a_root demo_arx) (mnt_world mnt) mnt /\
  create_of (mnt_world [b "h"]) o_mnt (mnt_world mnt) (b ".") mnt [] /\ (forall p nd, has demo p nd -> (length p < 4)%nat) /\
  create 4 (mnt_world [b "h"]) true o_mnt = ([Opened m; Written a2], Ok tt) /\ N.of_nat (length (a_recs a2)) < 2^32 /\
  map (fun r => (r_name r, r_rights r)) (a_recs a2) = [(b "a", 16749); (b "l", 41252); (b "b", 16749); (b "z", 33060); (b "f.txt", 33060)].
Proof.
  eexists. eexists. split; [exact demo_mount|]. split; [exact demo_whole|]. split; [reflexivity|]. split; [apply mnt_seen|]. split.
  { constructor; try reflexivity.
    - exists []. reflexivity.
    - exists [b "h"], (b "new.arx"). split; [reflexivity|]. split; [eexists; vm_compute; reflexivity|]. intros (q & n & H). vm_compute in H. discriminate H.
    - split; [vm_compute; reflexivity|reflexivity].
    - split; vm_compute; reflexivity.
    - constructor. }
  split.
  { intros p nd Hh. apply demo_exact in Hh. destruct Hh as [E|[E|[E|[E|[E|[]]]]]]; injection E as <- <-; cbn [length]; lia. }
  split; [vm_compute; reflexivity|]. split; vm_compute; reflexivity.
Qed.

(** The permissions are not preserved: what was writable for its owner is not in the new archive. *)
Theorem C83_permissions_refuted : forall fetch fetch2 nd nd2, carried fetch fetch2 nd nd2 ->
  (forall k, In k [1; 4; 7] -> N.testbit (m_mode (snd nd2)) k = false) /\ (N.testbit (m_mode (snd nd)) 7 = true -> m_mode (snd nd2) <> m_mode (snd nd)).
Proof.
  intros fetch fetch2 nd nd2 (_ & _ & _ & H & _).
  assert (H' : forall k, In k [1; 4; 7] -> N.testbit (m_mode (snd nd2)) k = false).
  { intros k [<-|[<-|[<-|[]]]]; rewrite H, !andb_false_r, orb_false_r; destruct (fst nd); reflexivity. }
  split; [exact H'|]. intros Hw E. rewrite <- E, H' in Hw; [discriminate Hw|]. cbn [In]. auto.
Qed.
Print Assumptions C83_permissions_refuted.

Example C83_permissions_meets_hypotheses : exists fetch2 nd nd2, carried demo_fetch fetch2 nd nd2 /\ has demo [b "a"; b "z"] nd /\ N.testbit (m_mode (snd nd)) 7 = true.
Proof.
  destruct C83_meets_hypotheses as (m & a2 & H1 & H2 & H3 & H4 & H5 & H6 & E & Hn & _).
  destruct (C83_converted _ _ _ _ _ _ _ _ _ _ _ 4 H1 H2 H3 H4 H5 H6 (le_S _ _ (le_S _ _ (le_S _ _ (le_n _))))) as (m' & a2' & E' & H).
  assert (a2 = a2') as <- by (rewrite E in E'; injection E' as _ ->; reflexivity). destruct (H Hn) as (l2 & contents & _ & _ & C & _).
  assert (Hz : has demo [b "a"; b "z"] (KFile 3 (mkAddr 1 1), d_meta)) by (apply demo_exact; do 4 right; now left).
  destruct (C [b "a"; b "z"] _ (fun X => ltac:(discriminate X)) Hz) as (nd2 & _ & Hc). eexists. eexists. eexists. split; [exact Hc|]. split; [exact Hz|reflexivity].
Qed.
