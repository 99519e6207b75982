(** Lemmas for C84. *)
From Verif Require Export SpecPyWalk PropPython2 PropList.
From Verif Require Import OrderFacts.

Inductive steps (a : archive) : N * N -> list full_entry -> Prop :=
| steps_end it : py_next a it = (it, Ok None) -> steps a it []
| steps_more it it' e es : py_next a it = (it', Ok (Some e)) -> steps a it' es -> steps a it (e :: es).

Lemma nexts_steps a es : forall it,
  (forall k, py_nexts a k it = firstn k (map (fun e => Ok (Some e)) es) ++ repeat (Ok None) (k - length es)) -> steps a it es.
Proof.
  induction es as [|e es IH]; intros it H.
  - specialize (H 1%nat). cbn in H. destruct (py_next a it) as [it' r] eqn:E. injection H as ->. apply steps_end.
    assert (it' = it); [|now subst it'].
    unfold py_next in *. destruct (fst it =? snd it); [now injection E|]. destruct (get_entry_at_idx full_builder a (fst it)); discriminate E.
  - pose proof (H 1%nat) as H1. cbn in H1. destruct (py_next a it) as [it' r] eqn:E. injection H1 as ->.
    eapply steps_more; [exact E|]. apply IH. intros k. specialize (H (S k)). cbn [py_nexts] in H. rewrite E in H. cbn [map firstn app length] in H.
    injection H as H. replace (S k - S (length es))%nat with (k - length es)%nat in H by lia. exact H.
Qed.

Lemma steps_count a it es : steps a it es -> snd it = fst it + N.of_nat (length es).
Proof.
  induction 1 as [it E|it it' e es E Hs IH]; unfold py_next in E; destruct (fst it =? snd it) eqn:Eq.
  - apply N.eqb_eq in Eq. cbn. lia.
  - destruct (get_entry_at_idx full_builder a (fst it)); discriminate E.
  - discriminate E.
  - destruct (get_entry_at_idx full_builder a (fst it)); try discriminate E. injection E as <- <-. cbn [fst snd length] in *. lia.
Qed.

Lemma next_at a it it' e : py_next a it = (it', Ok (Some e)) -> get_entry_at_idx full_builder a (fst it) = Ok e.
Proof.
  unfold py_next. destruct (fst it =? snd it); [discriminate|]. destruct (get_entry_at_idx full_builder a (fst it)) as [e'| | |] eqn:E; try discriminate.
  now intros [= _ <-].
Qed.

Lemma common_idx i r c : create_common i r = Ok c -> c_idx c = i.
Proof.
  unfold create_common. destruct (r_parent r =? 0); cbn [bind]; [now intros [= <-]|].
  destruct (as_u32 (r_parent r) =? 0); cbn [bind]; [discriminate|]. now intros [= <-].
Qed.
Lemma full_idx a i e : get_entry_at_idx full_builder a i = Ok e -> py_idx e = i.
Proof.
  unfold get_entry_at_idx, create_entry. destruct (rec_at a i) as [r| | |]; cbn [bind]; try discriminate.
  destruct (r_payload r) eqn:Ep; cbn [full_builder b_file b_link b_dir]; try discriminate;
    destruct (create_common i r) as [c| | |] eqn:Ec; cbn [bind]; try discriminate; rewrite Ep; cbn [bind];
    intros E; injection E as <-; now apply common_idx in Ec.
Qed.

Lemma slashed_snoc p n : slashed (p ++ [n]) = slashed p ++ 47 :: n.
Proof. unfold slashed. rewrite map_app, concat_app. cbn [map concat]. now rewrite app_nil_r. Qed.

Lemma bytes_cmp_trans x y z : bytes_cmp x y = Lt -> bytes_cmp y z = Lt -> bytes_cmp x z = Lt.
Proof.
  revert y z. induction x as [|c x IH]; intros [|d y] [|e z]; cbn; try easy.
  destruct (N.compare_spec c d), (N.compare_spec d e); try easy; subst.
  - rewrite N.compare_refl. apply IH.
  - now rewrite (proj2 (N.compare_lt_iff _ _)).
  - now rewrite (proj2 (N.compare_lt_iff _ _)).
  - intros _ _. rewrite (proj2 (N.compare_lt_iff _ _)); [reflexivity|lia].
Qed.
Lemma lt_trans_path p q r : path_lt p q -> path_lt q r -> path_lt p r.
Proof.
  unfold path_lt. revert q r. induction p as [|x p IH]; intros [|y q] [|z r]; cbn; try easy.
  destruct (bytes_cmp x y) eqn:E1; try easy; destruct (bytes_cmp y z) eqn:E2; try easy.
  - apply bytes_cmp_eq in E1, E2. subst. rewrite (proj2 (bytes_cmp_eq z z) eq_refl). apply IH.
  - apply bytes_cmp_eq in E1. subst. now rewrite E2.
  - apply bytes_cmp_eq in E2. subst. now rewrite E1.
  - now rewrite (bytes_cmp_trans _ _ _ E1 E2).
Qed.

Section walk.
  Variables (l : list entry) (fetch : caddr -> fetched) (a : archive).
  Hypothesis (Hs : small l) (Ha : archive_of l fetch a) (Hread : readable l fetch).

  Lemma shown_idx e i p nd : shows a e i p nd -> py_idx e = i.
  Proof. unfold py_idx. destruct e as [[[c ad] sz]|[c t]|rg [c rg']]; cbn; destruct (fst nd); try easy; intros H; apply H. Qed.

  Definition walked (d : path) (it : N * N) (ns : list bytes) : Prop := exists fu ps out,
    (forall fuel, (fu <= fuel)%nat -> py_walk fuel a (slashed d) it = Ok out) /\
    StronglySorted path_lt (map fst ps) /\
    (forall p nd, In (p, nd) ps <-> has l p nd /\ exists n t, In n ns /\ p = d ++ n :: t) /\
    Forall2 (line_for l fetch) ps out.

  (* one entry *)
  Definition one (f : nat) (root : bytes) (e : full_entry) : res (list py_line) :=
    let? n := py_path e in
    let path := root ++ 47 :: n in
    (if py_is_file e then
       let? s := py_get_content a e in
       Ok [LFile path (stream_size s) (snd (stream_read s (N.min 100 (stream_size s))))]
     else if py_is_dir e then
       let? k := py_nb_children e in
       let? it2 := py_iter_entry e in
       let? inside := py_walk f a path it2 in
       Ok (LDir path k :: inside)
     else
       let? t := py_get_target e in
       Ok [LLink path t]).

  Lemma walk_more f root it it' e x : py_next a it = (it', Ok (Some e)) -> one f root e = Ok x ->
    py_walk (S f) a root it = let? rest := py_walk f a root it' in Ok (x ++ rest).
  Proof.
    intros E H. cbn [py_walk]. rewrite E. unfold one in H. destruct (py_path e) as [n| | |]; cbn [bind] in *; try discriminate H. now rewrite H.
  Qed.

  Lemma one_ok d n e i nd : has l (d ++ [n]) nd -> astored a i (d ++ [n]) nd -> get_entry_at_idx full_builder a i = Ok e ->
    (forall it2 , iterates a (d ++ [n]) it2 -> exists ns, (forall m, In m ns <-> exists nd, has l (d ++ [n] ++ [m]) nd) /\ NoDup ns /\ snd it2 = fst it2 + N.of_nat (length ns) /\ walked (d ++ [n]) it2 ns) ->
    exists fu ps out, (forall f, (fu <= f)%nat -> one f (slashed d) e = Ok out) /\
      StronglySorted path_lt (map fst ps) /\
      (forall p nd, In (p, nd) ps <-> has l p nd /\ exists t, p = d ++ n :: t) /\
      Forall2 (line_for l fetch) ps out.
  Proof.
    intros Hh Hst Hget Hbelow. destruct (Hread _ _ Hh) as [Hutf Hcont].
    assert (Hu : utf8 n = true) by (apply Hutf; rewrite in_app_iff; right; now left).
    destruct (archive_ok l fetch a Hs Ha) as (m & _ & _ & Ef & Hw & _).
    destruct (C58_attributes l fetch a i _ nd e Hs Ha Hst Hget) as (_ & (d' & n' & Ep & Hpath & _) & _ & _ & _ & _ & Hkind).
    apply app_inj_tail in Ep as [<- <-]. specialize (Hpath Hu).
    assert (Honly : fst nd <> KDir -> forall p nd', has l p nd' /\ (exists t, p = d ++ n :: t) <-> p = d ++ [n] /\ nd' = nd).
    { intros Hk p nd'. split.
      - intros [Hp [t ->]]. destruct t as [|z t].
        + split; [reflexivity|]. eapply has_fun; eauto.
        + change (n :: z :: t) with ([n] ++ z :: t) in Hp. rewrite app_assoc in Hp. destruct (has_ancestor l _ _ _ _ Hp) as [mt Hm]; [now destruct d|].
          exfalso. apply Hk. now rewrite (has_fun _ _ _ _ Hh Hm).
      - intros [-> ->]. split; [exact Hh|]. now exists []. }
    destruct nd as [[|size addr|t] mt]; cbn [fst snd] in *.
    - destruct Hkind as (K1 & K2 & K3 & (f0 & k0 & K4 & K5 & K6) & _).
      destruct e as [[[c ad] sz]|[c t]|rg [c rg']]; try discriminate K3. cbn [py_first_child py_nb_children py_iter_entry] in *. injection K4 as <-. injection K5 as <-.
      destruct (Hbelow (fst rg, fst rg + snd rg)) as (ns & Hns & Hnd & Hc & fu & ps & out & W1 & W2 & W3 & W4).
      { right. exists i, (GDir rg (c, rg')), (KDir, mt). auto. }
      exists fu, ((d ++ [n], (KDir, mt)) :: ps), (LDir (slashed (d ++ [n])) (snd rg) :: out). split; [|split; [|split]].
      + intros f Hf. unfold one. rewrite Hpath. cbn [bind py_is_file py_is_dir py_nb_children py_iter_entry]. rewrite <- slashed_snoc, (W1 f Hf). reflexivity.
      + cbn [map fst]. constructor; [exact W2|]. apply Forall_forall. intros p Hp. apply in_map_iff in Hp as ((p' & nd') & <- & Hp). apply W3 in Hp as [_ (m0 & t & _ & ->)].
        cbn [fst]. unfold path_lt. rewrite <- (app_nil_r (d ++ [n])) at 1. now rewrite path_cmp_app.
      + intros p nd'. cbn [In]. rewrite W3. split.
        * intros [E|[Hp (m0 & t & _ & ->)]]; [injection E as <- <-; split; [exact Hh|now exists []]|]. split; [exact Hp|]. exists (m0 :: t). now rewrite <- app_assoc.
        * intros [Hp [t ->]]. destruct t as [|z t]; [left; f_equal; eapply has_fun; eauto|]. right. split; [exact Hp|].
          exists z, t. split; [|now rewrite <- app_assoc]. apply Hns.
          destruct t as [|z' t]; [exists nd'; exact Hp|].
          change (n :: z :: z' :: t) with ([n; z] ++ z' :: t) in Hp. rewrite app_assoc in Hp. destruct (has_ancestor l _ _ _ _ Hp) as [mt' Hm]; [now destruct d|].
          exists (KDir, mt'). exact Hm.
      + constructor; [|exact W4]. cbn. split; [reflexivity|]. exists ns. split; [exact Hnd|]. split; [cbn [fst snd] in Hc; lia|].
        intros m0. rewrite Hns. now rewrite <- app_assoc.
    - destruct Hkind as (K1 & _ & _ & K4 & _). destruct e as [[[c ad] sz]|[c t]|rg [c rg']]; try discriminate K1. injection K4 as ->. destruct Hcont as [data Hdata].
      exists 0%nat, [(d ++ [n], (KFile size addr, mt))], [LFile (slashed (d ++ [n])) (N.of_nat (length data)) (firstn 100 data)]. split; [|split; [|split]].
      + intros f _. unfold one. rewrite Hpath. cbn [bind py_is_file py_get_content]. unfold py_content. rewrite Ef, Hdata. cbn [bind].
        rewrite <- slashed_snoc. unfold stream_read, stream_size, stream_left. cbn [sm_data sm_pos snd]. do 3 f_equal.
        unfold stream_size. cbn [sm_data]. change (skipn (N.to_nat 0) data) with data.
        destruct (N.le_gt_cases 100 (N.of_nat (length data))) as [Hle|Hle].
        * f_equal. lia.
        * rewrite (firstn_all2 (n:=100)) by lia. apply firstn_all2. lia.
      + repeat constructor.
      + intros p nd'. rewrite (Honly (fun E => ltac:(discriminate E))). cbn [In]. split; [intros [E|[]]; now injection E as <- <-|intros [-> ->]; now left].
      + repeat constructor. exists data. auto.
    - destruct Hkind as (_ & K2 & _ & K4 & _). destruct e as [[[c ad] sz]|[c t']|rg [c rg']]; try discriminate K2. injection K4 as ->.
      exists 0%nat, [(d ++ [n], (KLink t, mt))], [LLink (slashed (d ++ [n])) t]. split; [|split; [|split]].
      + intros f _. unfold one. rewrite Hpath. cbn [bind py_is_file py_is_dir py_get_target]. now rewrite <- slashed_snoc.
      + repeat constructor.
      + intros p nd'. rewrite (Honly (fun E => ltac:(discriminate E))). cbn [In]. split; [intros [E|[]]; now injection E as <- <-|intros [-> ->]; now left].
      + repeat constructor.
  Qed.

  Lemma walk_es d : (forall n it2, iterates a (d ++ [n]) it2 -> exists ns, (forall m, In m ns <-> exists nd, has l (d ++ [n] ++ [m]) nd) /\ NoDup ns /\ snd it2 = fst it2 + N.of_nat (length ns) /\ walked (d ++ [n]) it2 ns) ->
    forall es ns it, steps a it es -> Forall2 (fun e n => exists i nd, has l (d ++ [n]) nd /\ astored a i (d ++ [n]) nd /\ shows a e i (d ++ [n]) nd) es ns ->
    StronglySorted (fun x y => bytes_cmp x y = Lt) ns -> walked d it ns.
  Proof.
    intros Hbelow. induction es as [|e es IH]; intros ns it Hst HF Hso.
    - inversion HF; subst. inversion Hst; subst. exists 1%nat, [], []. split; [|split; [|split]].
      + intros [|f] Hf; [lia|]. cbn [py_walk]. now rewrite H.
      + constructor.
      + intros p nd. split; [intros []|]. intros [_ (n & t & [] & _)].
      + constructor.
    - inversion HF as [|x n es' ns' (i & nd & Hh & Has & Hsh) HF']; subst. inversion Hst as [|x it' e' es' Hn Hst']; subst.
      apply StronglySorted_inv in Hso as [Hso Hall]. rewrite Forall_forall in Hall.
      pose proof (next_at _ _ _ _ Hn) as Hget. pose proof (full_idx _ _ _ Hget) as Hi. rewrite (shown_idx _ _ _ _ Hsh) in Hi. subst i.
      destruct (one_ok d n e (fst it) nd Hh Has Hget (Hbelow n)) as (f1 & ps1 & out1 & O1 & O2 & O3 & O4).
      destruct (IH ns' it' Hst' HF' Hso) as (f2 & ps2 & out2 & P1 & P2 & P3 & P4).
      exists (S (max f1 f2)), (ps1 ++ ps2), (out1 ++ out2). split; [|split; [|split]].
      + intros [|f] Hf; [lia|]. rewrite (walk_more f _ it it' e out1 Hn); [|apply O1; lia]. rewrite P1 by lia. reflexivity.
      + rewrite map_app. apply strongly_sorted_app. split; [exact O2|]. split; [exact P2|]. intros p q Hp Hq.
        apply in_map_iff in Hp as ((p' & nd1) & <- & Hp). apply in_map_iff in Hq as ((q' & nd2) & <- & Hq). cbn [fst].
        apply O3 in Hp as [_ [t ->]]. apply P3 in Hq as [_ (n2 & t2 & Hn2 & ->)]. unfold path_lt. rewrite path_cmp_app. cbn [path_cmp]. now rewrite (Hall n2 Hn2).
      + intros p nd'. rewrite in_app_iff, O3, P3. split.
        * intros [[Hp [t ->]]|[Hp (n2 & t & Hi & ->)]]; (split; [exact Hp|]); [exists n, t|exists n2, t]; (split; [|reflexivity]); [now left|now right].
        * intros [Hp (n2 & t & [<-|Hi] & ->)]; [left|right]; (split; [exact Hp|]); eauto.
      + now apply Forall2_app.
  Qed.

  Lemma walk_dir D : (forall p nd, has l p nd -> (length p <= D)%nat) -> forall k d it, (D - length d <= k)%nat -> iterates a d it ->
    exists ns, (forall m, In m ns <-> exists nd, has l (d ++ [m]) nd) /\ NoDup ns /\ snd it = fst it + N.of_nat (length ns) /\ walked d it ns.
  Proof.
    intros HD. induction k as [|k IH]; intros d it Hk Hit; destruct (C54_children l fetch a d it Hs Ha Hit) as (es & ns & F & So & Hns & Hnx);
      pose proof (nexts_steps a es it Hnx) as Hst; pose proof (steps_count _ _ _ Hst) as Hc;
      (exists ns; split; [exact Hns|]; split; [|split; [rewrite Hc; f_equal; f_equal; clear -F; induction F; cbn [length]; congruence|]]).
    - clear -So. induction So as [|x r So IH Hall]; constructor; [|exact IH]. intros Hi. rewrite Forall_forall in Hall. specialize (Hall _ Hi). rewrite bytes_cmp_refl in Hall. discriminate Hall.
    - inversion F as [|e n es' ns' (i & nd & Hh & _) _]; subst.
      + apply (walk_es d) with (es := []); auto.
        intros n it2 [[E _]|(i & e & nd & Hast & _)]; [now destruct d|].
        assert (Hh : has l (d ++ [n]) nd) by (apply (archive_has l fetch a); auto; now exists i).
        apply HD in Hh. rewrite app_length in Hh. cbn in Hh. lia.
      + apply HD in Hh. rewrite app_length in Hh. cbn in Hh. lia.
    - clear -So. induction So as [|x r So IH Hall]; constructor; [|exact IH]. intros Hi. rewrite Forall_forall in Hall. specialize (Hall _ Hi). rewrite bytes_cmp_refl in Hall. discriminate Hall.
    - apply (walk_es d) with (es := es); auto. intros n it2 Hit2. destruct (IH (d ++ [n]) it2) as (ns2 & H1 & H2); [rewrite app_length; cbn; lia|exact Hit2|].
      exists ns2. split; [|exact H2]. intros m. rewrite H1. now rewrite <- app_assoc.
  Qed.
End walk.
