(** Look-ups and walks in an arbitrary table of records. *)
From Verif Require Import SpecHostile ReaderProofs.

Lemma at_in a i r : at_ (a_recs a) i = Some r -> In r (a_recs a) /\ i < N.of_nat (length (a_recs a)).
Proof.
  unfold at_. destruct (i <? N.of_nat (length (a_recs a))) eqn:E; [|discriminate].
  intros H. split; [now apply nth_error_In in H|now apply N.ltb_lt].
Qed.
Lemma at_some a i : i < N.of_nat (length (a_recs a)) -> exists r, at_ (a_recs a) i = Some r.
Proof.
  intros H. unfold at_. apply N.ltb_lt in H as E. rewrite E.
  destruct (nth_error (a_recs a) (N.to_nat i)) as [r|] eqn:En; [eauto|].
  apply nth_error_None in En. lia.
Qed.

(** The binary search of any comparator. *)
Lemma bsearch_any cmp fuel : forall left right, right - left < 2 ^ N.of_nat fuel ->
  match bsearch cmp fuel left right with
  | Ok (Some k) => left <= k < right /\ cmp k = Ok Eq
  | Ok None => True
  | Err e => exists k, left <= k < right /\ cmp k = Err e
  | Panic => exists k, left <= k < right /\ cmp k = Panic
  | Diverge => exists k, left <= k < right /\ cmp k = Diverge
  end.
Proof.
  induction fuel as [|n IH]; intros left right Hf; cbn [bsearch].
  - change (2 ^ N.of_nat 0) with 1 in Hf. destruct (left <? right) eqn:E; [apply N.ltb_lt in E; lia|exact I].
  - destruct (left <? right) eqn:E; [|exact I]. apply N.ltb_lt in E.
    set (mid := left + (right - left) / 2).
    assert (Hm : left <= mid < right).
    { unfold mid. pose proof (N.div_lt (right - left) 2 ltac:(lia) ltac:(lia)). lia. }
    assert (Hp : 2 ^ N.of_nat (S n) = 2 * 2 ^ N.of_nat n) by (rewrite Nat2N.inj_succ, N.pow_succ_r'; reflexivity).
    pose proof (N.div_mod (right - left) 2 ltac:(lia)) as Hd.
    pose proof (N.mod_lt (right - left) 2 ltac:(lia)) as Hl.
    destruct (cmp mid) as [[]|e| |] eqn:Ec; cbn [bind]; eauto.
    + specialize (IH (mid + 1) right ltac:(unfold mid in *; lia)).
      destruct (bsearch cmp n (mid + 1) right) as [[k|]|e| |]; auto;
        destruct IH as (IH1 & IH2); try (destruct IH2 as (IH2 & IH3); exists IH1); split; auto; lia.
    + specialize (IH left mid ltac:(unfold mid in *; lia)).
      destruct (bsearch cmp n left mid) as [[k|]|e| |]; auto;
        destruct IH as (IH1 & IH2); try (destruct IH2 as (IH2 & IH3); exists IH1); split; auto; lia.
Qed.

Lemma size_bound n : n < 2 ^ N.of_nat (S (N.size_nat n)).
Proof. rewrite Nat2N.inj_succ, N.pow_succ_r'. pose proof (size_nat_gt n). lia. Qed.

Lemma range_find_any a rg n :
  match range_find a rg n with
  | Ok (Some k) => k < snd rg /\ exists r, at_ (a_recs a) (fst rg + k) = Some r /\ r_name r = n
  | Ok None => True
  | Panic => exists k, k < snd rg /\ at_ (a_recs a) (fst rg + k) = None
  | _ => False
  end.
Proof.
  unfold range_find.
  pose proof (bsearch_any (fun k => compare_entry a n (fst rg + k)) (S (N.size_nat (snd rg))) 0 (snd rg)) as H.
  specialize (H ltac:(rewrite N.sub_0_r; apply size_bound)).
  destruct (bsearch _ _ 0 (snd rg)) as [[k|]|e| |]; auto; unfold compare_entry, rec_at in H.
  - destruct H as [H1 H2]. split; [lia|].
    destruct (at_ (a_recs a) (fst rg + k)) as [r|]; [|discriminate]. exists r. split; [reflexivity|].
    cbn [bind] in H2. assert (H3 : bytes_cmp (r_name r) n = Eq) by congruence. now apply bytes_cmp_eq in H3.
  - destruct H as (k & H1 & H2). destruct (at_ (a_recs a) (fst rg + k)); discriminate.
  - destruct H as (k & H1 & H2). exists k. split; [lia|]. destruct (at_ (a_recs a) (fst rg + k)); [discriminate|reflexivity].
  - destruct H as (k & H1 & H2). destruct (at_ (a_recs a) (fst rg + k)); discriminate.
Qed.

Lemma get_entry_in_sound {F L D} (B : builder F L D) a comps : forall rg e, get_entry_in B a rg comps = Ok e ->
  exists i, spelled a rg comps i /\ create_entry B a i = Ok e.
Proof.
  induction comps as [|c rest IH]; intros rg e; cbn [get_entry_in]; [discriminate|].
  pose proof (range_find_any a rg c) as H. destruct (range_find a rg c) as [[k|]|x| |]; cbn [bind]; try discriminate.
  destruct H as (Hk & r & Hr & Hn). unfold range_get. apply N.ltb_lt in Hk as Hk'. rewrite Hk'.
  destruct (create_entry B a (fst rg + k)) as [en|x| |] eqn:Ec; cbn [bind]; try discriminate.
  destruct rest as [|c' rest].
  - intros [= <-]. exists (fst rg + k). split; [|exact Ec]. rewrite <- Hn. apply sp_last; [lia|exact Hr].
  - destruct en as [f|l|r' d]; try discriminate. intros He.
    unfold create_entry, rec_at in Ec. rewrite Hr in Ec. cbn [bind] in Ec.
    destruct (r_payload r) as [ad sz|fi nb|t|v] eqn:Ep.
    + destruct (b_file B (fst rg + k) r); discriminate.
    + destruct (b_dir B (fst rg + k) r); try discriminate. cbn [bind] in Ec.
      assert (r' = (as_u32 fi, as_u32 nb)) as -> by congruence.
      destruct (IH _ _ He) as (i & Hi & Hc). exists i. split; [|exact Hc]. rewrite <- Hn.
      eapply sp_dir; eauto. lia.
    + destruct (b_link B (fst rg + k) r); discriminate.
    + discriminate.
Qed.

Lemma full_entry_cases a i :
  match create_entry full_builder a i with
  | Ok (GDir rg _) => exists r f n, at_ (a_recs a) i = Some r /\ r_payload r = RDir f n /\ rg = (as_u32 f, as_u32 n)
  | Ok _ => exists r, at_ (a_recs a) i = Some r
  | Err e => e = EBadVariant
  | Panic => at_ (a_recs a) i = None \/ exists r, at_ (a_recs a) i = Some r /\ r_parent r <> 0 /\ as_u32 (r_parent r) = 0
  | Diverge => False
  end.
Proof.
  unfold create_entry, rec_at. destruct (at_ (a_recs a) i) as [r|] eqn:Er; cbn [bind]; [|now left].
  assert (Hc : match create_common i r with
               | Ok _ => True | Panic => r_parent r <> 0 /\ as_u32 (r_parent r) = 0 | _ => False end).
  { unfold create_common. destruct (r_parent r =? 0) eqn:E1; cbn [bind]; [exact I|].
    destruct (as_u32 (r_parent r) =? 0) eqn:E2; cbn [bind]; [|exact I]. apply N.eqb_neq in E1. apply N.eqb_eq in E2. auto. }
  destruct (r_payload r) as [ad sz|fi nb|t|v] eqn:Ep; cbn [full_builder b_file b_dir b_link];
    try (destruct (create_common i r) as [c| | |] eqn:Ec; cbn [bind]; try (now (right; eauto)); try (now elim Hc); try rewrite Ep; cbn [bind]; eauto 8).
Qed.

Lemma get_entry_in_total a comps : forall rg, comps <> [] ->
  match get_entry_in full_builder a rg comps with
  | Diverge => False
  | Panic => within a -> fst rg + snd rg <= N.of_nat (length (a_recs a)) -> False
  | Err e => e = ENotFound \/ e = EBadVariant
  | Ok _ => True
  end.
Proof.
  induction comps as [|c rest IH]; intros rg Hne; [easy|]. cbn [get_entry_in].
  pose proof (range_find_any a rg c) as H. destruct (range_find a rg c) as [[k|]|x| |]; cbn [bind]; auto; try (now elim H).
  - destruct H as (Hk & r & Hr & Hn). unfold range_get. apply N.ltb_lt in Hk as Hk'. rewrite Hk'.
    pose proof (full_entry_cases a (fst rg + k)) as Hf.
    destruct (create_entry full_builder a (fst rg + k)) as [en|x| |] eqn:Ec; cbn [bind]; auto.
    + destruct rest as [|c' rest]; [exact I|]. destruct en as [f|l|r' d]; auto.
      specialize (IH r' ltac:(easy)). destruct Hf as (r0 & f & n & H1 & H2 & ->).
      destruct (get_entry_in full_builder a (as_u32 f, as_u32 n) (c' :: rest)); auto.
      intros Hw _. apply (IH Hw). cbn [fst snd]. apply (wi_dir a Hw r0); auto. now apply at_in in H1.
    + intros Hw Hrg. destruct Hf as [Hf|(r0 & H1 & H2 & H3)]; [congruence|].
      apply at_in in H1 as [H1 _]. apply (wi_parent a Hw) in H1.
      unfold as_u32 in H3. rewrite N.mod_small in H3 by exact H1. easy.
  - destruct H as (k & Hk & Hn). intros _ Hrg. destruct (at_some a (fst rg + k)) as [r Hr]; [lia|congruence].
Qed.

(** The walk of a table whose ranges go forward. *)
Lemma create_entry_ends {C F L D} (B : builder F L D) (op : operator C F L D) a i : ends B op -> create_entry B a i <> Diverge.
Proof.
  intros [E1 E2 E3 _ _ _ _ _ _]. unfold create_entry, rec_at. destruct (at_ (a_recs a) i) as [r|]; cbn [bind]; [|discriminate].
  specialize (E1 i r). specialize (E2 i r). specialize (E3 i r).
  destruct (r_payload r); cbn [bind]; try discriminate.
  - destruct (b_file B i r); cbn; congruence.
  - destruct (b_dir B i r); cbn; congruence.
  - destruct (b_link B i r); cbn; congruence.
Qed.

Lemma create_dir_range {F L D} (B : builder F L D) a i rg d : create_entry B a i = Ok (GDir rg d) ->
  exists r f n, at_ (a_recs a) i = Some r /\ r_payload r = RDir f n /\ rg = (as_u32 f, as_u32 n).
Proof.
  unfold create_entry, rec_at. destruct (at_ (a_recs a) i) as [r|]; cbn [bind]; [|discriminate].
  destruct (r_payload r) as [ad sz|f n|t|v] eqn:E; cbn [bind]; try discriminate.
  - destruct (b_file B i r); discriminate.
  - destruct (b_dir B i r); cbn; try discriminate. intros H. exists r, f, n. split; [reflexivity|]. split; [exact E|congruence].
  - destruct (b_link B i r); discriminate.
Qed.

Lemma forward_ends {C F L D} (B : builder F L D) (op : operator C F L D) a : ends B op -> within a -> forward a ->
  forall fuel cur stop c, cur <= stop -> stop <= N.of_nat (length (a_recs a)) ->
  (N.to_nat (N.of_nat (length (a_recs a)) - cur) < fuel)%nat ->
  snd (run_range B a op fuel cur stop c) <> Diverge.
Proof.
  intros He Hw Hf. induction fuel as [|k IH]; intros cur stop c H1 H2 H3; [lia|]. cbn [run_range].
  destruct (cur =? stop) eqn:E; [cbn; discriminate|]. apply N.eqb_neq in E.
  assert (Next : forall c, snd (run_range B a op k (cur + 1) stop c) <> Diverge) by (intros; apply IH; lia).
  pose proof (create_entry_ends B op a cur He) as Hc.
  destruct (create_entry B a cur) as [en|x| |] eqn:Ec; cbn [andthen snd]; try discriminate; [|easy].
  destruct He as [_ _ _ _ _ N1 N2 N3 N4]. destruct en as [x|x|rg d].
  - specialize (N3 c x). destruct (on_file op c x) as [c' [| | |]]; cbn [andthen snd] in *; auto; discriminate.
  - specialize (N4 c x). destruct (on_link op c x) as [c' [| | |]]; cbn [andthen snd] in *; auto; discriminate.
  - specialize (N1 c d). destruct (on_enter op c d) as [c' [en| | |]]; cbn [andthen snd] in *; auto; try discriminate.
    assert (Sub : snd (if en : bool then run_range B a op k (fst rg) (fst rg + snd rg) c' else (c', Ok tt)) <> Diverge).
    { destruct en; [|discriminate]. destruct (create_dir_range B a cur rg d Ec) as (r & f & n & R1 & R2 & ->). cbn [fst snd].
      destruct (N.eq_dec (as_u32 n) 0) as [Z|Z].
      - destruct k as [|k]; [lia|]. rewrite Z, N.add_0_r. cbn [run_range]. rewrite N.eqb_refl. cbn. discriminate.
      - apply IH; [lia| |].
        + apply (wi_dir a Hw r); auto. now apply at_in in R1.
        + pose proof (Hf cur r f n R1 R2 Z). apply at_in in R1 as [R0 _]. pose proof (wi_dir a Hw r f n R0 R2). lia. }
    destruct (if en : bool then run_range B a op k (fst rg) (fst rg + snd rg) c' else (c', Ok tt)) as [c2 [| | |]];
      cbn [andthen snd] in *; try discriminate; try easy.
    specialize (N2 c2 d). destruct (on_exit op c2 d) as [c3 [| | |]]; cbn [andthen snd] in *; auto; discriminate.
Qed.

(** The archives of the creator are of that kind. *)
Lemma wf_within_forward a : wf a -> within a /\ forward a.
Proof.
  intros Hw. pose proof (wf_size a Hw) as Hs.
  assert (U : forall x, x < 2^32 -> as_u32 x = x) by (intros x Hx; unfold as_u32; now apply N.mod_small).
  assert (Hd : forall i r f n, at_ (a_recs a) i = Some r -> r_payload r = RDir f n ->
    as_u32 f = f /\ as_u32 n = n /\ f + n <= N.of_nat (length (a_recs a))).
  { intros i r f n H1 H2. destruct (wf_dir a Hw i r f n H1 H2) as [H3 _]. rewrite !U by lia. auto. }
  assert (Hin : forall r, In r (a_recs a) -> exists i, at_ (a_recs a) i = Some r).
  { intros r Hr. apply In_nth_error in Hr as [k Hk]. exists (N.of_nat k). unfold at_.
    assert (k < length (a_recs a))%nat by (apply nth_error_Some; congruence).
    assert (E : N.of_nat k <? N.of_nat (length (a_recs a)) = true) by (apply N.ltb_lt; lia).
    now rewrite E, Nat2N.id. }
  split.
  - constructor.
    + apply (wf_root a Hw).
    + intros r f n Hr Hp. destruct (Hin r Hr) as [i Hi]. destruct (Hd i r f n Hi Hp) as (-> & -> & H). exact H.
    + intros r Hr. destruct (Hin r Hr) as [i Hi].
      destruct (wf_parent a Hw i r Hi) as [->|(j & rj & f & n & -> & _ & Hj & _)]; [reflexivity|]. apply at_in in Hj as [_ Hj]. lia.
  - intros i r f n Hi Hp Hn. destruct (Hd i r f n Hi Hp) as (E1 & E2 & _). rewrite E1. rewrite E2 in Hn.
    destruct (wf_dir a Hw i r f n Hi Hp) as [_ H]. destruct (proj1 (H f)) as (rk & Hk & Ek); [lia|].
    destruct (wf_parent a Hw f rk Hk) as [E|(j & rj & f' & n' & E & Hj & _)]; lia.
Qed.
