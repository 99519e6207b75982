(** How much of an archive lookups and requests read. *)
From Verif Require Export SpecPart Cli Python.
From Verif Require Fuse.

Lemma agrees_more R R' A A' a a' : (forall i, In i R -> In i R') -> (forall x, In x A -> In x A') -> agrees_on R' A' a a' -> agrees_on R A a a'.
Proof. intros H1 H2 (K1 & K2 & K3 & K4). split; [exact K1|]. split; [exact K2|]. split; auto. Qed.

Lemma rec_agrees R A a a' i : agrees_on R A a a' -> In i R -> rec_at a' i = rec_at a i.
Proof. intros (_ & _ & H & _) Hi. unfold rec_at. now rewrite (H i Hi). Qed.

Lemma size_half n : n <> 0 -> S (N.size_nat (n / 2)) = N.size_nat n.
Proof. intros H. destruct n as [|[p|p|]]; [congruence|..]; rewrite <- N.div2_div; reflexivity. Qed.
Lemma size_mono x y : x <= y -> (N.size_nat x <= N.size_nat y)%nat.
Proof.
  revert x. induction y as [y IH] using (well_founded_induction N.lt_wf_0). intros x H.
  destruct (N.eq_dec x 0) as [->|Hx]; [cbn [N.size_nat]; lia|]. rewrite <- (size_half x Hx), <- (size_half y) by lia. apply le_n_S, IH; [apply N.div_lt; lia|now apply N.div_le_mono].
Qed.
Lemma size_pow k n : n < 2 ^ N.of_nat k -> (N.size_nat n <= k)%nat.
Proof.
  revert n. induction k as [|k IH]; intros n H.
  - cbn in H. assert (n = 0) as -> by lia. cbn. lia.
  - destruct (N.eq_dec n 0) as [->|Hn]; [cbn; lia|]. rewrite <- (size_half n Hn). apply le_n_S, IH. rewrite Nat2N.inj_succ, N.pow_succ_r' in H. apply N.div_lt_upper_bound; lia.
Qed.

(** Binary search: one comparison per binary digit of the size. *)
Lemma bsearch_reads cmp fuel : forall left right, exists ks, (length ks <= N.size_nat (right - left))%nat /\
  (forall m, bsearch cmp fuel left right = Ok (Some m) -> In m ks) /\
  (forall cmp', (forall k, In k ks -> cmp' k = cmp k) -> bsearch cmp' fuel left right = bsearch cmp fuel left right).
Proof.
  induction fuel as [|n IH]; intros left right; cbn [bsearch].
  - exists []. split; [cbn; lia|]. destruct (left <? right); split; intros; auto; discriminate.
  - destruct (N.ltb_spec left right) as [Hlt|Hge]; [|exists []; split; [cbn; lia|]; split; intros; auto; discriminate].
    set (mid := left + (right - left) / 2) in *. assert (Hmid : right - left <> 0) by lia. pose proof (size_half _ Hmid) as Hs.
    assert (Hd : (right - left) / 2 < right - left) by (apply N.div_lt; lia).
    assert (Hd2 : right - left <= 2 * ((right - left) / 2) + 1) by (pose proof (N.div_mod (right - left) 2); pose proof (N.mod_lt (right - left) 2); lia).
    destruct (cmp mid) as [[| |]| | |] eqn:Ec.
    + exists [mid]. split; [cbn [length]; lia|]. split; [intros m E; injection E as <-; now left|]. intros cmp' H. rewrite (H mid) by now left. rewrite Ec. reflexivity.
    + destruct (IH (mid + 1) right) as (ks & K1 & K2 & K3). exists (mid :: ks). split; [cbn [length]|].
      { assert (N.size_nat (right - (mid + 1)) <= N.size_nat ((right - left) / 2))%nat by (apply size_mono; subst mid; lia). lia. }
      split; [intros m E; right; now apply K2|]. intros cmp' H. rewrite (H mid) by now left. rewrite Ec. cbn [bind]. apply K3. intros k Hk. apply H. now right.
    + destruct (IH left mid) as (ks & K1 & K2 & K3). exists (mid :: ks). split; [cbn [length]|].
      { assert (N.size_nat (mid - left) <= N.size_nat ((right - left) / 2))%nat by (apply size_mono; subst mid; lia). lia. }
      split; [intros m E; right; now apply K2|]. intros cmp' H. rewrite (H mid) by now left. rewrite Ec. cbn [bind]. apply K3. intros k Hk. apply H. now right.
    + exists [mid]. split; [cbn [length]; lia|]. split; [intros m E; discriminate E|]. intros cmp' H. rewrite (H mid) by now left. rewrite Ec. reflexivity.
    + exists [mid]. split; [cbn [length]; lia|]. split; [intros m E; discriminate E|]. intros cmp' H. rewrite (H mid) by now left. rewrite Ec. reflexivity.
    + exists [mid]. split; [cbn [length]; lia|]. split; [intros m E; discriminate E|]. intros cmp' H. rewrite (H mid) by now left. rewrite Ec. reflexivity.
Qed.

Lemma find_reads a rg n k : snd rg < 2 ^ N.of_nat k -> exists R, (length R <= k)%nat /\
  (forall m, range_find a rg n = Ok (Some m) -> In (fst rg + m) R) /\
  (forall R' A a', (forall i, In i R -> In i R') -> agrees_on R' A a a' -> range_find a' rg n = range_find a rg n).
Proof.
  intros Hk. destruct (bsearch_reads (fun k => compare_entry a n (fst rg + k)) (S (N.size_nat (snd rg))) 0 (snd rg)) as (ks & K1 & K2 & K3).
  exists (map (fun x => fst rg + x) ks). rewrite map_length. rewrite N.sub_0_r in K1. split; [pose proof (size_pow k _ Hk); lia|]. split.
  - intros m E. apply in_map. now apply K2.
  - intros R' A a' Hin Ha. apply K3. intros x Hx. unfold compare_entry. rewrite (rec_agrees _ _ _ _ (fst rg + x) Ha); [reflexivity|]. apply Hin. now apply in_map.
Qed.

Lemma create_reads {F L D} (B : builder F L D) R A a a' i : agrees_on R A a a' -> In i R -> create_entry B a' i = create_entry B a i.
Proof. intros Ha Hi. unfold create_entry. now rewrite (rec_agrees _ _ _ _ _ Ha Hi). Qed.
Lemma get_reads {F L D} (B : builder F L D) R A a a' rg m : agrees_on R A a a' -> In (fst rg + m) R -> range_get B a' rg m = range_get B a rg m.
Proof. intros Ha Hi. unfold range_get. now rewrite (create_reads B _ _ _ _ _ Ha Hi). Qed.

Lemma lookup_reads a k : few_per_dir k a -> forall comps rg, snd rg < 2 ^ N.of_nat k -> exists R, (length R <= k * length comps)%nat /\
  (forall R' A a', (forall i, In i R -> In i R') -> agrees_on R' A a a' ->
     forall F L D (B : builder F L D), get_entry_in B a' rg comps = get_entry_in B a rg comps).
Proof.
  intros [_ Hn]. induction comps as [|c comps IH]; intros rg Hrg; [exists []; split; [cbn; lia|reflexivity]|].
  destruct (find_reads a rg c k Hrg) as (R1 & L1 & M1 & E1).
  assert (Hmore : exists R2, (length R2 <= k * length comps)%nat /\
     (forall m r first nb, range_find a rg c = Ok (Some m) -> at_ (a_recs a) (fst rg + m) = Some r -> r_payload r = RDir first nb ->
       forall R' A a', (forall i, In i R2 -> In i R') -> agrees_on R' A a a' ->
       forall F L D (B : builder F L D), get_entry_in B a' (as_u32 first, as_u32 nb) comps = get_entry_in B a (as_u32 first, as_u32 nb) comps)).
  { destruct (range_find a rg c) as [[m|]| | |] eqn:Ef; try (exists []; split; [cbn; lia|]; intros; discriminate).
    destruct (at_ (a_recs a) (fst rg + m)) as [r|] eqn:Er; [|exists []; split; [cbn; lia|]; intros m0 r0 f0 n0 E0 Er0; injection E0 as <-; congruence].
    destruct (r_payload r) as [x s|first nb|t|v] eqn:Ep; try (exists []; split; [cbn; lia|]; intros m0 r0 f0 n0 E0 Er0 Ep0; injection E0 as <-; congruence).
    destruct (IH (as_u32 first, as_u32 nb) (Hn _ _ _ _ Er Ep)) as (R2 & L2 & E2). exists R2. split; [exact L2|].
    intros m0 r0 f0 n0 E0 Er0 Ep0. injection E0 as <-. assert (r0 = r) as -> by congruence. assert (f0 = first) as -> by congruence. assert (n0 = nb) as -> by congruence. exact E2. }
  destruct Hmore as (R2 & L2 & E2). exists (R1 ++ R2). split; [rewrite app_length; cbn [length]; lia|].
  intros R' A a' Hin Ha F L D B. cbn [get_entry_in].
  rewrite (E1 R' A a') by (auto; intros i Hi; apply Hin, in_or_app; now left).
  destruct (range_find a rg c) as [[m|]| | |] eqn:Ef; cbn [bind]; auto.
  assert (Hm : In (fst rg + m) R') by (apply Hin, in_or_app; left; now apply M1).
  rewrite (get_reads B _ _ _ _ rg m Ha Hm). destruct (range_get B a rg m) as [e| | |] eqn:Eg; cbn [bind]; auto.
  destruct comps as [|c' comps]; [reflexivity|]. destruct e as [x|x|rg' x]; auto.
  unfold range_get, create_entry, rec_at in Eg. destruct (m <? snd rg); [|discriminate Eg].
  destruct (at_ (a_recs a) (fst rg + m)) as [r|] eqn:Er; [|discriminate Eg]. cbn [bind] in Eg.
  destruct (r_payload r) as [y s|first nb|t|v] eqn:Ep.
  - destruct (b_file B _ r); discriminate Eg.
  - destruct (b_dir B _ r); [|discriminate Eg..]. cbn [bind] in Eg. injection Eg as <- _.
    apply (E2 m r first nb eq_refl Er Ep R' A a'); [intros i Hi; apply Hin, in_or_app; now right|exact Ha].
  - destruct (b_link B _ r); discriminate Eg.
  - discriminate Eg.
Qed.

(** ** requests to a mount *)
Lemma index_reads {A} (f : N -> rec -> res A) R X a a' i : agrees_on R X a a' -> In (fst (a_entries a) + i) R ->
  Fuse.index_get f a' i = Fuse.index_get f a i.
Proof. intros Ha Hi. unfold Fuse.index_get, Fuse.entry_index. pose proof Ha as (_ & -> & _). destruct (_ <? _); [|reflexivity]. now rewrite (rec_agrees _ _ _ _ _ Ha Hi). Qed.

Section Mounted.
  Variables (a : archive) (root : N * N).

  Lemma range_reads ino : exists R, (length R <= 1)%nat /\ forall R' X a', (forall i, In i R -> In i R') -> agrees_on R' X a a' ->
    Fuse.get_entry_range a' root ino = Fuse.get_entry_range a root ino.
  Proof.
    unfold Fuse.get_entry_range. destruct (Fuse.ino_idx ino) as [idx|]; [|exists []; split; [cbn; lia|reflexivity]].
    exists [fst (a_entries a) + idx]. split; [cbn; lia|]. intros R' X a' Hin Ha. rewrite (index_reads Fuse.light_dir R' X a a' idx Ha); [reflexivity|]. apply Hin. now left.
  Qed.
  Lemma cached_reads idx s R X a' : agrees_on R X a a' -> In (fst (a_entries a) + idx) R -> Fuse.cached_attr a' s idx = Fuse.cached_attr a s idx.
  Proof. intros Ha Hi. unfold Fuse.cached_attr. now rewrite (index_reads Fuse.build_attr _ _ _ _ _ Ha Hi). Qed.
  Lemma parent_reads ino : exists R, (length R <= 1)%nat /\ forall R' X a', (forall i, In i R -> In i R') -> agrees_on R' X a a' ->
    Fuse.parent_ino a' ino = Fuse.parent_ino a ino.
  Proof.
    unfold Fuse.parent_ino. destruct (Fuse.ino_idx ino) as [idx|]; [|exists []; split; [cbn; lia|reflexivity]].
    exists [fst (a_entries a) + idx]. split; [cbn; lia|]. intros R' X a' Hin Ha. rewrite (index_reads Fuse.light_parent R' X a a' idx Ha); [reflexivity|]. apply Hin. now left.
  Qed.

  Lemma readdir_reads ino rg full is : forall s acc, exists R,
    (forall l, snd (Fuse.readdir_loop a ino rg full is s acc) = Ok l -> (length R + length acc <= length l + 1)%nat) /\
    forall R' X a', (forall i, In i R -> In i R') -> agrees_on R' X a a' -> Fuse.parent_ino a' ino = Fuse.parent_ino a ino ->
      Fuse.readdir_loop a' ino rg full is s acc = Fuse.readdir_loop a ino rg full is s acc.
  Proof.
    induction is as [|i is IH]; intros s acc; cbn [Fuse.readdir_loop].
    - exists []. split; [intros l E; injection E as <-; cbn [length]; lia|reflexivity].
    - destruct (i =? 0).
      { destruct (full acc _); [exists []; split; [intros l E; injection E as <-; cbn [length]; lia|reflexivity]|].
        destruct (IH s (acc ++ [Fuse.mkDirent ino 0 Fuse.FtDir (b ".")])) as (R & K1 & K2). exists R. split; [|exact K2]. intros l E. specialize (K1 l E). rewrite app_length in K1. cbn [length] in K1. lia. }
      destruct (i =? 1).
      { destruct (Fuse.parent_ino a ino) as [p| | |] eqn:Ep; try (exists []; split; [intros l E; discriminate E|intros R' X a' _ _ ->; reflexivity]).
        destruct (full acc (Fuse.mkDirent p 1 Fuse.FtDir (b ".."))) eqn:Ef.
        { exists []. split; [intros l E; injection E as <-; cbn [length]; lia|]. intros R' X a' _ _ ->. now rewrite Ef. }
        destruct (IH s (acc ++ [Fuse.mkDirent p 1 Fuse.FtDir (b "..")])) as (R & K1 & K2). exists R. split.
        - intros l E. specialize (K1 l E). rewrite app_length in K1. cbn [length] in K1. lia.
        - intros R' X a' Hin Ha E. rewrite E, Ef. now apply (K2 R' X a'). }
      destruct (i - 2 =? snd rg); [exists []; split; [intros l E; injection E as <-; cbn [length]; lia|reflexivity]|].
      destruct (Fuse.unwrap (let? r := rec_at a (fst rg + (i - 2)) in let? k := Fuse.ftype_of r in Ok (r_name r, k))) as [[nm k]| | |] eqn:Er.
      2-4: exists [fst rg + (i - 2)]; split; [intros l E; discriminate E|]; intros R' X a' Hin Ha _; rewrite (rec_agrees _ _ _ _ (fst rg + (i - 2)) Ha) by (apply Hin; now left); rewrite Er; reflexivity.
      destruct (full acc (Fuse.mkDirent (Fuse.ino_of_idx (fst rg + (i - 2))) i k nm)) eqn:Ef.
      { exists [fst rg + (i - 2)]. split; [intros l E; injection E as <-; cbn [length]; lia|]. intros R' X a' Hin Ha _.
        rewrite (rec_agrees _ _ _ _ (fst rg + (i - 2)) Ha) by (apply Hin; now left). now rewrite Er, Ef. }
      match goal with |- context [Fuse.readdir_loop a ino rg full is ?s1 ?acc1] => destruct (IH s1 acc1) as (R & K1 & K2) end.
      exists ((fst rg + (i - 2)) :: R). split.
      + intros l E. specialize (K1 l E). rewrite app_length in K1. cbn [length] in *. lia.
      + intros R' X a' Hin Ha E. rewrite (rec_agrees _ _ _ _ (fst rg + (i - 2)) Ha) by (apply Hin; now left). rewrite Er, Ef.
        apply (K2 R' X a'); auto. intros j Hj. apply Hin. now right.
  Qed.
End Mounted.
