(** Facts about the parsing of options. *)
From Verif Require Export SpecCli BaseFacts.

Lemma value_snoc ds c : value (ds ++ [c]) = (10 * value ds + (Z.of_N c - 48))%Z.
Proof. unfold value. now rewrite fold_left_app. Qed.

Lemma inr_spec lo c hi : inr lo c hi = true <-> lo <= c <= hi.
Proof. unfold inr. rewrite andb_true_iff, !N.leb_le. reflexivity. Qed.

Lemma digits_nonneg ds v : Forall is_digit ds -> (0 <= v)%Z -> (v <= fold_left (fun v c => 10 * v + (Z.of_N c - 48)) ds v)%Z.
Proof.
  intros H. revert v. induction H as [|c ds Hc _ IH]; intros v Hv; cbn [fold_left]; [lia|].
  unfold is_digit in Hc. specialize (IH (10 * v + (Z.of_N c - 48))%Z). lia.
Qed.

(** The accumulating loops, from a value of the right sign. *)
Lemma digits_pos lo hi ds : (lo <= 0)%Z -> forall v, (0 <= v <= hi)%Z -> forall z,
  digits lo hi false v ds = Some z <->
  Forall is_digit ds /\ z = fold_left (fun v c => 10 * v + (Z.of_N c - 48))%Z ds v /\ (z <= hi)%Z.
Proof.
  intros Hlo. induction ds as [|c ds IH]; intros v Hv z; cbn [digits fold_left].
  - split; [intros H; injection H as <-; repeat split; auto; lia|intros (_ & -> & _); reflexivity].
  - destruct (inr 48 c 57) eqn:Ec.
    + apply inr_spec in Ec. set (v' := (10 * v + Z.of_N (c - 48))%Z).
      replace (10 * v + (Z.of_N c - 48))%Z with v' by (unfold v'; lia).
      assert (Hv' : (0 <= v')%Z) by (unfold v'; lia).
      destruct ((lo <=? v') && (v' <=? hi))%Z eqn:Eb.
      * apply andb_true_iff in Eb as [_ Eb]. apply Z.leb_le in Eb. rewrite IH; [|lia]. split.
        -- intros (H1 & H2 & H3). repeat split; auto.
        -- intros (H1 & H2 & H3). inversion H1; subst. auto.
      * split; [easy|]. intros (H1 & -> & H3). inversion H1 as [|? ? Hc Hd]; subst.
        pose proof (digits_nonneg ds v' Hd Hv'). apply andb_false_iff in Eb as [Eb|Eb]; apply Z.leb_gt in Eb; lia.
    + split; [easy|]. intros (H & _). inversion H as [|? ? Hc _]; subst. apply inr_spec in Hc. congruence.
Qed.

Lemma fold_neg ds : forall v, (fold_left (fun v c => 10 * v - (Z.of_N c - 48)) ds (- v) = - fold_left (fun v c => 10 * v + (Z.of_N c - 48)) ds v)%Z.
Proof.
  induction ds as [|c ds IH]; intros v; cbn [fold_left]; [reflexivity|].
  replace (10 * - v - (Z.of_N c - 48))%Z with (- (10 * v + (Z.of_N c - 48)))%Z by lia. apply IH.
Qed.

Lemma digits_neg lo hi ds : (0 <= hi)%Z -> forall v, (0 <= v <= - lo)%Z -> forall z,
  digits lo hi true (- v) ds = Some z <->
  Forall is_digit ds /\ z = (- fold_left (fun v c => 10 * v + (Z.of_N c - 48)) ds v)%Z /\ (lo <= z)%Z.
Proof.
  intros Hhi. induction ds as [|c ds IH]; intros v Hv z; cbn [digits fold_left].
  - split; [intros H; injection H as <-; repeat split; auto; lia|intros (_ & -> & _); reflexivity].
  - destruct (inr 48 c 57) eqn:Ec.
    + apply inr_spec in Ec. set (v' := (10 * v + Z.of_N (c - 48))%Z).
      replace (10 * v + (Z.of_N c - 48))%Z with v' by (unfold v'; lia).
      replace (10 * - v - Z.of_N (c - 48))%Z with (- v')%Z by (unfold v'; lia).
      assert (Hv' : (0 <= v')%Z) by (unfold v'; lia).
      destruct ((lo <=? - v') && (- v' <=? hi))%Z eqn:Eb.
      * apply andb_true_iff in Eb as [Eb _]. apply Z.leb_le in Eb. rewrite IH; [|lia]. split.
        -- intros (H1 & H2 & H3). repeat split; auto.
        -- intros (H1 & H2 & H3). inversion H1; subst. auto.
      * split; [easy|]. intros (H1 & -> & H3). inversion H1 as [|? ? Hc Hd]; subst.
        pose proof (digits_nonneg ds v' Hd Hv'). apply andb_false_iff in Eb as [Eb|Eb]; apply Z.leb_gt in Eb; lia.
    + split; [easy|]. intros (H & _). inversion H as [|? ? Hc _]; subst. apply inr_spec in Hc. congruence.
Qed.

Lemma not_digit c r : ~ is_digit c -> ~ Forall is_digit (c :: r).
Proof. intros H H'. inversion H'; auto. Qed.

Lemma parse_int_spec signed lo hi s z : (lo <= 0 <= hi)%Z ->
  parse_int signed lo hi s = Some z <-> numeral signed s z /\ (lo <= z <= hi)%Z.
Proof.
  intros Hb. unfold numeral.
  assert (Hv0 : forall ds, Forall is_digit ds -> (0 <= value ds)%Z) by (intros ds Hd; exact (digits_nonneg ds 0 Hd (Z.le_refl 0))).
  destruct s as [|c r]; cbn [parse_int].
  { split; [easy|]. intros ((ds & H1 & H2 & [[H3 _]|[[H3 _]|(_ & H3 & _)]]) & _); [now subst|discriminate H3|discriminate H3]. }
  destruct ((c =? 43) && nonempty r) eqn:E1.
  { apply andb_true_iff in E1 as [E1 E1']. apply N.eqb_eq in E1. subst c. rewrite digits_pos by lia. fold (value r). split.
    - intros (H1 & -> & H2). split; [|specialize (Hv0 r H1); lia]. exists r. split; [now destruct r|]. split; auto.
    - intros ((ds & H1 & H2 & [[H3 H4]|[[H3 H4]|(_ & H3 & _)]]) & H5).
      + exfalso. rewrite <- H3 in H2. apply (not_digit 43 r); [unfold is_digit; lia|exact H2].
      + injection H3 as ->. repeat split; auto. lia.
      + discriminate H3. }
  destruct (signed && (c =? 45) && nonempty r) eqn:E2.
  { apply andb_true_iff in E2 as [E2 E2']. apply andb_true_iff in E2 as [-> E2]. apply N.eqb_eq in E2. subst c.
    change 0%Z with (- 0)%Z at 1. rewrite digits_neg by lia. fold (value r). split.
    - intros (H1 & -> & H2). split; [|specialize (Hv0 r H1); lia]. exists r. split; [now destruct r|]. split; auto.
    - intros ((ds & H1 & H2 & [[H3 H4]|[[H3 H4]|(_ & H3 & H4)]]) & H5).
      + exfalso. rewrite <- H3 in H2. apply (not_digit 45 r); [unfold is_digit; lia|exact H2].
      + discriminate H3.
      + injection H3 as ->. repeat split; auto. lia. }
  rewrite digits_pos by lia. fold (value (c :: r)). split.
  - intros (H1 & -> & H2). split; [|specialize (Hv0 _ H1); lia]. exists (c :: r). split; [easy|]. auto.
  - intros ((ds & H1 & H2 & [[H3 H4]|[[H3 H4]|(H0 & H3 & H4)]]) & H5).
    + subst. repeat split; auto. lia.
    + exfalso. injection H3 as -> ->. now destruct ds.
    + exfalso. injection H3 as -> ->. subst signed. now destruct ds.
Qed.

Lemma parse_ranged_spec signed lo hi s z : (- 2^31 <= lo)%Z -> (hi <= 2^31 - 1)%Z -> (signed = false -> 0 <= lo)%Z ->
  parse_ranged signed lo hi s = Some z <-> numeral signed s z /\ (lo <= z <= hi)%Z.
Proof.
  intros H1 H2 H3. unfold parse_ranged.
  set (l := (if signed then - 2 ^ 31 else 0)%Z). set (h := (if signed then 2 ^ 31 - 1 else 2 ^ 32 - 1)%Z).
  assert (Hb : (l <= 0 <= h)%Z) by (unfold l, h; destruct signed; lia).
  assert (Hl : (l <= lo)%Z) by (unfold l; destruct signed; auto; lia).
  assert (Hh : (hi <= h)%Z) by (unfold h; destruct signed; lia).
  clearbody l h. destruct (parse_int signed l h s) as [y|] eqn:E.
  - destruct ((lo <=? y) && (y <=? hi))%Z eqn:Ey.
    + apply andb_true_iff in Ey as [E1 E2]. apply Z.leb_le in E1, E2. split.
      * intros H. injection H as ->. apply parse_int_spec in E as [E _]; auto.
      * intros [Hn Hz]. rewrite <- E. apply parse_int_spec; auto. split; auto. lia.
    + split; [easy|]. intros [Hn Hz]. exfalso. assert (E' : parse_int signed l h s = Some z) by (apply parse_int_spec; auto; split; auto; lia).
      rewrite E in E'. injection E' as ->. apply andb_false_iff in Ey as [Ey|Ey]; apply Z.leb_gt in Ey; lia.
  - split; [easy|]. intros [Hn Hz]. exfalso. assert (E' : parse_int signed l h s = Some z) by (apply parse_int_spec; auto; split; auto; lia). congruence.
Qed.

Lemma split_eq_spec s : match split_eq s with
  | (x, None) => s = x /\ ~ In 61 x
  | (x, Some y) => s = x ++ 61 :: y /\ ~ In 61 x
  end.
Proof.
  induction s as [|c s IH]; cbn [split_eq]; [split; auto|]. destruct (N.eqb_spec c 61) as [->|Hc]; [split; auto|].
  destruct (split_eq s) as [x [y|]]; destruct IH as [-> IH]; (split; [reflexivity|]); intros [H|H]; auto.
Qed.

Lemma split_eq_none x : ~ In 61 x -> split_eq x = (x, None).
Proof.
  induction x as [|c x IH]; intros H; [reflexivity|]. cbn [split_eq]. destruct (N.eqb_spec c 61) as [->|Hc]; [destruct H; now left|].
  rewrite IH; auto. intros Hx. apply H. now right.
Qed.
Lemma split_eq_some x y : ~ In 61 x -> split_eq (x ++ 61 :: y) = (x, Some y).
Proof.
  induction x as [|c x IH]; intros H; [reflexivity|]. cbn [split_eq app]. destruct (N.eqb_spec c 61) as [->|Hc]; [destruct H; now left|].
  rewrite IH; auto. intros Hx. apply H. now right.
Qed.

Lemma lower_spec c d : 97 <= d <= 122 \/ 48 <= d <= 57 -> ascii_lower c = d <-> same_letter c d.
Proof.
  intros Hd. unfold ascii_lower, same_letter. destruct (inr 65 c 90) eqn:E.
  - apply inr_spec in E. split; [right; lia|]. intros [->|H]; lia.
  - split; [auto|]. intros [->|[H1 H2]]; auto. exfalso. assert (inr 65 c 90 = true) by (apply inr_spec; lia). congruence.
Qed.

Lemma spells_spec s name : Forall (fun d => 97 <= d <= 122 \/ 48 <= d <= 57) name -> map ascii_lower s = name <-> spells s name.
Proof.
  intros H. revert s. induction H as [|d name Hd _ IH]; intros [|c s]; cbn [map]; split; intros E; try easy; try (now constructor); try (now inversion E).
  - injection E as E1 E2. constructor; [now apply lower_spec|]. now apply IH.
  - inversion E; subst. f_equal; [now apply lower_spec|]. now apply IH.
Qed.

Lemma spells_no_eq s name : Forall (fun d => 97 <= d <= 122 \/ 48 <= d <= 57) name -> spells s name -> ~ In 61 s.
Proof.
  intros H Hs. revert H. induction Hs as [|c d s name Hc _ IH]; intros H; [easy|]. inversion H; subst.
  intros [->|Hi]; [|now apply IH]. destruct Hc as [Hc|[Hc1 Hc2]]; lia.
Qed.

Lemma ok_none : Forall (fun d => 97 <= d <= 122 \/ 48 <= d <= 57) (b "none").
Proof. repeat constructor; cbn; lia. Qed.
Lemma ok_lz4 : Forall (fun d => 97 <= d <= 122 \/ 48 <= d <= 57) (b "lz4").
Proof. repeat constructor; cbn; lia. Qed.
Lemma ok_lzma : Forall (fun d => 97 <= d <= 122 \/ 48 <= d <= 57) (b "lzma").
Proof. repeat constructor; cbn; lia. Qed.
Lemma ok_zstd : Forall (fun d => 97 <= d <= 122 \/ 48 <= d <= 57) (b "zstd").
Proof. repeat constructor; cbn; lia. Qed.

(** The string split at the first "=". *)
Definition tail (o : option bytes) : bytes := match o with Some y => 61 :: y | None => [] end.
Lemma split_eq_ok s x o : split_eq s = (x, o) <-> s = x ++ tail o /\ ~ In 61 x.
Proof.
  split.
  - intros E. pose proof (split_eq_spec s) as H. rewrite E in H. destruct o as [y|]; cbn [tail]; rewrite ?app_nil_r; exact H.
  - intros [-> H]. destruct o as [y|]; cbn [tail]; [now apply split_eq_some|]. rewrite app_nil_r. now apply split_eq_none.
Qed.

Lemma level_spec dflt signed lo hi o z : (- 2^31 <= lo)%Z -> (hi <= 2^31 - 1)%Z -> (signed = false -> 0 <= lo)%Z ->
  level_of dflt signed lo hi o = Some z <-> level dflt signed lo hi (tail o) z.
Proof.
  intros H1 H2 H3. unfold level. destruct o as [y|]; cbn [level_of tail].
  - rewrite parse_ranged_spec by auto. split.
    + intros [Hn Hz]. right. exists y. auto.
    + intros [[H _]|(n & E & Hn & Hz)]; [discriminate H|]. injection E as ->. auto.
  - split; [intros H; injection H as <-; auto|]. intros [[_ ->]|(n & E & _)]; [reflexivity|discriminate E].
Qed.

Lemma level_tail dflt signed lo hi rest z : level dflt signed lo hi rest z -> exists o, rest = tail o.
Proof. intros [[-> _]|(n & -> & _)]; [exists None|exists (Some n)]; reflexivity. Qed.

Theorem compression_spec s c : compression_arg_parser s = inl c <-> asks s c.
Proof.
  split.
  - unfold compression_arg_parser. destruct (split_eq s) as [x o] eqn:E. apply split_eq_ok in E as [-> Hx].
    destruct (bytes_eqb_spec (map ascii_lower x) (b "none")) as [E1|_].
    { apply spells_spec in E1; [|exact ok_none]. intros H. injection H as <-. destruct o as [y|]; cbn [tail]; [|rewrite app_nil_r]; now constructor. }
    destruct (bytes_eqb_spec (map ascii_lower x) (b "lz4")) as [E1|_].
    { apply spells_spec in E1; [|exact ok_lz4]. destruct (level_of 3 false 0 15 o) as [z|] eqn:El; [|easy]. intros H. injection H as <-.
      apply level_spec in El; [|lia..]. now constructor. }
    destruct (bytes_eqb_spec (map ascii_lower x) (b "lzma")) as [E1|_].
    { apply spells_spec in E1; [|exact ok_lzma]. destruct (level_of 9 false 0 9 o) as [z|] eqn:El; [|easy]. intros H. injection H as <-.
      apply level_spec in El; [|lia..]. now constructor. }
    destruct (bytes_eqb_spec (map ascii_lower x) (b "zstd")) as [E1|_]; [|easy].
    apply spells_spec in E1; [|exact ok_zstd]. destruct (level_of 5 true (-22) 22 o) as [z|] eqn:El; [|easy]. intros H. injection H as <-.
    apply level_spec in El; [|lia|lia|easy]. now constructor.
  - assert (K : forall x name o, Forall (fun d => 97 <= d <= 122 \/ 48 <= d <= 57) name -> spells x name -> split_eq (x ++ tail o) = (x, o) /\ map ascii_lower x = name).
    { intros x name o H1 H2. split; [apply split_eq_ok; split; auto; eapply spells_no_eq; eauto|now apply spells_spec]. }
    unfold compression_arg_parser. intros H. destruct H as [s H|s n H|s rest z H Hl|s rest z H Hl|s rest z H Hl].
    + destruct (K s _ None ok_none H) as [E1 E2]. cbn [tail] in E1. rewrite app_nil_r in E1. rewrite E1, E2. reflexivity.
    + destruct (K s _ (Some n) ok_none H) as [E1 E2]. change (b "=" ++ n) with (tail (Some n)). rewrite E1, E2. reflexivity.
    + destruct (level_tail _ _ _ _ _ _ Hl) as [o ->]. destruct (K s _ o ok_lz4 H) as [E1 E2]. rewrite E1, E2. cbn [bytes_eqb list_eqb].
      apply level_spec in Hl; [|lia..]. rewrite Hl. reflexivity.
    + destruct (level_tail _ _ _ _ _ _ Hl) as [o ->]. destruct (K s _ o ok_lzma H) as [E1 E2]. rewrite E1, E2.
      apply level_spec in Hl; [|lia..]. rewrite Hl. reflexivity.
    + destruct (level_tail _ _ _ _ _ _ Hl) as [o ->]. destruct (K s _ o ok_zstd H) as [E1 E2]. rewrite E1, E2.
      apply level_spec in Hl; [|lia|lia|easy]. rewrite Hl. reflexivity.
Qed.
