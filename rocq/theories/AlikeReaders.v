(** Readers see neither where the contents are stored nor, but for the mount, the type bits of the
    modes: SameReaders.v again, for tables that are alike. *)
From Verif Require Export SpecTools SameReaders.

(** Builders that give related values on the alike records. *)
Record abuild {F1 L1 D1 F2 L2 D2} (f1 f2 : caddr -> fetched) (RF : F1 -> F2 -> Prop) (RL : L1 -> L2 -> Prop) (RD : D1 -> D2 -> Prop)
    (B1 : builder F1 L1 D1) (B2 : builder F2 L2 D2) : Prop := {
  ab_file : forall i r1 r2, alike_record f1 r1 f2 r2 -> rres RF (b_file B1 i r1) (b_file B2 i r2);
  ab_link : forall i r1 r2, alike_record f1 r1 f2 r2 -> rres RL (b_link B1 i r1) (b_link B2 i r2);
  ab_dir : forall i r1 r2, alike_record f1 r1 f2 r2 -> rres RD (b_dir B1 i r1) (b_dir B2 i r2) }.

Section Two.
  Variables a1 a2 : archive.
  Hypothesis alike : alike_table a1 a2.

  
  Lemma alike_at i : match at_ (a_recs a1) i, at_ (a_recs a2) i with
    | Some r1, Some r2 => alike_record (a_fetch a1) r1 (a_fetch a2) r2 | None, None => True | _, _ => False end.
  Proof.
    rewrite !at_nth. destruct alike as (_ & _ & H). revert H. generalize (a_fetch a1) (a_fetch a2) (N.to_nat i). intros f1 f2 k H. revert k.
    induction H as [|r1 r2 l1 l2 Hr Hl IH]; intros [|k]; cbn [nth_error]; auto. apply IH.
  Qed.

  Lemma alike_length : length (a_recs a1) = length (a_recs a2).
  Proof. destruct alike as (_ & _ & H). induction H; cbn [length]; congruence. Qed.

  Lemma rec_at_alike i : rres (fun r1 r2 => alike_record (a_fetch a1) r1 (a_fetch a2) r2) (rec_at a1 i) (rec_at a2 i).
  Proof. unfold rec_at. pose proof (alike_at i) as H. destruct (at_ (a_recs a1) i), (at_ (a_recs a2) i); auto; easy. Qed.

  Lemma ftype_alike r1 r2 : alike_record (a_fetch a1) r1 (a_fetch a2) r2 -> Fuse.ftype_of r1 = Fuse.ftype_of r2.
  Proof. intros (_ & _ & _ & _ & _ & _ & H). unfold Fuse.ftype_of. destruct (r_payload r1), (r_payload r2); try discriminate H; auto. Qed.

  Section Built.
    Context {F1 L1 D1 F2 L2 D2 : Type} {RF : F1 -> F2 -> Prop} {RL : L1 -> L2 -> Prop} {RD : D1 -> D2 -> Prop}.
    Variables (B1 : builder F1 L1 D1) (B2 : builder F2 L2 D2).
    Hypothesis HB : abuild (a_fetch a1) (a_fetch a2) RF RL RD B1 B2.

    Lemma create_alike i : rres (rent RF RL RD) (create_entry B1 a1 i) (create_entry B2 a2 i).
    Proof.
      unfold create_entry. eapply rres_bind; [apply rec_at_alike|]. intros r1 r2 Hr. pose proof Hr as (_ & _ & _ & _ & _ & _ & Hp).
      destruct (r_payload r1), (r_payload r2); try discriminate Hp; try easy.
      - eapply rres_bind; [now apply (ab_file _ _ _ _ _ _ _ HB)|]. auto.
      - eapply rres_bind; [now apply (ab_dir _ _ _ _ _ _ _ HB)|]. intros u v H. cbn [rres rent]. split; congruence.
      - eapply rres_bind; [now apply (ab_link _ _ _ _ _ _ _ HB)|]. auto.
    Qed.

    Lemma compare_alike n i : compare_entry a1 n i = compare_entry a2 n i.
    Proof.
      apply rres_eq. unfold compare_entry. eapply rres_bind; [apply rec_at_alike|]. intros r1 r2 (E & _). cbn [rres]. now rewrite E.
    Qed.

    Lemma find_alike r n : range_find a1 r n = range_find a2 r n.
    Proof.
      unfold range_find. generalize (S (N.size_nat (snd r))) as fuel. generalize 0 (snd r). intros l0 r0 fuel. revert l0 r0. induction fuel as [|k IH]; intros left right; cbn [bsearch]; auto.
      destruct (left <? right); auto. rewrite compare_alike. destruct (compare_entry a2 n _) as [[]| | |]; cbn [bind]; auto.
    Qed.

    Lemma get_alike r k : rres (rent RF RL RD) (range_get B1 a1 r k) (range_get B2 a2 r k).
    Proof. unfold range_get. destruct (k <? snd r); [apply create_alike|reflexivity]. Qed.

    Lemma get_entry_in_alike comps : forall r, rres (rent RF RL RD) (get_entry_in B1 a1 r comps) (get_entry_in B2 a2 r comps).
    Proof.
      induction comps as [|c rest IH]; intros r; cbn [get_entry_in]; [exact I|].
      eapply rres_bind; [rewrite find_alike; apply rres_refl|]. intros found ? <-. destruct found as [k|]; [|reflexivity].
      eapply rres_bind; [apply get_alike|]. intros e1 e2 He. destruct rest as [|c' rest]; [exact He|].
      destruct e1, e2; cbn [rent] in He; try easy. destruct He as [<- _]. apply IH.
    Qed.

    Lemma get_entry_alike p : rres (rent RF RL RD) (get_entry B1 a1 p) (get_entry B2 a2 p).
    Proof. unfold get_entry. destruct alike as [<- _]. apply get_entry_in_alike. Qed.

    (** Operators that do the alike with related values. *)
    Context {C : Type}.
    Variables (op1 : operator C F1 L1 D1) (op2 : operator C F2 L2 D2).
    Hypotheses (H1 : forall c, on_start op1 c = on_start op2 c) (H2 : forall c, on_stop op1 c = on_stop op2 c)
      (H3 : forall c x y, RD x y -> on_enter op1 c x = on_enter op2 c y) (H4 : forall c x y, RD x y -> on_exit op1 c x = on_exit op2 c y)
      (H5 : forall c x y, RF x y -> on_file op1 c x = on_file op2 c y) (H6 : forall c x y, RL x y -> on_link op1 c x = on_link op2 c y).

    Lemma run_range_alike fuel : forall cur stop c, run_range B1 a1 op1 fuel cur stop c = run_range B2 a2 op2 fuel cur stop c.
    Proof.
      induction fuel as [|k IH]; intros cur stop c; cbn [run_range]; auto. destruct (cur =? stop); auto.
      pose proof (create_alike cur) as H. destruct (create_entry B1 a1 cur) as [e1| | |], (create_entry B2 a2 cur) as [e2| | |];
        cbn [rres] in H; try easy; [|now subst]. cbn [andthen].
      destruct e1 as [x|x|r x], e2 as [y|y|s y]; cbn [rent] in H; try easy.
      - rewrite (H5 c x y H). destruct (on_file op2 c y) as [c' []]; cbn [andthen]; auto.
      - rewrite (H6 c x y H). destruct (on_link op2 c y) as [c' []]; cbn [andthen]; auto.
      - destruct H as [<- H]. rewrite (H3 c x y H). destruct (on_enter op2 c y) as [c' [ent| | |]]; cbn [andthen]; auto.
        replace (if ent then run_range B1 a1 op1 k (fst r) (fst r + snd r) c' else (c', Ok tt))
          with (if ent then run_range B2 a2 op2 k (fst r) (fst r + snd r) c' else (c', Ok tt)) by (destruct ent; auto).
        destruct (if ent then run_range B2 a2 op2 k (fst r) (fst r + snd r) c' else (c', Ok tt)) as [c2 []]; cbn [andthen]; auto.
        rewrite (H4 c2 x y H). destruct (on_exit op2 c2 y) as [c3 []]; cbn [andthen]; auto.
    Qed.

    Lemma run_from_alike fuel r c : run_from_range B1 a1 op1 fuel r c = run_from_range B2 a2 op2 fuel r c.
    Proof.
      unfold run_from_range. rewrite H1. destruct (on_start op2 c) as [c' []]; cbn [andthen]; auto. rewrite run_range_alike.
      destruct (run_range B2 a2 op2 fuel _ _ c') as [c2 []]; cbn [andthen]; auto.
    Qed.

    Lemma run_alike c : run B1 a1 op1 c = run B2 a2 op2 c.
    Proof. unfold run, walk_fuel. rewrite alike_length. destruct alike as [<- _]. apply run_from_alike. Qed.
  End Built.

  Definition alike_file (x y : file_entry) : Prop :=
    let '(m, ad, s) := x in let '(m', ad', s') := y in m = m' /\ s = s' /\ a_fetch a1 ad = a_fetch a2 ad'.

  Lemma common_alike i r1 r2 : alike_record (a_fetch a1) r1 (a_fetch a2) r2 -> create_common i r1 = create_common i r2.
  Proof. intros (E1 & E2 & E3 & E4 & E5 & E6 & _). unfold create_common. rewrite E1, E2, E3, E4, E6.
    assert (E : as_u8 (r_rights r1) = as_u8 (r_rights r2)); [|now rewrite E].
    unfold same_permissions in E5. unfold as_u8. assert (K : forall x, x mod 2 ^ 8 = (x mod 4096) mod 2 ^ 8).
    { intros x. change 4096 with (2 ^ 8 * 16). rewrite N.mod_mul_r by discriminate. rewrite (N.mul_comm (2 ^ 8)), N.mod_add by discriminate. now rewrite N.mod_mod by discriminate. }
    rewrite K, E5, <- K. reflexivity. Qed.

  Lemma full_abuild : abuild (a_fetch a1) (a_fetch a2) alike_file eq eq full_builder full_builder.
  Proof.
    constructor; intros i r1 r2 Hr; cbn [full_builder b_file b_link b_dir]; rewrite (common_alike i r1 r2 Hr);
      pose proof Hr as (_ & _ & _ & _ & _ & _ & Hp); destruct (create_common i r2); cbn [bind rres]; auto;
      destruct (r_payload r1), (r_payload r2); try discriminate Hp; cbn [rres alike_file]; auto; try easy; try congruence.
  Qed.

  Lemma list_alike s : list_cmd a1 s = list_cmd a2 s.
  Proof.
    unfold list_cmd. destruct s as [v|].
    - destruct (v =? 1); auto. rewrite (run_alike _ _ full_abuild stable_lister stable_lister ltac:(auto) ltac:(auto)); auto; try (intros; now subst).
      intros c [[m ad] s] [[m' ad'] s'] (<- & <- & _). reflexivity.
    - rewrite (run_alike (RF := eq) (RL := eq) (RD := eq) path_builder path_builder) with (op2 := lister); auto; try (intros; now subst).
      constructor; intros i r1 r2 (E & _); cbn [path_builder b_file b_link b_dir rres]; now rewrite E.
  Qed.

  Lemma dump_entry_alike e1 e2 o : rent (fun x y => a_fetch a1 x = a_fetch a2 y) eq eq e1 e2 -> dump_entry a1 e1 o = dump_entry a2 e2 o.
  Proof. destruct e1, e2; cbn [rent]; try easy. intros E. unfold dump_entry. now rewrite E. Qed.

  Lemma dump_alike w p output : dump w a1 p output = dump w a2 p output.
  Proof.
    assert (HB : abuild (a_fetch a1) (a_fetch a2) (fun x y => a_fetch a1 x = a_fetch a2 y) eq eq dump_builder dump_builder).
    { constructor; intros i r1 r2 (_ & _ & _ & _ & _ & _ & Hp); cbn [dump_builder b_file b_link b_dir rres]; auto.
      destruct (r_payload r1), (r_payload r2); try discriminate Hp; cbn [rres]; try exact I. apply Hp. }
    pose proof (get_entry_alike _ _ HB p) as H. unfold dump. destruct (get_entry dump_builder a1 p) as [e1| | |], (get_entry dump_builder a2 p) as [e2| | |];
      cbn [rres] in H; try easy; [|now subst].
    rewrite !(dump_entry_alike e1 e2 _ H). reflexivity.
  Qed.

  Lemma x_abuild : abuild (a_fetch a1) (a_fetch a2)
    (fun x y => fst (fst x) = fst (fst y) /\ snd x = snd y /\ a_fetch a1 (snd (fst x)) = a_fetch a2 (snd (fst y))) eq eq x_builder x_builder.
  Proof.
    constructor; intros i r1 r2 (E1 & _ & _ & _ & _ & E6 & Hp); cbn [x_builder b_file b_link b_dir]; rewrite E1; try apply rres_refl;
      (destruct (of_utf8 (r_name r2)); cbn [bind rres]; auto);
      destruct (r_payload r1), (r_payload r2); try discriminate Hp; cbn [rres]; auto; try easy.
    - cbn [fst snd]. split; auto. split; [congruence|apply Hp].
    - injection Hp as <-. rewrite E6. apply rres_refl.
  Qed.

  Lemma on_file_alike cfg sched c x y : fst (fst x) = fst (fst y) /\ snd x = snd y /\ a_fetch a1 (snd (fst x)) = a_fetch a2 (snd (fst y)) ->
    x_on_file a1 cfg sched c x = x_on_file a2 cfg sched c y.
  Proof. destruct x as [[n ad] t], y as [[n' ad'] t']. cbn [fst snd]. intros (<- & <- & E). unfold x_on_file. now rewrite E. Qed.

  Lemma extract_range_alike rg cfg sched last f : extract_range a1 rg cfg sched last f = extract_range a2 rg cfg sched last f.
  Proof.
    unfold extract_range. unfold walk_fuel. rewrite alike_length.
    rewrite (run_from_alike _ _ x_abuild (extractor a1 cfg sched) (extractor a2 cfg sched)); auto; try (intros; now subst).
    intros c x y H. now apply on_file_alike.
  Qed.

  Lemma unit_alike p : rres (rent eq eq eq) (get_entry Fuse.unit_builder a1 p) (get_entry Fuse.unit_builder a2 p).
  Proof. apply get_entry_alike. constructor; intros; reflexivity. Qed.

  Lemma mount_alike root : Fuse.mount_range a1 root = Fuse.mount_range a2 root.
  Proof.
    unfold Fuse.mount_range. destruct root as [p|]; [|destruct alike as [-> _]; reflexivity].
    destruct (ref_from_path p) as [rel| | |]; cbn [bind]; auto. pose proof (unit_alike rel) as H.
    destruct (get_entry Fuse.unit_builder a1 rel) as [e1| | |], (get_entry Fuse.unit_builder a2 rel) as [e2| | |]; cbn [rres bind] in *; try easy; [|congruence].
    destruct e1, e2; cbn [rent] in H; try easy. now destruct H as [<- _].
  Qed.

  Lemma extract_alike w od files fl root rc pol sched last : extract_cmd w a1 od files fl root rc pol sched last = extract_cmd w a2 od files fl root rc pol sched last.
  Proof.
    unfold extract_cmd. destruct (files_to_extract w fl files); auto. rewrite mount_alike. destruct (Fuse.mount_range a2 root); auto. apply extract_range_alike.
  Qed.

End Two.
