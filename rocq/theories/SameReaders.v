(** Readers do not see where the contents are stored. *)
From Verif Require Export SpecSame ListCmd Cli.
From Verif Require Fuse.

(** Related results: the same outcome, related values. *)
Definition rres {A B} (R : A -> B -> Prop) (x : res A) (y : res B) : Prop :=
  match x, y with
  | Ok u, Ok v => R u v
  | Err e, Err f => e = f
  | Panic, Panic => True
  | Diverge, Diverge => True
  | _, _ => False
  end.

Lemma rres_eq {A} (x y : res A) : rres eq x y <-> x = y.
Proof. destruct x, y; cbn [rres]; split; intros H; subst; auto; try easy; injection H as <-; auto. Qed.

Lemma rres_bind {A B C D} (R : A -> B -> Prop) (S : C -> D -> Prop) x y f g :
  rres R x y -> (forall u v, R u v -> rres S (f u) (g v)) -> rres S (bind x f) (bind y g).
Proof. intros H Hf. destruct x, y; cbn [rres bind] in *; auto; easy. Qed.

Lemma rres_refl {A} (x : res A) : rres eq x x.
Proof. now apply rres_eq. Qed.

(** Builders that give related values on the same records. *)
Record rbuild {F1 L1 D1 F2 L2 D2} (f1 f2 : caddr -> fetched) (RF : F1 -> F2 -> Prop) (RL : L1 -> L2 -> Prop) (RD : D1 -> D2 -> Prop)
    (B1 : builder F1 L1 D1) (B2 : builder F2 L2 D2) : Prop := {
  rb_file : forall i r1 r2, same_record f1 r1 f2 r2 -> rres RF (b_file B1 i r1) (b_file B2 i r2);
  rb_link : forall i r1 r2, same_record f1 r1 f2 r2 -> rres RL (b_link B1 i r1) (b_link B2 i r2);
  rb_dir : forall i r1 r2, same_record f1 r1 f2 r2 -> rres RD (b_dir B1 i r1) (b_dir B2 i r2) }.

Definition rent {F1 L1 D1 F2 L2 D2} (RF : F1 -> F2 -> Prop) (RL : L1 -> L2 -> Prop) (RD : D1 -> D2 -> Prop)
    (e1 : gentry F1 L1 D1) (e2 : gentry F2 L2 D2) : Prop :=
  match e1, e2 with
  | GFile x, GFile y => RF x y
  | GLink x, GLink y => RL x y
  | GDir r x, GDir s y => r = s /\ RD x y
  | _, _ => False
  end.

Section Two.
  Variables a1 a2 : archive.
  Hypothesis same : same_table a1 a2.

  Local Notation sr := (same_record (a_fetch a1)).

  Lemma same_at i : match at_ (a_recs a1) i, at_ (a_recs a2) i with
    | Some r1, Some r2 => same_record (a_fetch a1) r1 (a_fetch a2) r2 | None, None => True | _, _ => False end.
  Proof.
    rewrite !at_nth. destruct same as (_ & _ & H). revert H. generalize (a_fetch a1) (a_fetch a2) (N.to_nat i). intros f1 f2 k H. revert k.
    induction H as [|r1 r2 l1 l2 Hr Hl IH]; intros [|k]; cbn [nth_error]; auto. apply IH.
  Qed.

  Lemma same_length : length (a_recs a1) = length (a_recs a2).
  Proof. destruct same as (_ & _ & H). induction H; cbn [length]; congruence. Qed.

  Lemma rec_at_same i : rres (fun r1 r2 => same_record (a_fetch a1) r1 (a_fetch a2) r2) (rec_at a1 i) (rec_at a2 i).
  Proof. unfold rec_at. pose proof (same_at i) as H. destruct (at_ (a_recs a1) i), (at_ (a_recs a2) i); auto; easy. Qed.

  Lemma ftype_same r1 r2 : same_record (a_fetch a1) r1 (a_fetch a2) r2 -> Fuse.ftype_of r1 = Fuse.ftype_of r2.
  Proof. intros (_ & _ & _ & _ & _ & _ & H). unfold Fuse.ftype_of. destruct (r_payload r1), (r_payload r2); try discriminate H; auto. Qed.

  Section Built.
    Context {F1 L1 D1 F2 L2 D2 : Type} {RF : F1 -> F2 -> Prop} {RL : L1 -> L2 -> Prop} {RD : D1 -> D2 -> Prop}.
    Variables (B1 : builder F1 L1 D1) (B2 : builder F2 L2 D2).
    Hypothesis HB : rbuild (a_fetch a1) (a_fetch a2) RF RL RD B1 B2.

    Lemma create_same i : rres (rent RF RL RD) (create_entry B1 a1 i) (create_entry B2 a2 i).
    Proof.
      unfold create_entry. eapply rres_bind; [apply rec_at_same|]. intros r1 r2 Hr. pose proof Hr as (_ & _ & _ & _ & _ & _ & Hp).
      destruct (r_payload r1), (r_payload r2); try discriminate Hp; try easy.
      - eapply rres_bind; [now apply (rb_file _ _ _ _ _ _ _ HB)|]. auto.
      - eapply rres_bind; [now apply (rb_dir _ _ _ _ _ _ _ HB)|]. intros u v H. cbn [rres rent]. split; congruence.
      - eapply rres_bind; [now apply (rb_link _ _ _ _ _ _ _ HB)|]. auto.
    Qed.

    Lemma compare_same n i : compare_entry a1 n i = compare_entry a2 n i.
    Proof.
      apply rres_eq. unfold compare_entry. eapply rres_bind; [apply rec_at_same|]. intros r1 r2 (E & _). cbn [rres]. now rewrite E.
    Qed.

    Lemma find_same r n : range_find a1 r n = range_find a2 r n.
    Proof.
      unfold range_find. generalize (S (N.size_nat (snd r))) as fuel. generalize 0 (snd r). intros l0 r0 fuel. revert l0 r0. induction fuel as [|k IH]; intros left right; cbn [bsearch]; auto.
      destruct (left <? right); auto. rewrite compare_same. destruct (compare_entry a2 n _) as [[]| | |]; cbn [bind]; auto.
    Qed.

    Lemma get_same r k : rres (rent RF RL RD) (range_get B1 a1 r k) (range_get B2 a2 r k).
    Proof. unfold range_get. destruct (k <? snd r); [apply create_same|reflexivity]. Qed.

    Lemma get_entry_in_same comps : forall r, rres (rent RF RL RD) (get_entry_in B1 a1 r comps) (get_entry_in B2 a2 r comps).
    Proof.
      induction comps as [|c rest IH]; intros r; cbn [get_entry_in]; [exact I|].
      eapply rres_bind; [rewrite find_same; apply rres_refl|]. intros found ? <-. destruct found as [k|]; [|reflexivity].
      eapply rres_bind; [apply get_same|]. intros e1 e2 He. destruct rest as [|c' rest]; [exact He|].
      destruct e1, e2; cbn [rent] in He; try easy. destruct He as [<- _]. apply IH.
    Qed.

    Lemma get_entry_same p : rres (rent RF RL RD) (get_entry B1 a1 p) (get_entry B2 a2 p).
    Proof. unfold get_entry. destruct same as [<- _]. apply get_entry_in_same. Qed.

    (** Operators that do the same with related values. *)
    Context {C : Type}.
    Variables (op1 : operator C F1 L1 D1) (op2 : operator C F2 L2 D2).
    Hypotheses (H1 : forall c, on_start op1 c = on_start op2 c) (H2 : forall c, on_stop op1 c = on_stop op2 c)
      (H3 : forall c x y, RD x y -> on_enter op1 c x = on_enter op2 c y) (H4 : forall c x y, RD x y -> on_exit op1 c x = on_exit op2 c y)
      (H5 : forall c x y, RF x y -> on_file op1 c x = on_file op2 c y) (H6 : forall c x y, RL x y -> on_link op1 c x = on_link op2 c y).

    Lemma run_range_same fuel : forall cur stop c, run_range B1 a1 op1 fuel cur stop c = run_range B2 a2 op2 fuel cur stop c.
    Proof.
      induction fuel as [|k IH]; intros cur stop c; cbn [run_range]; auto. destruct (cur =? stop); auto.
      pose proof (create_same cur) as H. destruct (create_entry B1 a1 cur) as [e1| | |], (create_entry B2 a2 cur) as [e2| | |];
        cbn [rres] in H; try easy; [|now subst]. cbn [andthen].
      destruct e1 as [x|x|r x], e2 as [y|y|s y]; cbn [rent] in H; try easy.
      - rewrite (H5 c x y H). destruct (on_file op2 c y) as [c' []]; cbn [andthen]; auto.
      - rewrite (H6 c x y H). destruct (on_link op2 c y) as [c' []]; cbn [andthen]; auto.
      - destruct H as [<- H]. rewrite (H3 c x y H). destruct (on_enter op2 c y) as [c' [ent| | |]]; cbn [andthen]; auto.
        replace (if ent then run_range B1 a1 op1 k (fst r) (fst r + snd r) c' else (c', Ok tt))
          with (if ent then run_range B2 a2 op2 k (fst r) (fst r + snd r) c' else (c', Ok tt)) by (destruct ent; auto).
        destruct (if ent then run_range B2 a2 op2 k (fst r) (fst r + snd r) c' else (c', Ok tt)) as [c2 []]; cbn [andthen]; auto.
        rewrite (H4 c2 x y H). destruct (on_exit op2 c2 y) as [c3 []]; cbn [andthen]; auto.
    Qed.

    Lemma run_from_same fuel r c : run_from_range B1 a1 op1 fuel r c = run_from_range B2 a2 op2 fuel r c.
    Proof.
      unfold run_from_range. rewrite H1. destruct (on_start op2 c) as [c' []]; cbn [andthen]; auto. rewrite run_range_same.
      destruct (run_range B2 a2 op2 fuel _ _ c') as [c2 []]; cbn [andthen]; auto.
    Qed.

    Lemma run_same c : run B1 a1 op1 c = run B2 a2 op2 c.
    Proof. unfold run, walk_fuel. rewrite same_length. destruct same as [<- _]. apply run_from_same. Qed.
  End Built.

  Definition same_file (x y : file_entry) : Prop :=
    let '(m, ad, s) := x in let '(m', ad', s') := y in m = m' /\ s = s' /\ a_fetch a1 ad = a_fetch a2 ad'.

  Lemma common_same i r1 r2 : same_record (a_fetch a1) r1 (a_fetch a2) r2 -> create_common i r1 = create_common i r2.
  Proof. intros (E1 & E2 & E3 & E4 & E5 & E6 & _). unfold create_common. now rewrite E1, E2, E3, E4, E5, E6. Qed.

  Lemma full_rbuild : rbuild (a_fetch a1) (a_fetch a2) same_file eq eq full_builder full_builder.
  Proof.
    constructor; intros i r1 r2 Hr; cbn [full_builder b_file b_link b_dir]; rewrite (common_same i r1 r2 Hr);
      pose proof Hr as (_ & _ & _ & _ & _ & _ & Hp); destruct (create_common i r2); cbn [bind rres]; auto;
      destruct (r_payload r1), (r_payload r2); try discriminate Hp; cbn [rres same_file]; auto; try easy; try congruence.
  Qed.

  Lemma list_same s : list_cmd a1 s = list_cmd a2 s.
  Proof.
    unfold list_cmd. destruct s as [v|].
    - destruct (v =? 1); auto. rewrite (run_same _ _ full_rbuild stable_lister stable_lister ltac:(auto) ltac:(auto)); auto; try (intros; now subst).
      intros c [[m ad] s] [[m' ad'] s'] (<- & <- & _). reflexivity.
    - rewrite (run_same (RF := eq) (RL := eq) (RD := eq) path_builder path_builder) with (op2 := lister); auto; try (intros; now subst).
      constructor; intros i r1 r2 (E & _); cbn [path_builder b_file b_link b_dir rres]; now rewrite E.
  Qed.

  Lemma dump_entry_same e1 e2 o : rent (fun x y => a_fetch a1 x = a_fetch a2 y) eq eq e1 e2 -> dump_entry a1 e1 o = dump_entry a2 e2 o.
  Proof. destruct e1, e2; cbn [rent]; try easy. intros E. unfold dump_entry. now rewrite E. Qed.

  Lemma dump_same w p output : dump w a1 p output = dump w a2 p output.
  Proof.
    assert (HB : rbuild (a_fetch a1) (a_fetch a2) (fun x y => a_fetch a1 x = a_fetch a2 y) eq eq dump_builder dump_builder).
    { constructor; intros i r1 r2 (_ & _ & _ & _ & _ & _ & Hp); cbn [dump_builder b_file b_link b_dir rres]; auto.
      destruct (r_payload r1), (r_payload r2); try discriminate Hp; cbn [rres]; try exact I. apply Hp. }
    pose proof (get_entry_same _ _ HB p) as H. unfold dump. destruct (get_entry dump_builder a1 p) as [e1| | |], (get_entry dump_builder a2 p) as [e2| | |];
      cbn [rres] in H; try easy; [|now subst].
    rewrite !(dump_entry_same e1 e2 _ H). reflexivity.
  Qed.

  Lemma x_rbuild : rbuild (a_fetch a1) (a_fetch a2)
    (fun x y => fst (fst x) = fst (fst y) /\ snd x = snd y /\ a_fetch a1 (snd (fst x)) = a_fetch a2 (snd (fst y))) eq eq x_builder x_builder.
  Proof.
    constructor; intros i r1 r2 (E1 & _ & _ & _ & _ & E6 & Hp); cbn [x_builder b_file b_link b_dir]; rewrite E1; try apply rres_refl;
      (destruct (of_utf8 (r_name r2)); cbn [bind rres]; auto);
      destruct (r_payload r1), (r_payload r2); try discriminate Hp; cbn [rres]; auto; try easy.
    - cbn [fst snd]. split; auto. split; [congruence|apply Hp].
    - injection Hp as <-. rewrite E6. apply rres_refl.
  Qed.

  Lemma on_file_same cfg sched c x y : fst (fst x) = fst (fst y) /\ snd x = snd y /\ a_fetch a1 (snd (fst x)) = a_fetch a2 (snd (fst y)) ->
    x_on_file a1 cfg sched c x = x_on_file a2 cfg sched c y.
  Proof. destruct x as [[n ad] t], y as [[n' ad'] t']. cbn [fst snd]. intros (<- & <- & E). unfold x_on_file. now rewrite E. Qed.

  Lemma extract_range_same rg cfg sched last f : extract_range a1 rg cfg sched last f = extract_range a2 rg cfg sched last f.
  Proof.
    unfold extract_range. unfold walk_fuel. rewrite same_length.
    rewrite (run_from_same _ _ x_rbuild (extractor a1 cfg sched) (extractor a2 cfg sched)); auto; try (intros; now subst).
    intros c x y H. now apply on_file_same.
  Qed.

  Lemma unit_same p : rres (rent eq eq eq) (get_entry Fuse.unit_builder a1 p) (get_entry Fuse.unit_builder a2 p).
  Proof. apply get_entry_same. constructor; intros; reflexivity. Qed.

  Lemma mount_same root : Fuse.mount_range a1 root = Fuse.mount_range a2 root.
  Proof.
    unfold Fuse.mount_range. destruct root as [p|]; [|destruct same as [-> _]; reflexivity].
    destruct (ref_from_path p) as [rel| | |]; cbn [bind]; auto. pose proof (unit_same rel) as H.
    destruct (get_entry Fuse.unit_builder a1 rel) as [e1| | |], (get_entry Fuse.unit_builder a2 rel) as [e2| | |]; cbn [rres bind] in *; try easy; [|congruence].
    destruct e1, e2; cbn [rent] in H; try easy. now destruct H as [<- _].
  Qed.

  Lemma extract_same w od files fl root rc pol sched last : extract_cmd w a1 od files fl root rc pol sched last = extract_cmd w a2 od files fl root rc pol sched last.
  Proof.
    unfold extract_cmd. destruct (files_to_extract w fl files); auto. rewrite mount_same. destruct (Fuse.mount_range a2 root); auto. apply extract_range_same.
  Qed.

  (** ** the mount *)
  Lemma index_same {A} (f1 f2 : N -> rec -> res A) i : (forall j r1 r2, same_record (a_fetch a1) r1 (a_fetch a2) r2 -> f1 j r1 = f2 j r2) ->
    Fuse.index_get f1 a1 i = Fuse.index_get f2 a2 i.
  Proof.
    intros H. unfold Fuse.index_get, Fuse.entry_index. destruct same as (_ & <- & _). destruct (_ <? _); auto.
    apply rres_eq. eapply rres_bind; [apply rec_at_same|]. intros r1 r2 Hr. rewrite (H _ r1 r2 Hr). apply rres_refl.
  Qed.

  Lemma light_dir_same i : Fuse.index_get Fuse.light_dir a1 i = Fuse.index_get Fuse.light_dir a2 i.
  Proof.
    apply index_same. intros j r1 r2 Hr. unfold Fuse.light_dir. rewrite (ftype_same r1 r2 Hr). pose proof Hr as (_ & _ & _ & _ & _ & _ & Hp).
    destruct (r_payload r1), (r_payload r2); try discriminate Hp; auto; try (now injection Hp as <- <-); try (now injection Hp as <-); now destruct Hp.
  Qed.

  Lemma light_link_same i : Fuse.index_get Fuse.light_link a1 i = Fuse.index_get Fuse.light_link a2 i.
  Proof.
    apply index_same. intros j r1 r2 Hr. unfold Fuse.light_link. rewrite (ftype_same r1 r2 Hr). pose proof Hr as (_ & _ & _ & _ & _ & _ & Hp).
    destruct (r_payload r1), (r_payload r2); try discriminate Hp; auto; try (now injection Hp as <-).
  Qed.

  Lemma light_parent_same i : Fuse.index_get Fuse.light_parent a1 i = Fuse.index_get Fuse.light_parent a2 i.
  Proof. apply index_same. intros j r1 r2 (_ & E & _). unfold Fuse.light_parent. now rewrite E. Qed.

  Lemma attr_same i : Fuse.index_get Fuse.build_attr a1 i = Fuse.index_get Fuse.build_attr a2 i.
  Proof.
    apply index_same. intros j r1 r2 Hr. unfold Fuse.build_attr. rewrite (ftype_same r1 r2 Hr). pose proof Hr as (_ & _ & -> & -> & -> & -> & Hp).
    destruct (r_payload r1), (r_payload r2); try discriminate Hp; auto; try (now injection Hp as <- <-); try (now injection Hp as <-). now destruct Hp as [<- _].
  Qed.

  Lemma light_file_same i : rres (fun x y => match x, y with inl c, inl c' => a_fetch a1 c = a_fetch a2 c' | Datatypes.inr k, Datatypes.inr k' => k = k' | _, _ => False end)
    (Fuse.index_get Fuse.light_file a1 i) (Fuse.index_get Fuse.light_file a2 i).
  Proof.
    unfold Fuse.index_get, Fuse.entry_index. destruct same as (_ & <- & _). destruct (_ <? _); [|reflexivity].
    eapply rres_bind; [apply rec_at_same|]. intros r1 r2 Hr. unfold Fuse.light_file. rewrite (ftype_same r1 r2 Hr). pose proof Hr as (_ & _ & _ & _ & _ & _ & Hp).
    destruct (Fuse.ftype_of r2); cbn [bind rres]; auto. destruct (r_payload r1), (r_payload r2); try discriminate Hp; cbn [rres]; auto. now destruct Hp.
  Qed.

  Section Mounted.
    Variable root : N * N.

    Lemma entry_range_same ino : Fuse.get_entry_range a1 root ino = Fuse.get_entry_range a2 root ino.
    Proof. unfold Fuse.get_entry_range. destruct (Fuse.ino_idx ino); auto. now rewrite light_dir_same. Qed.

    Lemma cached_same s i : Fuse.cached_attr a1 s i = Fuse.cached_attr a2 s i.
    Proof. unfold Fuse.cached_attr. now rewrite attr_same. Qed.

    Lemma readdir_same ino rg full is : forall s acc, Fuse.readdir_loop a1 ino rg full is s acc = Fuse.readdir_loop a2 ino rg full is s acc.
    Proof.
      induction is as [|i is IH]; intros s acc; cbn [Fuse.readdir_loop]; auto.
      assert (Ep : Fuse.parent_ino a1 ino = Fuse.parent_ino a2 ino).
      { unfold Fuse.parent_ino. destruct (Fuse.ino_idx ino); auto. now rewrite light_parent_same. }
      rewrite Ep.
      assert (Er : (let? r := rec_at a1 (fst rg + (i - 2)) in let? k := Fuse.ftype_of r in Ok (r_name r, k)) =
                   (let? r := rec_at a2 (fst rg + (i - 2)) in let? k := Fuse.ftype_of r in Ok (r_name r, k))).
      { apply rres_eq. eapply rres_bind; [apply rec_at_same|]. intros r1 r2 Hr. rewrite (ftype_same r1 r2 Hr). destruct Hr as (-> & _). apply rres_refl. }
      rewrite Er. destruct (i =? 0); [rewrite IH; reflexivity|]. destruct (i =? 1); [destruct (Fuse.parent_ino a2 ino); auto; rewrite IH; reflexivity|].
      destruct (i - 2 =? snd rg); auto. destruct (Fuse.unwrap _) as [[nm k]| | |]; auto. rewrite IH. reflexivity.
    Qed.

    Lemma step_same s q : Fuse.step a1 root s q = Fuse.step a2 root s q.
    Proof.
      destruct q; cbn [Fuse.step]; auto.
      - unfold Fuse.do_lookup. destruct (Fuse.ino_from parent) as [v| | |]; cbn [andthen]; auto.
        assert (E : Fuse.resolve a1 root v nm = Fuse.resolve a2 root v nm).
        { unfold Fuse.resolve. rewrite entry_range_same. destruct (Fuse.unwrap (Fuse.get_entry_range a2 root v)); cbn [bind]; auto. now rewrite find_same. }
        rewrite E. match goal with |- andthen ?x _ = _ => destruct x as [s' [[idx|]| | |]] end; cbn [andthen]; auto. now rewrite cached_same.
      - unfold Fuse.do_getattr. destruct (Fuse.ino_from ino) as [v| | |]; cbn [andthen]; auto. destruct (Fuse.ino_idx v); auto. now rewrite cached_same.
      - unfold Fuse.do_readlink. destruct (Fuse.ino_from ino) as [v| | |]; cbn [andthen]; auto. destruct (Fuse.ino_idx v); auto. now rewrite light_link_same.
      - unfold Fuse.do_open. destruct (Fuse.ino_from ino) as [v| | |]; cbn [andthen]; auto. destruct (Fuse.open_find v (Fuse.f_open s)) as [[data c]|]; auto.
        destruct (Fuse.ino_idx v) as [idx|]; auto. pose proof (light_file_same idx) as H.
        destruct (Fuse.index_get Fuse.light_file a1 idx) as [e1| | |], (Fuse.index_get Fuse.light_file a2 idx) as [e2| | |]; cbn [rres] in H; try easy.
        cbn [Fuse.unwrap andthen]. destruct e1, e2; try easy; [now rewrite H|now subst].
      - unfold Fuse.do_opendir. destruct (Fuse.ino_from ino) as [v| | |]; cbn [andthen]; auto. destruct (Fuse.ino_idx v); auto. now rewrite light_dir_same.
      - unfold Fuse.do_readdir. destruct (Fuse.ino_from ino) as [v| | |]; cbn [andthen]; auto. rewrite entry_range_same.
        destruct (Fuse.unwrap (Fuse.get_entry_range a2 root v)); cbn [andthen]; auto. now rewrite readdir_same.
    Qed.

    Lemma serve_same l : forall s, Fuse.serve a1 root s l = Fuse.serve a2 root s l.
    Proof.
      induction l as [|q l IH]; intros s; cbn [Fuse.serve]; auto. rewrite step_same. destruct (Fuse.step a2 root s q) as [s' []]; auto. now rewrite IH.
    Qed.
  End Mounted.
End Two.
