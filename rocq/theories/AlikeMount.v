(** Mounts of tables that are alike: SameReaders.v again, the type bits of the modes aside. *)
From Verif Require Export AlikeReaders.

Local Notation fs := Fuse.fs.
Local Notation mkFs := Fuse.mkFs.

(** Two attributes that differ at most in the type bits of the permissions. *)
Lemma perm_alike x y : same_permissions x y -> same_permissions (N.land (as_u16 x) 65389) (N.land (as_u16 y) 65389).
Proof.
  unfold same_permissions, as_u16. intros H. apply N.bits_inj_iff. intros k.
  change 4096 with (2^12) in *. destruct (N.lt_ge_cases k 12) as [Hk|Hk].
  - rewrite !N.mod_pow2_bits_low, !N.land_spec, !N.mod_pow2_bits_low by lia.
    apply (f_equal (fun z => N.testbit z k)) in H. rewrite !N.mod_pow2_bits_low in H by lia. now rewrite H.
  - now rewrite !N.mod_pow2_bits_high by lia.
Qed.

Definition two_fs (s1 s2 : fs) : Prop :=
  Fuse.f_names s1 = Fuse.f_names s2 /\ Fuse.f_open s1 = Fuse.f_open s2 /\
  Forall2 (fun x y => fst x = fst y /\ alike_attr (snd x) (snd y)) (Fuse.f_attrs s1) (Fuse.f_attrs s2).
Definition two_out {A B} (R : A -> B -> Prop) (x : fs * res A) (y : fs * res B) : Prop := two_fs (fst x) (fst y) /\ rres R (snd x) (snd y).

Lemma two_andthen {A B A' B'} (R : A -> A' -> Prop) (S : B -> B' -> Prop) x y f g : two_out R x y ->
  (forall s1 s2 u v, two_fs s1 s2 -> R u v -> two_out S (f s1 u) (g s2 v)) -> two_out S (andthen x f) (andthen y g).
Proof. destruct x as [s1 r1], y as [s2 r2]. intros [H1 H2] H. cbn [fst snd] in *. destruct r1, r2; cbn [rres andthen] in *; try easy; try (now split). now apply H. Qed.
Lemma two_same {A} s1 s2 (x : res A) : two_fs s1 s2 -> two_out eq (s1, x) (s2, x).
Proof. intros H. split; [exact H|apply rres_refl]. Qed.

Lemma two_attrs s1 s2 n1 n2 o1 o2 l1 l2 : n1 = n2 -> o1 = o2 -> Forall2 (fun x y => fst x = fst y /\ alike_attr (snd x) (snd y)) l1 l2 ->
  two_fs s1 s2 -> two_fs (mkFs n1 l1 o1) (mkFs n2 l2 o2).
Proof. intros -> -> H _. split; [reflexivity|]. split; [reflexivity|exact H]. Qed.

Lemma find_two k l1 l2 : Forall2 (fun x y => fst x = fst y /\ alike_attr (snd x) (snd y)) l1 l2 ->
  match Fuse.lru_find N.eqb k l1, Fuse.lru_find N.eqb k l2 with Some x, Some y => alike_attr x y | None, None => True | _, _ => False end.
Proof.
  intros H. induction H as [|[k1 v1] [k2 v2] l1 l2 [E Hv] _ IH]; cbn [Fuse.lru_find]; [exact I|]. cbn [fst snd] in *. subst k2.
  destruct (k =? k1); [exact Hv|exact IH].
Qed.
Lemma drop_two k l1 l2 : Forall2 (fun x y => fst x = fst y /\ alike_attr (snd x) (snd y)) l1 l2 ->
  Forall2 (fun x y => fst x = fst y /\ alike_attr (snd x) (snd y)) (Fuse.lru_drop N.eqb k l1) (Fuse.lru_drop N.eqb k l2).
Proof.
  intros H. unfold Fuse.lru_drop. induction H as [|[k1 v1] [k2 v2] l1 l2 [E Hv] _ IH]; cbn [filter]; [constructor|]. cbn [fst snd] in *. subst k2.
  destruct (negb (k =? k1)); [constructor; auto|exact IH].
Qed.
Lemma firstn_two {A B} (R : A -> B -> Prop) n l1 l2 : Forall2 R l1 l2 -> Forall2 R (firstn n l1) (firstn n l2).
Proof. intros H. revert n. induction H as [|x y l1 l2 Hx _ IH]; intros [|n]; cbn [firstn]; constructor; auto. Qed.

Section Two.
  Variables a1 a2 : archive.
  Hypothesis alike : alike_table a1 a2.

  Lemma index_alike {A B} (R : A -> B -> Prop) (f1 : N -> rec -> res A) (f2 : N -> rec -> res B) i :
    (forall j r1 r2, alike_record (a_fetch a1) r1 (a_fetch a2) r2 -> rres R (f1 j r1) (f2 j r2)) ->
    rres R (Fuse.index_get f1 a1 i) (Fuse.index_get f2 a2 i).
  Proof.
    intros H. unfold Fuse.index_get, Fuse.entry_index. pose proof alike as (_ & <- & _). destruct (_ <? _); [|reflexivity].
    eapply rres_bind; [apply (rec_at_alike _ _ alike)|]. intros r1 r2 Hr. apply H. exact Hr.
  Qed.
  Lemma index_alike_eq {A} (f1 f2 : N -> rec -> res A) i : (forall j r1 r2, alike_record (a_fetch a1) r1 (a_fetch a2) r2 -> f1 j r1 = f2 j r2) ->
    Fuse.index_get f1 a1 i = Fuse.index_get f2 a2 i.
  Proof. intros H. apply rres_eq. apply index_alike. intros j r1 r2 Hr. rewrite (H j r1 r2 Hr). apply rres_refl. Qed.

  Lemma light_dir_alike i : Fuse.index_get Fuse.light_dir a1 i = Fuse.index_get Fuse.light_dir a2 i.
  Proof.
    apply index_alike_eq. intros j r1 r2 Hr. unfold Fuse.light_dir. rewrite (ftype_alike _ _ r1 r2 Hr). pose proof Hr as (_ & _ & _ & _ & _ & _ & Hp).
    destruct (r_payload r1), (r_payload r2); try discriminate Hp; auto; try (now injection Hp as <- <-); try (now injection Hp as <-); now destruct Hp.
  Qed.
  Lemma light_link_alike i : Fuse.index_get Fuse.light_link a1 i = Fuse.index_get Fuse.light_link a2 i.
  Proof.
    apply index_alike_eq. intros j r1 r2 Hr. unfold Fuse.light_link. rewrite (ftype_alike _ _ r1 r2 Hr). pose proof Hr as (_ & _ & _ & _ & _ & _ & Hp).
    destruct (r_payload r1), (r_payload r2); try discriminate Hp; auto; try (now injection Hp as <-).
  Qed.
  Lemma light_parent_alike i : Fuse.index_get Fuse.light_parent a1 i = Fuse.index_get Fuse.light_parent a2 i.
  Proof. apply index_alike_eq. intros j r1 r2 (_ & E & _). unfold Fuse.light_parent. now rewrite E. Qed.

  Lemma attr_alike i : rres alike_attr (Fuse.index_get Fuse.build_attr a1 i) (Fuse.index_get Fuse.build_attr a2 i).
  Proof.
    apply index_alike. intros j r1 r2 Hr. unfold Fuse.build_attr. rewrite (ftype_alike _ _ r1 r2 Hr). pose proof Hr as (_ & _ & E1 & E2 & E3 & E4 & Hp).
    destruct (Fuse.ftype_of r2) as [k| | |]; cbn [bind rres]; auto.
    assert (Es : (match r_payload r1 with RFile _ s => Ok s | RDir _ nb => Fuse.u64 ((nb + 1) * 10) | RLink t => Ok (N.of_nat (length t)) | RBad _ => Err EBadVariant end) =
                 (match r_payload r2 with RFile _ s => Ok s | RDir _ nb => Fuse.u64 ((nb + 1) * 10) | RLink t => Ok (N.of_nat (length t)) | RBad _ => Err EBadVariant end)).
    { destruct (r_payload r1), (r_payload r2); try discriminate Hp; auto; try (now injection Hp as <- <-); try (now injection Hp as <-). now destruct Hp as [<- _]. }
    rewrite Es. clear Es. match goal with |- rres _ (bind ?x _) _ => destruct x as [size| | |] end; cbn [bind rres]; auto.
    match goal with |- rres _ (bind ?x _) _ => destruct x as [all| | |] end; cbn [bind rres]; auto.
    rewrite E4. destruct (r_mtime r2 <? 2^63); [|exact I]. cbn [rres]. rewrite E1, E2. unfold alike_attr. cbn [Fuse.at_ino Fuse.at_size Fuse.at_kind Fuse.at_blocks Fuse.at_mtime Fuse.at_perm Fuse.at_nlink Fuse.at_uid Fuse.at_gid Fuse.at_blksize].
    do 9 (split; [reflexivity|]). now apply perm_alike.
  Qed.

  Lemma light_file_alike i : rres (fun x y => match x, y with inl c, inl c' => a_fetch a1 c = a_fetch a2 c' | Datatypes.inr k, Datatypes.inr k' => k = k' | _, _ => False end)
    (Fuse.index_get Fuse.light_file a1 i) (Fuse.index_get Fuse.light_file a2 i).
  Proof.
    apply index_alike. intros j r1 r2 Hr. unfold Fuse.light_file. rewrite (ftype_alike _ _ r1 r2 Hr). pose proof Hr as (_ & _ & _ & _ & _ & _ & Hp).
    destruct (Fuse.ftype_of r2); cbn [bind rres]; auto. destruct (r_payload r1), (r_payload r2); try discriminate Hp; cbn [rres]; auto. now destruct Hp.
  Qed.

  Section Mounted.
    Variable root : N * N.

    Lemma entry_range_alike ino : Fuse.get_entry_range a1 root ino = Fuse.get_entry_range a2 root ino.
    Proof. unfold Fuse.get_entry_range. destruct (Fuse.ino_idx ino); auto. now rewrite light_dir_alike. Qed.

    Lemma cached_alike s1 s2 i : two_fs s1 s2 -> two_out alike_attr (Fuse.cached_attr a1 s1 i) (Fuse.cached_attr a2 s2 i).
    Proof.
      intros Hs. pose proof Hs as (En & Eo & Hl). unfold Fuse.cached_attr, Fuse.lru_get. pose proof (find_two i _ _ Hl) as Hf.
      destruct (Fuse.lru_find N.eqb i (Fuse.f_attrs s1)) as [x|], (Fuse.lru_find N.eqb i (Fuse.f_attrs s2)) as [y|]; try contradiction.
      - split; cbn [fst snd rres]; [|exact Hf]. apply (two_attrs s1 s2); auto. constructor; [now split|now apply drop_two].
      - pose proof (attr_alike i) as Ha. destruct (Fuse.index_get Fuse.build_attr a1 i) as [x| | |], (Fuse.index_get Fuse.build_attr a2 i) as [y| | |]; cbn [rres Fuse.unwrap] in *; try easy.
        split; cbn [fst snd rres]; [|exact Ha]. apply (two_attrs s1 s2); auto. unfold Fuse.lru_put. apply firstn_two. constructor; [now split|now apply drop_two].
    Qed.

    Lemma readdir_alike ino rg full is : forall s1 s2 acc, two_fs s1 s2 -> two_out eq (Fuse.readdir_loop a1 ino rg full is s1 acc) (Fuse.readdir_loop a2 ino rg full is s2 acc).
    Proof.
      induction is as [|i is IH]; intros s1 s2 acc Hs; cbn [Fuse.readdir_loop]; [now apply two_same|].
      assert (Ep : Fuse.parent_ino a1 ino = Fuse.parent_ino a2 ino).
      { unfold Fuse.parent_ino. destruct (Fuse.ino_idx ino); auto. now rewrite light_parent_alike. }
      rewrite Ep.
      assert (Er : (let? r := rec_at a1 (fst rg + (i - 2)) in let? k := Fuse.ftype_of r in Ok (r_name r, k)) =
                   (let? r := rec_at a2 (fst rg + (i - 2)) in let? k := Fuse.ftype_of r in Ok (r_name r, k))).
      { apply rres_eq. eapply rres_bind; [apply (rec_at_alike _ _ alike)|]. intros r1 r2 Hr. rewrite (ftype_alike _ _ r1 r2 Hr). destruct Hr as (-> & _). apply rres_refl. }
      rewrite Er. destruct (i =? 0); [destruct (full _ _); [now apply two_same|now apply IH]|].
      destruct (i =? 1); [destruct (Fuse.parent_ino a2 ino); try (now apply two_same); destruct (full _ _); [now apply two_same|now apply IH]|].
      destruct (i - 2 =? snd rg); [now apply two_same|]. destruct (Fuse.unwrap _) as [[nm k]| | |]; try (now apply two_same).
      pose proof Hs as (En & Eo & Hl). destruct (full _ _); [apply two_same|apply IH]; (apply (two_attrs s1 s2); auto; now rewrite En).
    Qed.

    Lemma step_alike s1 s2 q : two_fs s1 s2 -> two_out alike_reply (Fuse.step a1 root s1 q) (Fuse.step a2 root s2 q).
    Proof.
      intros Hs. assert (Hok : forall t1 t2 r, (match r with Fuse.REntry _ | Fuse.RAttr _ => False | _ => True end) -> two_fs t1 t2 -> two_out alike_reply (t1, Ok r) (t2, Ok r)).
      { intros t1 t2 r Hr Ht. split; [exact Ht|]. cbn [snd rres]. destruct r; cbn [alike_reply]; try contradiction; reflexivity. }
      destruct q; cbn [Fuse.step].
      - unfold Fuse.do_lookup. eapply two_andthen; [now apply two_same|]. intros t1 t2 v ? Ht <-.
        eapply (two_andthen eq).
        + pose proof Ht as (En & Eo & Hl). assert (E : Fuse.resolve a1 root v nm = Fuse.resolve a2 root v nm).
          { unfold Fuse.resolve. rewrite entry_range_alike. destruct (Fuse.unwrap (Fuse.get_entry_range a2 root v)); cbn [bind]; auto. now rewrite (find_alike _ _ alike). }
          rewrite E, En. destruct (Fuse.lru_get Fuse.rkey_eqb (v, nm) (Fuse.f_names t2)) as [[w|] l]; [apply two_same; apply (two_attrs t1 t2); auto|].
          destruct (Fuse.resolve a2 root v nm) as [w| | |]; apply two_same; auto. apply (two_attrs t1 t2); auto.
        + intros u1 u2 [idx|] ? Hu <-; [|now apply Hok]. eapply two_andthen; [now apply cached_alike|]. intros x1 x2 y1 y2 Hx Hy. split; [exact Hx|exact Hy].
      - unfold Fuse.do_getattr. eapply two_andthen; [now apply two_same|]. intros t1 t2 v ? Ht <-. destruct (Fuse.ino_idx v).
        + eapply two_andthen; [now apply cached_alike|]. intros x1 x2 y1 y2 Hx Hy. split; [exact Hx|exact Hy].
        + split; [exact Ht|]. cbn [snd rres alike_reply]. unfold alike_attr. do 9 (split; [reflexivity|]). reflexivity.
      - unfold Fuse.do_readlink. eapply two_andthen; [now apply two_same|]. intros t1 t2 v ? Ht <-. destruct (Fuse.ino_idx v); [|now apply Hok].
        rewrite light_link_alike. eapply two_andthen; [now apply two_same|]. intros u1 u2 [t|k] ? Hu <-; now apply Hok.
      - unfold Fuse.do_open. eapply two_andthen; [now apply two_same|]. intros t1 t2 v ? Ht <-. pose proof Ht as (En & Eo & Hl). rewrite Eo.
        destruct (Fuse.open_find v (Fuse.f_open t2)) as [[data c]|]; [apply Hok; [exact I|apply (two_attrs t1 t2); auto]|].
        destruct (Fuse.ino_idx v) as [idx|]; [|now apply Hok]. pose proof (light_file_alike idx) as H.
        destruct (Fuse.index_get Fuse.light_file a1 idx) as [e1| | |], (Fuse.index_get Fuse.light_file a2 idx) as [e2| | |]; cbn [rres] in H; try easy;
          cbn [Fuse.unwrap andthen]; try (now split). destruct e1 as [c1|k1], e2 as [c2|k2]; try contradiction.
        + rewrite H. destruct (a_fetch a2 c2); try (now apply Hok). apply Hok; [exact I|]. apply (two_attrs t1 t2); auto. now rewrite Eo.
        + subst k2. destruct k1; try (now apply Hok). now split.
      - unfold Fuse.do_read. eapply two_andthen; [now apply two_same|]. intros t1 t2 v ? Ht <-. pose proof Ht as (En & Eo & Hl). rewrite Eo.
        destruct (Fuse.open_find v (Fuse.f_open t2)) as [[data c]|]; [|now split]. destruct (_ <? _); [now split|now apply Hok].
      - unfold Fuse.do_release. eapply two_andthen; [now apply two_same|]. intros t1 t2 v ? Ht <-. pose proof Ht as (En & Eo & Hl). rewrite Eo.
        destruct (Fuse.open_find v (Fuse.f_open t2)) as [[data c]|]; [|now apply Hok]. apply Hok; [exact I|]. apply (two_attrs t1 t2); auto.
      - unfold Fuse.do_opendir. eapply two_andthen; [now apply two_same|]. intros t1 t2 v ? Ht <-. destruct (Fuse.ino_idx v); [|now apply Hok].
        rewrite light_dir_alike. eapply two_andthen; [now apply two_same|]. intros u1 u2 [t|k] ? Hu <-; now apply Hok.
      - unfold Fuse.do_readdir. eapply two_andthen; [now apply two_same|]. intros t1 t2 v ? Ht <-. rewrite entry_range_alike.
        eapply two_andthen; [now apply two_same|]. intros u1 u2 rg ? Hu <-. destruct (_ <? _); [|now split].
        eapply two_andthen; [now apply readdir_alike|]. intros x1 x2 y1 ? Hx <-. now apply Hok.
      - now apply Hok.
    Qed.

    Lemma serve_alike l : forall s1 s2, two_fs s1 s2 -> Forall2 (rres alike_reply) (snd (Fuse.serve a1 root s1 l)) (snd (Fuse.serve a2 root s2 l)).
    Proof.
      induction l as [|q l IH]; intros s1 s2 Hs; cbn [Fuse.serve]; [constructor|]. pose proof (step_alike s1 s2 q Hs) as [H1 H2].
      destruct (Fuse.step a1 root s1 q) as [t1 r1], (Fuse.step a2 root s2 q) as [t2 r2]. cbn [fst snd] in *.
      destruct r1, r2; cbn [rres] in H2; try easy; try (constructor; [exact H2|constructor]).
      specialize (IH _ _ H1). destruct (Fuse.serve a1 root t1 l) as [u1 o1], (Fuse.serve a2 root t2 l) as [u2 o2]. cbn [snd] in *. constructor; [exact H2|exact IH].
    Qed.
  End Mounted.
End Two.
