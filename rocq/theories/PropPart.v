(** C97: reading some of an archive needs only that part of it. *)
From Verif Require Export PartFacts PartExtract PartWalk ConvertMembers PropPython DemoHost.
From Verif Require PropRead PropFine PropRemount DemoAdd.

(** Looking a path up reads at most [k] records per component when no directory has [2^k] entries: an
    archive that agrees on these gives the same answer, whatever else it holds. *)
Theorem C97_lookup : forall k a p, few_per_dir k a -> exists R, (length R <= k * length (pieces p))%nat /\
  forall a', agrees_on R [] a a' -> forall F L D (B : builder F L D), get_entry B a' p = get_entry B a p.
Proof.
  intros k a p Hn. destruct (lookup_reads a k Hn (pieces p) (a_root a) (proj1 Hn)) as (R & H1 & H2). exists R. split; [exact H1|].
  intros a' Ha F L D B. unfold get_entry. rewrite iter_pieces. pose proof Ha as (-> & _). apply (H2 R [] a'); auto.
Qed.
Print Assumptions C97_lookup.

(** [arx dump] reads one content, that of the file. *)
Theorem C97_dump : forall k a p, few_per_dir k a -> exists R X, (length R <= k * length (pieces p))%nat /\
  ((length X <= 1)%nat /\ forall x, In x X -> get_entry dump_builder a p = Ok (GFile x)) /\
  forall a', agrees_on R X a a' -> forall w out, dump w a' p out = dump w a p out.
Proof.
  intros k a p Hn. destruct (C97_lookup k a p Hn) as (R & H1 & H2).
  exists R, (match get_entry dump_builder a p with Ok (GFile x) => [x] | _ => [] end).
  split; [exact H1|]. split; [destruct (get_entry dump_builder a p) as [[x|x|r x]| | |]; (split; [cbn [length]; lia|]); intros y Hy; try destruct Hy as [<-|[]]; try destruct Hy; reflexivity|].
  intros a' Ha w out. unfold dump. rewrite (H2 a') by (apply (agrees_more R R [] _ a a') in Ha; auto; intros x []).
  destruct (get_entry dump_builder a p) as [e| | |] eqn:Ee; auto.
  assert (E : forall o, dump_entry a' e o = dump_entry a e o).
  { intros o. destruct e as [x|x|r x]; auto. unfold dump_entry. destruct Ha as (_ & _ & _ & ->); [reflexivity|now left]. }
  destruct out as [out|]; rewrite ?E; reflexivity.
Qed.
Print Assumptions C97_dump.

Lemma from_path_shorter s p : from_path s = Ok p -> (length (pieces p) <= length (pieces s))%nat.
Proof.
  destruct s as [|c s]; [cbn; intros H; injection H as <-; cbn; lia|].
  destruct (is_abs (c :: s)) eqn:Ha; [rewrite from_path_abs by auto; discriminate|].
  destruct (forallb utf8 (filter not_dot (pieces (c :: s)))) eqn:Hu; [|rewrite from_path_bad by auto; discriminate].
  destruct (from_path_ok (c :: s)) as [E1 E2]; auto; [easy|]. rewrite E1. intros H. injection H as <-. rewrite E2. clear.
  generalize (pieces (c :: s)) as ps. intros ps. induction ps as [|x ps IH]; cbn [filter length]; [lia|]. destruct (not_dot x); cbn [length]; lia.
Qed.

(** The same from Python: the entry, and the stream of its content. *)
Theorem C97_python : forall k a s, few_per_dir k a -> exists R X, (length R <= k * length (pieces s))%nat /\
  ((length X <= 1)%nat /\ forall x, In x X -> exists e, py_get_entry a s = Ok e /\ py_content_address e = Ok x) /\
  forall a', agrees_on R X a a' -> py_get_entry a' s = py_get_entry a s /\
    forall e, py_get_entry a s = Ok e -> py_get_content a' e = py_get_content a e.
Proof.
  intros k a s Hn. unfold py_get_entry. destruct (from_path s) as [p| | |] eqn:Ep.
  2-4: exists [], []; split; [cbn; lia|]; split; [split; [cbn; lia|intros x []]|]; intros a' _; cbn [bind]; split; [reflexivity|intros ee E; discriminate E].
  assert (Hlen : (length (pieces p) <= length (pieces s))%nat).
  { exact (from_path_shorter s p Ep). }
  destruct (C97_lookup k a p Hn) as (R & H1 & H2).
  exists R, (match get_entry full_builder a p with Ok (GFile (_, x, _)) => [x] | _ => [] end).
  split; [nia|]. split; [cbn [bind]; destruct (get_entry full_builder a p) as [[[[c x] sz]|x|r x]| | |]; (split; [cbn [length]; lia|]); intros y Hy; try destruct Hy as [<-|[]]; try destruct Hy; eexists; split; reflexivity|].
  intros a' Ha. cbn [bind]. rewrite (H2 a') by (apply (agrees_more R R [] _ a a') in Ha; auto; intros x []).
  split; [reflexivity|]. intros e E. destruct (get_entry full_builder a p) as [e0| | |] eqn:Ee; try discriminate E. injection E as ->.
  destruct e as [[[c x] sz]|x|r x]; auto. cbn [py_get_content]. unfold py_content. destruct Ha as (_ & _ & _ & ->); [reflexivity|now left].
Qed.
Print Assumptions C97_python.

Lemma open_x a idx ino v : Fuse.ino_from ino = Ok v -> Fuse.ino_idx v = Some idx ->
  let X := match Fuse.index_get Fuse.light_file a idx with Ok (inl x) => [x] | _ => [] end in
  (length X <= 1)%nat /\ forall x, In x X -> exists ino' r sz, Fuse.Open ino = Fuse.Open ino' /\
     at_ (a_recs a) (fst (a_entries a) + (ino' - 2) mod 2^32) = Some r /\ r_payload r = RFile x sz.
Proof.
  unfold Fuse.ino_from, Fuse.ino_idx. destruct (ino =? 0); [intros E; discriminate E|]. intros E. injection E as <-.
  destruct (ino =? 1); intros E; [discriminate E|]. injection E as <-. cbv zeta. unfold Fuse.index_get, Fuse.entry_index, rec_at.
  destruct (_ <? _); [|split; [cbn; lia|intros x []]]. change (as_u32 (ino - 2)) with ((ino - 2) mod 2^32).
  destruct (at_ (a_recs a) _) as [r|] eqn:Er; [|split; [cbn; lia|intros x []]].
  cbn [bind]. unfold Fuse.light_file, Fuse.ftype_of. destruct (r_payload r) as [y sz|first nb|t|vv] eqn:Ep; cbn [bind]; (split; [cbn [length]; lia|]); intros x Hx; try destruct Hx as [<-|[]]; try destruct Hx.
  exists ino, r, sz. auto.
Qed.

(** A request to a mount: a look-up reads at most [k + 2] records, a page of a directory at most three
    more than it lists, the others at most one; only [open] reads a content. *)
Theorem C97_request : forall k a root s q, few_per_dir k a -> snd root < 2 ^ N.of_nat k -> exists R X,
  ((length X <= 1)%nat /\ forall x, In x X -> exists ino r sz, q = Fuse.Open ino /\
     at_ (a_recs a) (fst (a_entries a) + (ino - 2) mod 2^32) = Some r /\ r_payload r = RFile x sz) /\
  match q with
  | Fuse.Lookup _ _ => (length R <= k + 2)%nat
  | Fuse.Readdir _ _ _ => forall l, snd (Fuse.step a root s q) = Ok (Fuse.RDirents l) -> (length R <= length l + 3)%nat
  | Fuse.Read _ _ _ | Fuse.Release _ | Fuse.Releasedir _ => R = []
  | _ => (length R <= 1)%nat
  end /\
  forall a', agrees_on R X a a' -> Fuse.step a' root s q = Fuse.step a root s q.
Proof.
  intros k a root s q Hn Hroot.
  assert (nox : (length (@nil caddr) <= 1)%nat /\ forall x, In x (@nil caddr) -> exists ino r sz, q = Fuse.Open ino /\
     at_ (a_recs a) (fst (a_entries a) + (ino - 2) mod 2^32) = Some r /\ r_payload r = RFile x sz) by (split; [cbn; lia|intros x []]).
  destruct q as [parent nm|ino|ino|ino|ino off size|ino|ino|ino off full|ino]; cbn [Fuse.step].
  - unfold Fuse.do_lookup. destruct (Fuse.ino_from parent) as [v| | |]; [|exists [], []; split; [exact nox|]; split; [cbn; lia|]; reflexivity..].
    destruct (range_reads a root v) as (R1 & L1 & E1).
    assert (Hres : exists R, (length R <= k + 1)%nat /\ forall R' X a', (forall i, In i R -> In i R') -> agrees_on R' X a a' -> Fuse.resolve a' root v nm = Fuse.resolve a root v nm).
    { assert (Hrg : forall rg, Fuse.get_entry_range a root v = Ok rg -> snd rg < 2 ^ N.of_nat k).
      { intros rg. unfold Fuse.get_entry_range. destruct (Fuse.ino_idx v) as [idx|]; [|intros E; injection E as <-; exact Hroot].
        unfold Fuse.index_get, rec_at. destruct (_ <? _); [|intros E; discriminate E]. destruct (at_ (a_recs a) _) as [r|] eqn:Er; [|intros E; discriminate E].
        cbn [bind]. unfold Fuse.light_dir. destruct (Fuse.ftype_of r); [|intros E; discriminate E..]. cbn [bind].
        destruct (r_payload r) as [x sz|first nb|t|vv] eqn:Ep; cbn [bind]; intros E; try discriminate E. injection E as <-. cbn [snd]. exact (proj2 Hn _ _ _ _ Er Ep). }
      unfold Fuse.resolve. destruct (Fuse.get_entry_range a root v) as [rg| | |] eqn:Eg.
      2-4: exists R1; split; [lia|]; intros R' X a' Hin Ha; rewrite (E1 R' X a' Hin Ha); reflexivity.
      destruct (find_reads a rg nm k (Hrg rg eq_refl)) as (R2 & L2 & _ & E2). exists (R1 ++ R2). split; [rewrite app_length; lia|].
      intros R' X a' Hin Ha. rewrite (E1 R' X a') by (auto; intros i Hi; apply Hin, in_or_app; now left).
      cbn [Fuse.unwrap bind]. rewrite (E2 R' X a') by (auto; intros i Hi; apply Hin, in_or_app; now right). reflexivity. }
    destruct Hres as (R2 & L2 & E2). cbn [andthen].
    match goal with |- context [andthen ?y _ = andthen ?y0 _] => idtac | |- _ => idtac end.
    destruct (Fuse.lru_get Fuse.rkey_eqb (v, nm) (Fuse.f_names s)) as [[w|] l1].
    + cbn [andthen]. destruct w as [idx|]; [|exists [], []; split; [exact nox|]; split; [cbn; lia|]; reflexivity].
      exists [fst (a_entries a) + idx], []. split; [exact nox|]. split; [cbn [length]; lia|].
      intros a' Ha. now rewrite (cached_reads a idx _ _ _ _ Ha (or_introl eq_refl)).
    + exists (match Fuse.resolve a root v nm with Ok (Some idx) => (fst (a_entries a) + idx) :: R2 | _ => R2 end), [].
      split; [exact nox|]. split; [destruct (Fuse.resolve a root v nm) as [[idx|]| | |]; cbn [length]; lia|].
      intros a' Ha. rewrite (E2 _ _ a') with (2 := Ha) by (intros i Hi; destruct (Fuse.resolve a root v nm) as [[idx|]| | |]; try exact Hi; now right).
      destruct (Fuse.resolve a root v nm) as [[idx|]| | |]; cbn [andthen]; try reflexivity.
      now rewrite (cached_reads a idx _ _ _ _ Ha (or_introl eq_refl)).
  - unfold Fuse.do_getattr. destruct (Fuse.ino_from ino) as [v| | |]; [|exists [], []; split; [exact nox|]; split; [cbn; lia|]; reflexivity..].
    cbn [andthen]. destruct (Fuse.ino_idx v) as [idx|]; [|exists [], []; split; [exact nox|]; split; [cbn; lia|]; reflexivity].
    exists [fst (a_entries a) + idx], []. split; [exact nox|]. split; [cbn; lia|]. intros a' Ha. now rewrite (cached_reads a idx _ _ _ _ Ha (or_introl eq_refl)).
  - unfold Fuse.do_readlink. destruct (Fuse.ino_from ino) as [v| | |]; [|exists [], []; split; [exact nox|]; split; [cbn; lia|]; reflexivity..].
    cbn [andthen]. destruct (Fuse.ino_idx v) as [idx|]; [|exists [], []; split; [exact nox|]; split; [cbn; lia|]; reflexivity].
    exists [fst (a_entries a) + idx], []. split; [exact nox|]. split; [cbn; lia|]. intros a' Ha. now rewrite (index_reads Fuse.light_link _ _ _ _ _ Ha (or_introl eq_refl)).
  - unfold Fuse.do_open. destruct (Fuse.ino_from ino) as [v| | |] eqn:Ev; [|exists [], []; split; [exact nox|]; split; [cbn; lia|]; reflexivity..].
    cbn [andthen]. destruct (Fuse.open_find v (Fuse.f_open s)) as [[data c]|]; [exists [], []; split; [exact nox|]; split; [cbn; lia|]; reflexivity|].
    destruct (Fuse.ino_idx v) as [idx|] eqn:Ei; [|exists [], []; split; [exact nox|]; split; [cbn; lia|]; reflexivity].
    exists [fst (a_entries a) + idx], (match Fuse.index_get Fuse.light_file a idx with Ok (inl x) => [x] | _ => [] end).
    split; [exact (open_x a idx ino v Ev Ei)|]. split; [cbn; lia|].
    intros a' Ha. rewrite (index_reads Fuse.light_file _ _ _ _ _ Ha (or_introl eq_refl)).
    destruct (Fuse.index_get Fuse.light_file a idx) as [[x|ty]| | |]; cbn [Fuse.unwrap andthen]; try reflexivity.
    destruct Ha as (_ & _ & _ & ->); [reflexivity|now left].
  - exists [], []. split; [exact nox|]. split; reflexivity.
  - exists [], []. split; [exact nox|]. split; reflexivity.
  - unfold Fuse.do_opendir. destruct (Fuse.ino_from ino) as [v| | |]; [|exists [], []; split; [exact nox|]; split; [cbn; lia|]; reflexivity..].
    cbn [andthen]. destruct (Fuse.ino_idx v) as [idx|]; [|exists [], []; split; [exact nox|]; split; [cbn; lia|]; reflexivity].
    exists [fst (a_entries a) + idx], []. split; [exact nox|]. split; [cbn; lia|]. intros a' Ha. now rewrite (index_reads Fuse.light_dir _ _ _ _ _ Ha (or_introl eq_refl)).
  - unfold Fuse.do_readdir. destruct (Fuse.ino_from ino) as [v| | |]; [|exists [], []; split; [exact nox|]; split; [intros l E; discriminate E|]; reflexivity..].
    cbn [andthen]. destruct (range_reads a root v) as (R1 & L1 & E1). destruct (parent_reads a v) as (R2 & L2 & E2).
    destruct (Fuse.unwrap (Fuse.get_entry_range a root v)) as [rg| | |] eqn:Eg.
    2-4: exists R1, []; split; [exact nox|]; split; [cbn [andthen snd]; intros l E; discriminate E|]; intros a' Ha; rewrite (E1 R1 [] a') by auto; rewrite Eg; reflexivity.
    cbn [andthen]. destruct (snd rg + 2 <? 2 ^ 32) eqn:Eb; [|exists R1, []; split; [exact nox|]; split; [intros l E; discriminate E|]; intros a' Ha; rewrite (E1 R1 [] a') by auto; rewrite Eg; cbn [andthen]; now rewrite Eb].
    cbv zeta. match goal with |- context [Fuse.readdir_loop a v rg full ?is s []] => destruct (readdir_reads a v rg full is s []) as (R3 & K3 & E3); set (isx := is) in * end.
    exists (R1 ++ R2 ++ R3), []. split; [exact nox|]. split.
    + intros l E. rewrite !app_length. destruct (Fuse.readdir_loop a v rg full isx s []) as [s1 [l0| | |]] eqn:El; cbn [andthen snd] in E; try discriminate E.
      injection E as <-. specialize (K3 l0 eq_refl). cbn [length] in K3. lia.
    + intros a' Ha. rewrite (E1 _ _ a') with (2 := Ha) by (intros i Hi; apply in_or_app; now left). rewrite Eg. cbn [andthen]. rewrite Eb. cbv zeta.
      fold isx. rewrite (E3 _ _ a') with (2 := Ha); [reflexivity|intros i Hi; apply in_or_app; right; apply in_or_app; now right|].
      apply (E2 _ _ a') with (2 := Ha). intros i Hi. apply in_or_app. right. apply in_or_app. now left.
  - exists [], []. split; [exact nox|]. split; reflexivity.
Qed.
Print Assumptions C97_request.

(** [arx list] needs no content at all. *)
Theorem C97_list : forall a f' stable, list_cmd (with_contents a f') stable = list_cmd a stable.
Proof. intros a f' stable. unfold list_cmd, run. change (walk_fuel (with_contents a f')) with (walk_fuel a). change (a_root (with_contents a f')) with (a_root a). now rewrite !run_from_with. Qed.
Print Assumptions C97_list.

(** Extraction needs the records of what is in the directories it enters - the one extracted and the
    selected ones below - and the contents of the selected files only. *)
Theorem C97_extract : forall l fetch a rg d cfg a', small l -> archive_of l fetch a -> dir_range a rg d -> plain_names a d -> plain_list (x_files cfg) ->
  length (a_recs a') = length (a_recs a) ->
  (forall i p x, apath a i (d ++ p ++ [x]) -> p = [] \/ selected (x_files cfg) (x_recurse cfg) p true -> at_ (a_recs a') i = at_ (a_recs a) i) ->
  (forall p s x m, p <> [] -> has l (d ++ p) (KFile s x, m) -> selected (x_files cfg) (x_recurse cfg) p false -> a_fetch a' x = fetch x) ->
  forall sched last f, extract_range a' rg cfg sched last f = extract_range a rg cfg sched last f.
Proof.
  intros l fetch a rg d cfg a' Hs Ha Hrg Hpn Hpl Hlen Hrec Hsame sched last f.
  destruct (archive_ok l fetch a Hs Ha) as (m & _ & _ & Hfetch & Hw & _).
  assert (Hn : handled_below a d) by (exact (plain_handled a d Hpn)).
  apply (extract_part a a' cfg sched Hw rg d last f Hrg Hn Hlen).
  - intros i p x Hap Hsel. apply (Hrec i p x Hap). destruct p as [|y p]; [now left|]. right.
    destruct Hsel as [E|Hsel]; [discriminate E|]. apply (is_selected cfg (y :: p) true Hpl ltac:(discriminate)); [|exact Hsel].
    apply Hn in Hap. now apply handled_app in Hap.
  - intros i p r x s Hp Hap Hr Hpay Hsel. rewrite Hfetch. apply (Hsame p s x (meta_of_rec r) Hp).
    + apply (archive_has l fetch a _ _ Hs Ha). exists i, r. split; [exact Hr|]. split; [exact Hap|]. unfold node_of_rec. now rewrite Hpay.
    + apply (is_selected cfg p false Hpl Hp (Hn i p Hap)). exact Hsel.
Qed.
Print Assumptions C97_extract.

(** What is damaged does matter when everything is extracted: one content that cannot be read stops the
    whole extraction, and entries that need no content or another one are not extracted. *)
Definition bad0 : caddr -> fetched := fun c => match ca_content c with 0 => FetchErr | _ => demo_fetch c end.
Theorem C97_damage_refuted : exists g, archive_of demo bad0 (with_contents demo_arx bad0) /\
  extract_range (with_contents demo_arx bad0) (a_root demo_arx) (cfg_all Skip) idle all_turns host0 = (g, Panic) /\
  (exists t mt, has demo [b "l"] (KLink t, mt)) /\ h_names g (at_out ++ [b "l"]) = None /\
  (exists s x mt, has demo [b "a"; b "z"] (KFile s x, mt) /\ bad0 x = Found (b "xyz")) /\ h_names g (at_out ++ [b "a"; b "z"]) = None.
Proof.
  eexists. split; [vm_compute; reflexivity|]. split; [vm_compute; reflexivity|].
  split; [|split; [vm_compute; reflexivity|split; [|vm_compute; reflexivity]]].
  - exists (b "a/b"), d_meta. exact (proj2 PropRead.C12_meets_hypotheses).
  - exists 3, (mkAddr 1 1), d_meta. split; [exact PropFine.demo_has_z|vm_compute; reflexivity].
Qed.
Print Assumptions C97_damage_refuted.

(** The demonstration archive has no directory of four entries; with the record and the content of
    "a/b/f.txt" replaced by nonsense, "a/z" is still dumped. *)
Definition demo_hurt : archive :=
  mkArchive (firstn 4 (a_recs demo_arx) ++ [mkRec (b "??") 77 0 0 0 0 (RBad 9)]) (a_root demo_arx) (a_entries demo_arx) bad0.
Example C97_meets_hypotheses :
  few_per_dir 2 demo_arx /\ agrees_on [0; 1; 2; 3] [mkAddr 1 1] demo_arx demo_hurt /\
  a_recs demo_hurt <> a_recs demo_arx /\ a_fetch demo_hurt (mkAddr 1 0) <> a_fetch demo_arx (mkAddr 1 0) /\
  dump DemoAdd.src_world demo_hurt (b "a/z") None = (b "xyz", Ok tt).
Proof.
  split.
  { split; [vm_compute; reflexivity|]. intros i r first nb Hi Hr. unfold at_ in Hi. destruct (_ <? _) in Hi; [|discriminate Hi]. destruct (N.to_nat i) as [|[|[|[|[|n]]]]]; cbn in Hi.
    1-5: injection Hi as <-; cbn in Hr; try discriminate Hr; injection Hr as <- <-; vm_compute; reflexivity.
    destruct n; discriminate Hi. }
  split.
  { split; [reflexivity|]. split; [reflexivity|]. split.
    - intros i [E|[E|[E|[E|[]]]]]; subst i; vm_compute; reflexivity.
    - intros x [E|[]]; subst x; vm_compute; reflexivity. }
  split; [intros E; vm_compute in E; discriminate E|]. split; [intros E; vm_compute in E; discriminate E|]. vm_compute. reflexivity.
Qed.

(** Only "a/z" is asked for, of an archive in which the record and the content of "a/b/f.txt" are
    nonsense: it is extracted. *)
Lemma demo_paths i p : apath demo_arx i p -> In (i, p) [(0, [b "a"]); (1, [b "l"]); (2, [b "a"; b "b"]); (3, [b "a"; b "z"]); (4, [b "a"; b "b"; b "f.txt"])].
Proof.
  induction 1 as [i r Hi Hp|i r j p Hi Hp _ IH].
  - unfold at_ in Hi. destruct (i <? _) eqn:Ei in Hi; [|discriminate Hi]. change (i <? 5 = true) in Ei. apply N.ltb_lt in Ei.
    assert (Hc : i = 0 \/ i = 1 \/ i = 2 \/ i = 3 \/ i = 4) by lia.
    destruct Hc as [-> |[-> |[-> |[-> | ->]]]]; injection Hi as <-; try discriminate Hp; cbn; auto.
  - unfold at_ in Hi. destruct (i <? _) eqn:Ei in Hi; [|discriminate Hi]. change (i <? 5 = true) in Ei. apply N.ltb_lt in Ei.
    assert (Hc : i = 0 \/ i = 1 \/ i = 2 \/ i = 3 \/ i = 4) by lia.
    destruct Hc as [-> |[-> |[-> |[-> | ->]]]]; injection Hi as <-; cbn [r_parent] in Hp; cbn [r_name]; try lia.
    all: destruct IH as [E|[E|[E|[E|[E|[]]]]]]; injection E as <- <-; try lia; cbn; auto 8.
Qed.

Example C97_extract_meets_hypotheses :
  let cfg := mkConfig [b "a/z"] (x_base (cfg_all Skip)) true Skip in
  plain_names demo_arx [] /\ plain_list (x_files cfg) /\ length (a_recs demo_hurt) = length (a_recs demo_arx) /\
  (forall i p x, apath demo_arx i ([] ++ p ++ [x]) -> p = [] \/ selected (x_files cfg) (x_recurse cfg) p true -> at_ (a_recs demo_hurt) i = at_ (a_recs demo_arx) i) /\
  (forall p s x m, p <> [] -> has demo ([] ++ p) (KFile s x, m) -> selected (x_files cfg) (x_recurse cfg) p false -> a_fetch demo_hurt x = demo_fetch x) /\
  exists g, extract_range demo_hurt (a_root demo_arx) cfg idle all_turns host0 = (g, Ok tt) /\
    h_names g (at_out ++ [b "a"; b "z"]) = Some (HFile 0) /\ h_data g 0 = b "xyz".
Proof.
  cbv zeta. split; [exact (se_names _ _ _ _ _ _ _ _ demo_setting)|].
  split; [intros s [E|[]]; subst s; vm_compute; intros [E|[E|[]]]; discriminate E|]. split; [reflexivity|].
  split; [|split; [|eexists; split; [vm_compute; reflexivity|]; vm_compute; auto]].
  - intros i p x H Hsel. cbn [app] in H. apply demo_paths in H. destruct H as [E|[E|[E|[E|[E|[]]]]]]; injection E as E1 E2; subst i; try (vm_compute; reflexivity).
    exfalso. change ([b "a"; b "b"] ++ [b "f.txt"] = p ++ [x]) in E2. apply app_inj_tail in E2 as [<- _].
    destruct Hsel as [E|[E|(f & [<-|[]] & [E|[(_ & q & t & E)|(_ & q & t & E)]])]]; try discriminate E; vm_compute in E; discriminate E.
  - intros p s x m _ H Hsel. cbn [app] in H. apply PropRemount.demo_exact in H. destruct H as [E|[E|[E|[E|[E|[]]]]]]; try discriminate E; injection E as <- <- <- <-; [exfalso|vm_compute; reflexivity].
    destruct Hsel as [E|(f & [<-|[]] & [E|[(_ & q & t & E)|(E & _)]])]; try discriminate E; vm_compute in E; discriminate E.
Qed.
