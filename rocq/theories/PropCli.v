(** C44-C48, C55: the commands dump and create. *)
From Verif Require Export CliSession DemoAdd.

Lemma dump_total a : wf a -> total_builder a dump_builder.
Proof.
  intros Hw i r Hr. unfold create_entry. rewrite (rec_at_ok _ _ _ Hr). cbn [bind].
  pose proof (wf_variant _ Hw i r) as Hv. destruct (r_payload r) as [| | |v] eqn:E; cbn; rewrite ?E; try (eexists; reflexivity). now destruct (Hv v).
Qed.

(** What [dump] finds. *)
Lemma dump_finds l fetch a s : small l -> archive_of l fetch a -> pieces s <> [] ->
  a_fetch a = fetch /\
  (forall n addr m, has l (pieces s) (KFile n addr, m) -> get_entry dump_builder a s = Ok (GFile addr)) /\
  (forall m, has l (pieces s) (KDir, m) -> exists rg, get_entry dump_builder a s = Ok (GDir rg tt)) /\
  (forall t m, has l (pieces s) (KLink t, m) -> get_entry dump_builder a s = Ok (GLink tt)) /\
  ((forall nd, ~ has l (pieces s) nd) -> get_entry dump_builder a s = Err ENotFound).
Proof.
  intros Hs Ha Hne. destruct (archive_ok l fetch a Hs Ha) as (m & _ & _ & Hf & Hw & Hm & _). split; auto.
  pose proof (get_entry_spec a Hw dump_builder s (dump_total a Hw) Hne) as H.
  assert (K : forall nd, has l (pieces s) nd -> exists i r, at_ (a_recs a) i = Some r /\ node_of_rec r = Some nd /\ create_entry dump_builder a i = get_entry dump_builder a s).
  { intros nd Hh. apply (archive_has l fetch a) in Hh as (i & r & H1 & H2 & H3); auto. exists i, r. split; auto. split; auto.
    destruct (get_entry dump_builder a s) as [e|x| |]; try easy.
    - destruct H as (j & Hj & Hc). rewrite <- Hc. f_equal. destruct Hm as (_ & _ & _ & Hinj). eapply Hinj; eauto.
    - destruct H as [_ H]. now apply H in H2. }
  assert (K2 : forall i r, at_ (a_recs a) i = Some r -> create_entry dump_builder a i = match r_payload r with
      | RFile addr _ => Ok (GFile addr) | RDir f n => Ok (GDir (as_u32 f, as_u32 n) tt) | RLink _ => Ok (GLink tt) | RBad _ => create_entry dump_builder a i end).
  { intros i r Hr. destruct (r_payload r) eqn:Ep; auto; unfold create_entry; rewrite (rec_at_ok _ _ _ Hr); cbn [bind]; rewrite Ep; cbn; rewrite ?Ep; reflexivity. }
  split; [|split; [|split]].
  - intros n addr mt Hh. destruct (K _ Hh) as (i & r & H1 & H2 & <-). rewrite (K2 _ _ H1). unfold node_of_rec in H2. destruct (r_payload r); try discriminate H2. injection H2 as _ -> _. reflexivity.
  - intros mt Hh. destruct (K _ Hh) as (i & r & H1 & H2 & <-). rewrite (K2 _ _ H1). unfold node_of_rec in H2. destruct (r_payload r); try discriminate H2. eauto.
  - intros t mt Hh. destruct (K _ Hh) as (i & r & H1 & H2 & <-). rewrite (K2 _ _ H1). unfold node_of_rec in H2. destruct (r_payload r); try discriminate H2. reflexivity.
  - intros Hno. destruct (get_entry dump_builder a s) as [e|x| |]; try easy.
    + destruct H as (i & Hi & _). apply (ReadFacts.apath_has l fetch a) in Hi as [nd Hi]; auto. now apply Hno in Hi.
    + now destruct H as [-> _].
Qed.

(** C44: to the standard output, the content of the file and nothing else. *)
Theorem C44_dump_file : forall w l fetch a s n addr m data output, small l -> archive_of l fetch a -> pieces s <> [] ->
  output = None \/ output = Some (b "-") ->
  has l (pieces s) (KFile n addr, m) -> fetch addr = Found data -> dump w a s output = (data, Ok tt).
Proof.
  intros w l fetch a s n addr m data output Hs Ha Hne Ho Hh Hd. destruct (dump_finds l fetch a s Hs Ha Hne) as (Hf & H1 & _).
  unfold dump. rewrite (H1 _ _ _ Hh). destruct Ho as [->| ->]; cbn [dump_entry bytes_eqb]; rewrite Hf, Hd; reflexivity.
Qed.
Print Assumptions C44_dump_file.

(** Anything else is refused, without output, wherever the output should go. *)
Theorem C44_dump_refused : forall w l fetch a s output, small l -> archive_of l fetch a -> pieces s <> [] ->
  (forall n addr m, ~ has l (pieces s) (KFile n addr, m)) ->
  exists e, dump w a s output = ([], Err e) /\
    (output = None -> e = EFoundDir \/ e = EFoundLink \/ e = ENotFound) /\
    ((forall nd, ~ has l (pieces s) nd) -> e = ENotFound).
Proof.
  intros w l fetch a s output Hs Ha Hne Hno. destruct (dump_finds l fetch a s Hs Ha Hne) as (Hf & _ & H2 & H3 & H4).
  destruct (lookup_spec l fetch a s Hs Ha Hne) as [L1 L2].
  assert (Hk : (forall nd, ~ has l (pieces s) nd) \/ exists nd, has l (pieces s) nd).
  { destruct (archive_ok l fetch a Hs Ha) as (m & Hr & _). destruct (m (pieces s)) as [nd|] eqn:E.
    - right. exists nd. now apply Hr.
    - left. intros nd Hh. apply Hr in Hh. congruence. }
  unfold dump. destruct Hk as [Hk|[[[|n addr|t] m] Hh]].
  - rewrite (H4 Hk). exists ENotFound. auto.
  - destruct (H2 _ Hh) as [rg ->]. cbn [dump_entry]. assert (Habs : (forall nd, ~ has l (pieces s) nd) -> False) by (intros H; now apply H in Hh).
    destruct output as [out|]; [|exists EFoundDir; split; auto; split; auto; tauto].
    destruct (bytes_eqb out (b "-")); [exists EFoundDir; split; auto; split; [easy|tauto]|].
    unfold open_read. destruct (look_str w true out) as [q nd|q|x]; [exists EFoundDir|exists (EIo IoNotFound)|exists (EIo x)]; (split; [reflexivity|split; [easy|tauto]]).
  - now apply Hno in Hh.
  - rewrite (H3 _ _ Hh). cbn [dump_entry]. assert (Habs : (forall nd, ~ has l (pieces s) nd) -> False) by (intros H; now apply H in Hh).
    destruct output as [out|]; [|exists EFoundLink; split; auto; split; auto; tauto].
    destruct (bytes_eqb out (b "-")); [exists EFoundLink; split; auto; split; [easy|tauto]|].
    unfold open_read. destruct (look_str w true out) as [q nd|q|x]; [exists EFoundLink|exists (EIo IoNotFound)|exists (EIo x)]; (split; [reflexivity|split; [easy|tauto]]).
Qed.
Print Assumptions C44_dump_refused.

(** Dumping to a file never works, unless the content is empty: the file is opened for reading. *)
Theorem C44_output_file_refuted : forall w l fetch a s n addr m data out, small l -> archive_of l fetch a -> pieces s <> [] ->
  out <> b "-" -> has l (pieces s) (KFile n addr, m) -> fetch addr = Found data -> data <> [] ->
  exists e, dump w a s (Some out) = ([], Err (EIo e)).
Proof.
  intros w l fetch a s n addr m data out Hs Ha Hne Ho Hh Hd Hdata. destruct (dump_finds l fetch a s Hs Ha Hne) as (Hf & H1 & _).
  unfold dump. rewrite (H1 _ _ _ Hh). destruct (bytes_eqb_spec out (b "-")) as [|_]; [easy|].
  unfold open_read. destruct (look_str w true out) as [q nd|q|x]; [|eexists; reflexivity|eexists; reflexivity].
  cbn [dump_entry]. rewrite Hf, Hd. destruct data; [easy|]. eexists. reflexivity.
Qed.
Print Assumptions C44_output_file_refuted.

(** A file whose pack is missing is dumped as an empty file, successfully. *)
Theorem C44_missing_pack_refuted : forall w l fetch a s n addr m, small l -> archive_of l fetch a -> pieces s <> [] ->
  has l (pieces s) (KFile n addr, m) -> fetch addr = MissingPack -> dump w a s None = ([], Ok tt).
Proof.
  intros w l fetch a s n addr m Hs Ha Hne Hh Hd. destruct (dump_finds l fetch a s Hs Ha Hne) as (Hf & H1 & _).
  unfold dump. rewrite (H1 _ _ _ Hh). cbn [dump_entry]. now rewrite Hf, Hd.
Qed.
Print Assumptions C44_missing_pack_refuted.

Example C44_meets_hypotheses :
  dump src_world demo_arx (b "a/b/f.txt") None = (b "hello", Ok tt) /\ dump src_world demo_arx (b "a") None = ([], Err EFoundDir) /\
  dump src_world demo_arx (b "l") None = ([], Err EFoundLink) /\ dump src_world demo_arx (b "q") None = ([], Err ENotFound) /\
  dump src_world demo_arx (b "a/z") (Some (b "src/z")) = ([], Err (EIo IoBadFd)) /\
  has demo (pieces (b "a/b/f.txt")) (KFile 5 (mkAddr 1 0), d_meta).
Proof. repeat (split; [vm_compute; reflexivity|]). exact demo_has. Qed.

(** C45: exactly the strings that ask for a compression are accepted. *)
Theorem C45_compression : forall s c, compression_arg_parser s = inl c <-> asks s c.
Proof. exact compression_spec. Qed.
Print Assumptions C45_compression.

(** Anything else is an error. *)
Theorem C45_refused : forall s, (forall c, ~ asks s c) <-> exists e, compression_arg_parser s = Datatypes.inr e.
Proof.
  intros s. split.
  - intros H. destruct (compression_arg_parser s) as [c|e] eqn:E; eauto. apply compression_spec in E. now apply H in E.
  - intros [e E] c H. apply compression_spec in H. congruence.
Qed.
Print Assumptions C45_refused.

(** A string asks for one compression only. *)
Theorem C45_unambiguous : forall s c c', asks s c -> asks s c' -> c = c'.
Proof. intros s c c' H H'. apply compression_spec in H, H'. congruence. Qed.
Print Assumptions C45_unambiguous.

(** Contrary to the other algorithms, a meaningless level is accepted after "none". *)
Theorem C45_level_checked_refuted : forall n, compression_arg_parser (b "none=" ++ n) = inl CNone.
Proof. intros n. apply compression_spec. apply (asks_none_level (b "none") n). repeat constructor. Qed.
Print Assumptions C45_level_checked_refuted.

Example C45_meets_hypotheses :
  compression_arg_parser (b "ZSTD=-7") = inl (CZstd (-7)) /\ compression_arg_parser (b "lz4=+0015") = inl (CLz4 15) /\
  compression_arg_parser (b "lz4=16") = Datatypes.inr BadLevel /\ compression_arg_parser (b "lzma=-0") = Datatypes.inr BadLevel /\
  compression_arg_parser (b "lzma=") = Datatypes.inr BadLevel /\ compression_arg_parser (b "gzip") = Datatypes.inr (BadAlgorithm (b "gzip")) /\
  asks (b "LzMa") (CLzma 9).
Proof. repeat (split; [vm_compute; reflexivity|]). apply compression_spec. vm_compute. reflexivity. Qed.

(** C46: the mode is the one given; the case without flag is "one file"; no other outcome. *)
Theorem C46_concat : forall given,
  match given with
  | [] => exists f, parse_concat given = Some f /\ create_concat f = Ok OneFile
  | [m] => exists f, parse_concat given = Some f /\ create_concat f = Ok m
  | _ => parse_concat given = None
  end.
Proof. intros [|[] [|y r]]; try (eexists; split; reflexivity); reflexivity. Qed.
Print Assumptions C46_concat.

(** Without the parser's guarantee, the conversion would abort on an empty group of flags. *)
Theorem C46_unreachable : forall given f e, parse_concat given = Some f -> f = Some e -> concat_of e <> Panic.
Proof. intros [|[] [|y r]] f e H ->; try discriminate H; injection H as <-; easy. Qed.
Print Assumptions C46_unreachable.

(** C47: with an output file in place and no --force, or without its directory, nothing is opened. *)
Lemma is_dir_path_spec w p : is_dir_path (w_fs w) ([], p) = true <-> is_directory w p.
Proof.
  unfold is_dir_path, is_directory. destruct (look (w_fs w) true ([], p)) as [q [| |]|q|e]; split; try easy;
    try (intros [x H]; discriminate H). intros _. eauto.
Qed.

Lemma exists_spec w s : exists_path w s = true <-> leads_to_something w s.
Proof. unfold exists_path, leads_to_something. destruct (look_str w true s); split; try easy; [eauto| |]; intros (q' & n' & H); discriminate H. Qed.

Theorem C47_output_protected : forall fuel w can_open o, o_list_compressions o = false ->
  (leads_to_something w (o_out o) /\ o_force o = false) \/
  (exists d x, from_root w (o_out o) = d ++ [x] /\ ~ is_directory w d) ->
  exists r, create fuel w can_open o = ([], r) /\ r <> Ok tt.
Proof.
  intros fuel w can_open o Hl H. unfold create. rewrite Hl.
  assert (Hc : check_output_path_writable w (o_out o) (o_force o) <> Ok tt).
  { unfold check_output_path_writable. change (out_comps w (o_out o)) with (from_root w (o_out o)).
    destruct (from_root w (o_out o)) as [|c r] eqn:E; [easy|]. destruct H as [[H1 H2]|(d & x & H1 & H2)].
    - apply exists_spec in H1. rewrite H1, H2. destruct (is_dir_path (w_fs w) ([], removelast (c :: r))); easy.
    - rewrite H1, removelast_last. destruct (is_dir_path (w_fs w) ([], d)) eqn:Ed; [|easy]. now apply is_dir_path_spec in Ed. }
  destruct (check_output_path_writable w (o_out o) (o_force o)) as [[]| | |]; [easy|..]; (eexists; split; [reflexivity|easy]).
Qed.
Print Assumptions C47_output_protected.

(** An input path that is absolute or leads nowhere: no archive is written. *)
Theorem C47_inputs_checked : forall fuel w can_open o s, o_list_compressions o = false -> o_file_list o = None -> o_base o = None ->
  In s (o_infiles o) -> is_abs s = true \/ ~ leads_to_something w s ->
  snd (create fuel w can_open o) <> Ok tt /\ (forall a, ~ In (Written a) (fst (create fuel w can_open o))).
Proof.
  intros fuel w can_open o s Hl Hf Hb Hs H. destruct (create fuel w can_open o) as [evs r] eqn:E. cbn [fst snd].
  destruct (create_shape _ _ _ _ _ _ E) as [[-> Hr]|[(m & -> & Hr)|(m & a & c & w' & -> & -> & Hfill & _ & _ & Hw)]].
  - split; [|intros a []]. intros ->. rewrite Hr in Hl; [discriminate Hl|reflexivity].
  - split; auto. intros a [H'|[]]. discriminate H'.
  - exfalso. rewrite Hb in Hw. subst w'. unfold fill in Hfill. rewrite Hf in Hfill.
    destruct (existsb is_abs (o_infiles o)) eqn:Ea; [discriminate Hfill|].
    destruct H as [H|H]; [assert (existsb is_abs (o_infiles o) = true) by (apply existsb_exists; eauto); congruence|].
    unfold check_input_paths_exist in Hfill. destruct (forallb (exists_path w) (o_infiles o)) eqn:Ee; [|discriminate Hfill].
    rewrite forallb_forall in Ee. apply Ee in Hs. now apply exists_spec in Hs.
Qed.
Print Assumptions C47_inputs_checked.

(** The same after a change of directory: inputs are looked for in the new one. *)
Theorem C47_inputs_checked_in_base : forall fuel w can_open o s d q, o_list_compressions o = false -> o_file_list o = None ->
  o_base o = Some d -> look_str w true d = At q HDir ->
  In s (o_infiles o) -> is_abs s = true \/ ~ leads_to_something (mkWorld (w_fs w) (w_attr w) (w_list w) q) s ->
  snd (create fuel w can_open o) <> Ok tt /\ (forall a, ~ In (Written a) (fst (create fuel w can_open o))).
Proof.
  intros fuel w can_open o s d q Hl Hf Hb Hq Hs H. destruct (create fuel w can_open o) as [evs r] eqn:E. cbn [fst snd].
  destruct (create_shape _ _ _ _ _ _ E) as [[-> Hr]|[(m & -> & Hr)|(m & a & c & w' & -> & -> & Hfill & _ & _ & Hw)]].
  - split; [|intros a []]. intros ->. rewrite Hr in Hl; [discriminate Hl|reflexivity].
  - split; auto. intros a [H'|[]]. discriminate H'.
  - exfalso. rewrite Hb in Hw. unfold chdir in Hw. rewrite Hq in Hw. injection Hw as <-. unfold fill in Hfill. rewrite Hf in Hfill.
    destruct (existsb is_abs (o_infiles o)) eqn:Ea; [discriminate Hfill|].
    destruct H as [H|H]; [assert (existsb is_abs (o_infiles o) = true) by (apply existsb_exists; eauto); congruence|].
    unfold check_input_paths_exist in Hfill. destruct (forallb (exists_path _) (o_infiles o)) eqn:Ee in Hfill; [|discriminate Hfill].
    rewrite forallb_forall in Ee. apply Ee in Hs. now apply exists_spec in Hs.
Qed.
Print Assumptions C47_inputs_checked_in_base.

(** With nothing in the way, the archive is written once, after the options were honoured. *)
Theorem C47_success : forall fuel w can_open o evs, create fuel w can_open o = (evs, Ok tt) -> o_list_compressions o = false ->
  exists m a, evs = [Opened m; Written a] /\ (leads_to_something w (o_out o) -> o_force o = true).
Proof.
  intros fuel w can_open o evs E Hl.
  destruct (create_shape _ _ _ _ _ _ E) as [[-> Hr]|[(m & -> & Hr)|(m & a & c & w' & -> & _)]]; [now rewrite Hr in Hl|easy|].
  exists m, a. split; auto. intros Hx. destruct (o_force o) eqn:Ef; auto. exfalso.
  destruct (C47_output_protected fuel w can_open o Hl (or_introl (conj Hx Ef))) as (r & E' & _). congruence.
Qed.
Print Assumptions C47_success.

(** But "-o /" aborts, and a missing input is noticed only after the output was opened. *)
Theorem C47_root_refuted : forall fuel w can_open o, o_list_compressions o = false -> o_out o = b "/" ->
  create fuel w can_open o = ([], Panic).
Proof. intros fuel w can_open o Hl Ho. unfold create. rewrite Hl, Ho. reflexivity. Qed.
Print Assumptions C47_root_refuted.

Definition o_src : create_opts :=
  mkOpts false (b "out.arx") (Some (b "src")) None [b "src"] None true None false false.
Definition o_missing : create_opts :=
  mkOpts false (b "out.arx") None None [b "nothing"] None true None false false.

Theorem C47_checked_first_refuted : exists m, fst (create 3 src_world true o_missing) = [Opened m] /\
  ~ leads_to_something src_world (b "nothing").
Proof.
  eexists. split; [vm_compute; reflexivity|]. intros (q & n & H). vm_compute in H. discriminate H.
Qed.
Print Assumptions C47_checked_first_refuted.

Example C47_meets_hypotheses :
  (exists a, create 3 src_world true o_src = ([Opened OneFile; Written a], Ok tt)) /\
  (exists q n, look_str src_world true (b "ln") = At q n) /\
  from_root src_world (b "no/out.arx") = [b "h"; b "no"] ++ [b "out.arx"] /\ ~ is_directory src_world [b "h"; b "no"].
Proof.
  split; [eexists; vm_compute; reflexivity|]. split; [eexists; eexists; vm_compute; reflexivity|]. split; [reflexivity|].
  intros [q H]. vm_compute in H. discriminate H.
Qed.

(** C48: the default of --recurse, and the conflict with --no-recurse. *)
Theorem C48_recurse_value : forall recurse no_recurse infiles,
  recurse_value recurse no_recurse infiles =
  if recurse && no_recurse then None else Some (recurse || (infiles && negb no_recurse)).
Proof. now intros [] [] []. Qed.
Print Assumptions C48_recurse_value.

(** Without recursion only the path itself is added, a link being followed. *)
Theorem C48_no_recurse : forall fuel w pre s c, leads_to_something w s ->
  add_from_path fuel w pre s false c = add_entry_from_path w pre s true c.
Proof.
  intros fuel w pre s c (q & n & H). unfold add_from_path.
  assert (Hw : walk fuel w s false = Some [WEntry s]).
  { unfold walk. destruct (stat_lstat w s q n H) as (q' & n' & ->). destruct n' as [| |t m]; auto. rewrite H. now destruct n. }
  rewrite Hw. cbn [before_fail map add_each]. rewrite is_root_self. destruct (add_entry_from_path w pre s true c) as [c1 [[]| | |]]; reflexivity.
Qed.
Print Assumptions C48_no_recurse.

(** With recursion, see C38: the whole tree is added.

    With a file list, never anything below a listed path: what is stored is a listed path (without
    the prefix), or a directory above one. *)
Theorem C48_file_list : forall fuel w can_open o evs a fl text files pre, create fuel w can_open o = (evs, Ok tt) -> In (Written a) evs ->
  o_file_list o = Some fl -> read_file w fl = Ok text -> read_lines text = Ok files ->
  pre = match o_prefix o with Some s => s | None => [] end -> N.of_nat (length (a_recs a)) < 2^32 ->
  forall i p, apath a i p -> exists s t, In s files /\ stands_for s (pieces pre ++ p ++ t).
Proof.
  intros fuel w can_open o evs a fl text files pre E Hin Hf Ht Hl -> Hsm i p Hp.
  destruct (create_shape _ _ _ _ _ _ E) as [[-> _]|[(m & _ & Hr)|(m & a' & c & w' & -> & _ & Hfill & Hfin & _)]]; [destruct Hin|easy|].
  assert (a' = a) as ->. { destruct Hin as [Hin|[Hin|[]]]; [discriminate Hin|now injection Hin]. }
  unfold fill in Hfill. rewrite Hf, Ht in Hfill. cbn [bind] in Hfill. rewrite Hl in Hfill. unfold add_from_list in Hfill.
  destruct (each_added _ _ _ [] [] c all_ok_nil Hfill) as (es & H1 & H2 & H3). cbn [app] in H1.
  unfold finalize in Hfin. rewrite H1 in Hfin.
  pose proof (archive_small es _ a Hfin Hsm) as Hsmall.
  destruct (ReadFacts.apath_has es _ a i p Hsmall Hfin Hp) as [nd Hh].
  assert (Hfiles : forall e, In e es -> exists s, In s files /\ stands_for s (pieces match o_prefix o with Some s => s | None => [] end ++ pieces (e_path e))).
  { intros e He. destruct (H3 e He) as (s & Hs & Hst). rewrite map_map in Hs. cbn [fst] in Hs. rewrite map_id in Hs. eauto. }
  assert (Hdot : forall e, In e es -> drop_dots (pieces (e_path e)) = pieces (e_path e)).
  { intros e He. destruct (Hfiles e He) as (s & _ & _ & Hst). apply drop_dots_dotless. eapply dotless_filter. exact Hst. }
  assert (Hpre : exists e t, In e es /\ pieces (e_path e) = p ++ t).
  { destruct (stored_origin es p nd Hh) as [(e & He & _ & _ & n & Hn & ->)|(_ & e & He & _ & r & Hr)]; exists e.
    - exists []. split; auto. rewrite app_nil_r. unfold dir_of, last_of in *. rewrite (Hdot e He) in *.
      destruct (rev (pieces (e_path e))) as [|x y] eqn:Er; [discriminate Hn|]. destruct (bytes_eqb x (b "..")); [discriminate Hn|]. injection Hn as ->.
      apply (f_equal (@rev _)) in Er. rewrite rev_involutive in Er. cbn [rev] in Er. rewrite Er. now rewrite removelast_last.
    - unfold dir_of in Hr. rewrite (Hdot e He) in Hr. destruct (list_eq_dec (list_eq_dec N.eq_dec) (pieces (e_path e)) []) as [Hn|Hn].
      + exists []. split; auto. rewrite Hn in *. cbn in Hr. symmetry in Hr. apply app_eq_nil in Hr as [-> _]. reflexivity.
      + exists (r ++ [last (pieces (e_path e)) []]). split; auto. rewrite app_assoc, <- Hr. now apply app_removelast_last. }
  destruct Hpre as (e & t & He & Ee). destruct (Hfiles e He) as (s & Hs & Hst). exists s, t. split; auto. now rewrite Ee in Hst.
Qed.
Print Assumptions C48_file_list.

(** Hence --recurse has no effect with a file list... *)
Theorem C48_recurse_with_list_refuted : forall fuel w can_open o rc, o_file_list o <> None ->
  create fuel w can_open (mkOpts (o_list_compressions o) (o_out o) (o_prefix o) (o_base o) (o_infiles o) (o_file_list o) rc (o_concat o) (o_force o) (o_follow o)) =
  create fuel w can_open o.
Proof. intros fuel w can_open [lc out pre base inf fl r cm fo fw] rc H. cbn [o_file_list] in H. destruct fl; [|easy]. reflexivity. Qed.
Print Assumptions C48_recurse_with_list_refuted.

(** ... and --follow-symlink none with input files. *)
Theorem C48_follow_with_infiles_refuted : forall fuel w can_open o follow, o_file_list o = None ->
  create fuel w can_open (mkOpts (o_list_compressions o) (o_out o) (o_prefix o) (o_base o) (o_infiles o) (o_file_list o) (o_recurse o) (o_concat o) (o_force o) follow) =
  create fuel w can_open o.
Proof. intros fuel w can_open [lc out pre base inf fl r cm fo fw] follow H. cbn [o_file_list] in H. subst fl. reflexivity. Qed.
Print Assumptions C48_follow_with_infiles_refuted.

(** The host of C38 with a list file: "src/a" and "src/z" with DOS line ends and no last newline. *)
Definition lst_fs : hostfs := host_of (([b "h"; b "lst"], HFile 3) :: src_names) [b "hello"; b "xyz"; []; b "src/a" ++ [13; 10] ++ b "src/z"].
Definition lst_world : world := mkWorld lst_fs src_attr src_list [b "h"].
Definition o_lst : create_opts := mkOpts false (b "out.arx") None None [] (Some (b "lst")) true None false false.

Example C48_meets_hypotheses : exists a, create 0 lst_world true o_lst = ([Opened OneFile; Written a], Ok tt) /\
  map r_name (a_recs a) = [b "src"; b "a"; b "z"] /\ leads_to_something src_world (b "ln").
Proof.
  eexists. split; [vm_compute; reflexivity|]. split; [vm_compute; reflexivity|]. eexists. eexists. vm_compute. reflexivity.
Qed.

(** C55: at every crash point the output path holds what was there before, or the complete archive of
    a session whose additions all succeeded.  (Events only; the system calls are in PropCreateHost.v.) *)
Theorem C55_events : forall fuel w can_open o evs r old past future, create fuel w can_open o = (evs, r) -> evs = past ++ future ->
  at_output old past = old \/
  (r = Ok tt /\ future = [] /\ exists a l contents, at_output old past = Some a /\ archive_of l (fetch_of contents) a /\ all_ok l).
Proof.
  intros fuel w can_open o evs r old past future E Hev.
  destruct (create_shape _ _ _ _ _ _ E) as [[-> _]|[(m & -> & _)|(m & a & c & w' & -> & -> & Hfill & Hfin & _)]].
  - destruct past; [now left|discriminate Hev].
  - destruct past as [|x past]; [now left|]. injection Hev as <- Hev. symmetry in Hev. apply app_eq_nil in Hev as [-> _]. now left.
  - destruct past as [|x [|y past]]; [now left|injection Hev as <- Hev; now left|]. injection Hev as <- <- Hev. symmetry in Hev. apply app_eq_nil in Hev as [-> ->].
    right. split; auto. split; auto. destruct (fill_session _ _ _ _ _ Hfill) as (l & H1 & H2). exists a, l, (cr_contents c).
    split; [reflexivity|]. split; auto. unfold archive_of. rewrite <- H1. exact Hfin.
Qed.
Print Assumptions C55_events.

Example C55_events_meets_hypotheses : exists a, create 3 src_world true o_src = ([Opened OneFile] ++ [Written a], Ok tt).
Proof. eexists. vm_compute. reflexivity. Qed.
