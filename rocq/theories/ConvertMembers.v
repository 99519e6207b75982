(** The members of a tar and of a zip. *)
From Verif Require Export ConvertFacts.

Local Ltac bad := let H := fresh in intros H; discriminate H.

(** ** Paths *)
Lemma from_path_means s p : from_path s = Ok p ->
  stands_for s (pieces p) /\ dotless (pieces p) /\ Forall (fun n => utf8 n = true) (pieces p).
Proof.
  destruct s as [|c s]; [cbn; intros H; injection H as <-; repeat split; [easy|constructor]|].
  destruct (is_abs (c :: s)) eqn:Ha; [rewrite from_path_abs by auto; discriminate|].
  destruct (forallb utf8 (filter not_dot (pieces (c :: s)))) eqn:Hu; [|rewrite from_path_bad by auto; discriminate].
  destruct (from_path_ok (c :: s)) as [E1 E2]; auto; [easy|]. rewrite E1. intros H. injection H as <-. rewrite E2.
  split; [split; auto|]. split.
  - intros H. apply filter_In in H as [_ H]. discriminate H.
  - apply Forall_forall. now apply forallb_forall.
Qed.
Lemma from_path_total s p : stands_for s p -> Forall (fun n => utf8 n = true) p -> exists q, from_path s = Ok q /\ pieces q = p.
Proof.
  intros [H1 H2] H3. destruct s as [|c s].
  - exists []. split; auto.
  - destruct (from_path_ok (c :: s)) as [E1 E2]; auto; [easy|rewrite H2; now apply forallb_forall, Forall_forall|].
    eexists. split; [exact E1|]. now rewrite E2.
Qed.
Lemma ends_with_sep_spec s : ends_with_sep s = true <-> exists x, s = x ++ b "/".
Proof.
  unfold ends_with_sep. split.
  - destruct (rev s) as [|c r] eqn:E; [easy|]. intros H. exists (rev r). apply (f_equal (@rev N)) in E. rewrite rev_involutive in E. rewrite E.
    cbn [rev]. f_equal. unfold is_sep, sep in H. cbn. f_equal. lia.
  - intros (x & ->). rewrite rev_app_distr. reflexivity.
Qed.

(** ** tar *)
Definition tar_conv (x : res tar_member) (l : list bytes) : res (list bytes * option entry) := bind x (fun m => tar_entry m l).
Definition tar_good (x : res tar_member) (F : caddr -> fetched) (p : path) (nd : node) : Prop :=
  exists m, x = Ok m /\ ~ tar_extension m /\ tar_path m p /\ tar_becomes m F nd.
Definition tar_skip (x : res tar_member) : Prop := exists m, x = Ok m /\ tar_extension m.

Lemma tar_loop items : forall c, tar_members items c = loop _ tar_conv items c.
Proof.
  induction items as [|x items IH]; intros c; cbn [tar_members loop]; auto.
  unfold tar_conv at 1. destruct x as [m| | |]; cbn [bind]; auto.
  destruct (tar_entry m (cr_contents c)) as [[l [e|]]| | |]; auto.
  destruct (add_entry (cr_entries c) e) as [st [[]| | |]]; auto.
Qed.

Lemma tar_directory_type m : ~ tar_extension m -> tm_type m <> TSymlink -> tm_type m <> TDirectory ->
  (negb (tm_ustar m) && ends_with_sep (tm_header_path m) = true <-> tar_directory m).
Proof.
  intros H1 H2 H3. rewrite andb_true_iff, ends_with_sep_spec. unfold tar_directory. destruct (tm_ustar m); cbn [negb].
  - split; [intros [H _]; discriminate H|]. intros [H|(_ & _ & H & _)]; congruence.
  - split; [intros [_ H]; right; auto|]. intros [H|(_ & _ & _ & H)]; [congruence|auto].
Qed.

Lemma tar_made x l l' oe : tar_conv x l = Ok (l', oe) -> (exists ext, l' = l ++ ext) /\ made _ tar_good tar_skip l' x oe.
Proof.
  unfold tar_conv. destruct x as [m| | |]; cbn [bind]; try bad. unfold tar_entry.
  destruct (tm_uid m) as [uid| | |] eqn:E1; cbn [bind]; try bad.
  destruct (tm_gid m) as [gid| | |] eqn:E2; cbn [bind]; try bad.
  destruct (tm_mtime m) as [mtime| | |] eqn:E3; cbn [bind]; try bad.
  destruct (tm_mode m) as [mode| | |] eqn:E4; cbn [bind]; try bad.
  destruct (tm_path m) as [raw| | |] eqn:E5; cbn [bind]; try bad.
  destruct (from_path raw) as [p| | |] eqn:E6; cbn [bind unwrap]; try bad.
  destruct (from_path_means raw p E6) as (P1 & P2 & P3).
  assert (Hp : tar_path m (pieces p)) by (exists raw; auto).
  assert (Hmt : tar_meta m (mkMeta uid gid mode mtime)) by (repeat split; auto).
  assert (Hdir : forall k l0, ~ tar_extension m -> tar_directory m -> k = KDir ->
    Ok (l, Some (mkEntry p (Ok (Some k)) (mkMeta uid gid mode mtime))) = Ok (l0, oe) ->
    (exists ext, l0 = l ++ ext) /\ made _ tar_good tar_skip l0 (Ok m) oe).
  { intros k l0 Hne Hd -> H. assert (l0 = l) as -> by congruence. assert (oe = Some (mkEntry p (Ok (Some KDir)) (mkMeta uid gid mode mtime))) as -> by congruence.
    split; [exists []; now rewrite app_nil_r|]. exists KDir. split; auto. split; auto. exists m. repeat split; auto. }
  assert (Hskip : forall l0, tar_extension m -> Ok (l, None) = Ok (l0, oe) -> (exists ext, l0 = l ++ ext) /\ made _ tar_good tar_skip l0 (Ok m) oe).
  { intros l0 He H. assert (l0 = l) as -> by congruence. assert (oe = None) as -> by congruence. split; [exists []; now rewrite app_nil_r|]. exists m. auto. }
  assert (Hother : ~ tar_extension m -> tm_type m <> TSymlink -> tm_type m <> TDirectory ->
    (if negb (tm_ustar m) && ends_with_sep (tm_header_path m)
     then Ok (l, Some (mkEntry p (Ok (Some KDir)) (mkMeta uid gid mode mtime)))
     else bind (tm_data m) (fun data => let (l', addr) := add_content l data in Ok (l', Some (mkEntry p (Ok (Some (KFile (N.of_nat (length data)) addr))) (mkMeta uid gid mode mtime))))) = Ok (l', oe) ->
    (exists ext, l' = l ++ ext) /\ made _ tar_good tar_skip l' (Ok m) oe).
  { intros Hne Hns Hnd. pose proof (tar_directory_type m Hne Hns Hnd) as Ht.
    destruct (negb (tm_ustar m) && ends_with_sep (tm_header_path m)).
    - apply Hdir; auto. now apply Ht.
    - destruct (tm_data m) as [data| | |] eqn:Ed; cbn [bind]; try bad.
      pose proof (add_content_ok l data) as (ext & A1 & A2). destruct (add_content l data) as [l0 addr]. cbn [fst snd] in *. subst l0.
      intros H. assert (l' = l ++ ext) as -> by congruence. assert (oe = Some (mkEntry p (Ok (Some (KFile (N.of_nat (length data)) addr))) (mkMeta uid gid mode mtime))) as -> by congruence.
      split; [eauto|]. eexists. split; [reflexivity|]. split; [auto|]. exists m. split; auto. split; auto. split; auto. split; auto. right. right. split.
      + split; auto. split; auto. intros Hd. apply Ht in Hd. discriminate Hd.
      + exists data, addr. auto. }
  unfold tar_extension in Hskip, Hother, Hdir.
  destruct (tm_type m) eqn:Et.
  all: try (apply Hother; [intuition congruence|congruence|congruence]).
  all: try (apply Hskip; now auto).
  - destruct (tm_link m) as [[t|]| | |] eqn:El; cbn [bind]; try bad. intros H. assert (l' = l) as -> by congruence.
    assert (oe = Some (mkEntry p (Ok (Some (KLink t))) (mkMeta uid gid mode mtime))) as -> by congruence.
    split; [exists []; now rewrite app_nil_r|]. eexists. split; [reflexivity|]. split; [auto|]. exists m.
    split; auto. split; [unfold tar_extension; intuition congruence|]. split; auto. split; auto. right. left. split; [exact Et|]. eauto.
  - apply Hdir; auto; [intuition congruence|left; auto].
Qed.

Lemma tar_mono x l ext p nd : tar_good x (fetch_of l) p nd -> tar_good x (fetch_of (l ++ ext)) p nd.
Proof.
  intros (m & H1 & H2 & H3 & H4 & H5). exists m. split; auto. split; auto. split; auto. split; auto.
  destruct H5 as [H5|[H5|(H5 & data & addr & H6 & H7 & H8)]]; auto. right. right. split; auto. exists data, addr. split; auto. split; auto.
  now apply fetch_of_mono.
Qed.

Lemma tar_kind_dir m F nd : tar_becomes m F nd -> (fst nd = KDir <-> tar_directory m).
Proof.
  intros (_ & [(H & ->)|[(H & t & _ & ->)|((_ & H & _) & data & addr & _ & -> & _)]]); split; try easy.
  intros [Hd|(_ & Hd & _)]; unfold tar_link in H; congruence.
Qed.

(** ** zip *)
Definition zip_conv (reopen : res bytes) (x : option zip_member) (l : list bytes) : res (list bytes * option entry) :=
  match x with
  | None => Panic
  | Some m => match zip_entry reopen m l with Ok (l', e) => Ok (l', Some e) | Err e => Err e | Panic => Panic | Diverge => Diverge end
  end.
Definition zip_path (m : zip_member) (p : path) : Prop := stands_for (zm_name m) p.
Definition zip_fits (file : bytes) (x : option zip_member) : Prop :=
  match x with Some m => zip_fitting file m | None => True end.
Definition zip_good (file : bytes) (x : option zip_member) (F : caddr -> fetched) (p : path) (nd : node) : Prop :=
  exists m, x = Some m /\ zip_path m p /\ safe_name (zm_name m) /\ zip_becomes file m F nd.

Lemma zip_loop reopen items : forall c, zip_members reopen items c = loop _ (zip_conv reopen) items c.
Proof.
  induction items as [|x items IH]; intros c; cbn [zip_members loop]; auto.
  unfold zip_conv at 1. destruct x as [m|]; auto.
  destruct (zip_entry reopen m (cr_contents c)) as [[l e]| | |]; auto.
  destruct (add_entry (cr_entries c) e) as [st [[]| | |]]; auto.
Qed.

Lemma zip_is_dir_spec m : zip_is_dir (zm_name m) = true <-> zip_directory m.
Proof.
  unfold zip_is_dir, zip_directory. split.
  - destruct (rev (zm_name m)) as [|c r] eqn:E; [easy|]. intros H. exists (rev r). apply (f_equal (@rev N)) in E. rewrite rev_involutive in E. rewrite E.
    cbn [rev]. unfold is_sep, sep in H. apply orb_true_iff in H as [H|H]; [left|right]; f_equal; cbn; f_equal; lia.
  - intros (x & [->| ->]); rewrite rev_app_distr; reflexivity.
Qed.

Lemma zip_mtime_spec m t : zip_mtime m = Ok t <-> zip_time m t.
Proof.
  unfold zip_mtime, zip_time. destruct (zm_ext_times m) as [|x l _] eqn:E using rev_ind.
  - cbn [last]. split.
    + intros H. right. split; auto. destruct (zm_dos_time m) as [[z|]|]; [right; exists z|discriminate H|left]; split; congruence.
    + intros [(l & H)|(_ & [(-> & ->)|(z & -> & ->)])]; auto. destruct l; discriminate H.
  - rewrite last_last. destruct x as [ts|].
    + split; [intros H; left; exists l; congruence|]. intros [(l' & H)|([H|(l' & H)] & _)].
      * apply app_inj_tail in H as [_ H]. congruence.
      * now destruct l.
      * apply app_inj_tail in H as [_ H]. congruence.
    + split.
      * intros H. right. split; [right; eauto|]. destruct (zm_dos_time m) as [[z|]|]; [right; exists z|discriminate H|left]; split; congruence.
      * intros [(l' & H)|(_ & [(-> & ->)|(z & -> & ->)])]; auto. apply app_inj_tail in H as [_ H]. congruence.
Qed.

(** Safe names *)
Definition tokens (l : list (option comp)) : path := map (fun c => match c with Some x => as_str x | None => [] end) l.
Lemma ups_app l1 l2 : ups (l1 ++ l2) = (ups l1 + ups l2)%Z.
Proof.
  induction l1 as [|n l1 IH]; cbn [ups app]; auto. destruct (list_eq_dec N.eq_dec n (b "..")); [lia|]. destruct (list_eq_dec N.eq_dec n (b ".")); lia.
Qed.
Lemma classify_cases n : (n = b "." /\ classify n = CurDir) \/ (n = b ".." /\ classify n = ParentDir) \/ (n <> b "." /\ n <> b ".." /\ classify n = Normal n).
Proof. unfold classify. destruct (bytes_eqb_spec n (b ".")); auto. destruct (bytes_eqb_spec n (b "..")); auto. Qed.

Lemma stays_inside_spec l : forall depth, stays_inside depth (map (fun p => Some (classify p)) l) = true <->
  forall l1 l2, l = l1 ++ l2 -> (- Z.of_N depth <= ups l1)%Z.
Proof.
  induction l as [|n l IH]; intros depth; cbn [map stays_inside].
  - split; auto. intros _ l1 l2 H. destruct l1; [cbn; lia|discriminate H].
  - destruct (classify_cases n) as [(E & ->)|[(E & ->)|(E1 & E2 & ->)]].
    + rewrite IH. split.
      * intros H [|x l1] l2 H1; [cbn; lia|]. injection H1 as -> H1. specialize (H l1 l2 H1). subst x. cbn [ups].
        destruct (list_eq_dec N.eq_dec (b ".") (b "..")) as [F|_]; [discriminate F|]. destruct (list_eq_dec N.eq_dec (b ".") (b ".")); [auto|easy].
      * intros H l1 l2 ->. specialize (H (n :: l1) l2 eq_refl). subst n. cbn [ups] in H.
        destruct (list_eq_dec N.eq_dec (b ".") (b "..")) as [F|_]; [discriminate F|]. destruct (list_eq_dec N.eq_dec (b ".") (b ".")); [auto|easy].
    + destruct (depth =? 0) eqn:Ed.
      * split; [bad|]. intros H. specialize (H [n] l eq_refl). subst n. cbn [ups] in H.
        destruct (list_eq_dec N.eq_dec (b "..") (b "..")); [lia|easy].
      * rewrite IH. split.
        -- intros H [|x l1] l2 H1; [cbn; lia|]. injection H1 as -> H1. specialize (H l1 l2 H1). subst x. cbn [ups].
           destruct (list_eq_dec N.eq_dec (b "..") (b "..")); [lia|easy].
        -- intros H l1 l2 ->. specialize (H (n :: l1) l2 eq_refl). subst n. cbn [ups] in H.
           destruct (list_eq_dec N.eq_dec (b "..") (b "..")); [lia|easy].
    + rewrite IH. split.
      * intros H [|x l1] l2 H1; [cbn; lia|]. injection H1 as -> H1. specialize (H l1 l2 H1). cbn [ups].
        destruct (list_eq_dec N.eq_dec x (b "..")); [easy|]. destruct (list_eq_dec N.eq_dec x (b ".")); [easy|lia].
      * intros H l1 l2 ->. specialize (H (n :: l1) l2 eq_refl). cbn [ups] in H.
        destruct (list_eq_dec N.eq_dec n (b "..")); [easy|]. destruct (list_eq_dec N.eq_dec n (b ".")); [easy|lia].
Qed.

Lemma ups_filter l : ups (filter not_dot l) = ups l.
Proof.
  induction l as [|n l IH]; auto. cbn [filter ups]. unfold not_dot at 1. destruct (bytes_eqb_spec n (b ".")) as [->|Hn]; cbn [negb].
  - destruct (list_eq_dec N.eq_dec (b ".") (b "..")) as [F|_]; [discriminate F|]. destruct (list_eq_dec N.eq_dec (b ".") (b ".")); [auto|easy].
  - cbn [ups]. now rewrite IH.
Qed.
Lemma filter_split {A} (f : A -> bool) l : forall l1 l2, filter f l = l1 ++ l2 -> exists k1 k2, l = k1 ++ k2 /\ filter f k1 = l1 /\ filter f k2 = l2.
Proof.
  induction l as [|x l IH]; intros l1 l2; cbn [filter].
  - intros H. symmetry in H. apply app_eq_nil in H as [-> ->]. exists [], []. auto.
  - destruct (f x) eqn:E.
    + destruct l1 as [|y l1]; cbn [app].
      * intros <-. exists [], (x :: l). cbn [filter app]. rewrite E. auto.
      * intros H. injection H as -> H. destruct (IH _ _ H) as (k1 & k2 & -> & <- & <-). exists (y :: k1), k2. cbn [filter app]. rewrite E. auto.
    + intros H. destruct (IH _ _ H) as (k1 & k2 & -> & <- & <-). exists (x :: k1), k2. cbn [filter app]. rewrite E. auto.
Qed.

Lemma enclosed_spec s : (enclosed_name s = Some s <-> safe_name s) /\ (enclosed_name s = None <-> ~ safe_name s).
Proof.
  assert (G : enclosed_name s = Some s <-> safe_name s).
  { unfold enclosed_name, safe_name. destruct (existsb (fun c => c =? 0) s) eqn:E0.
    - split; [bad|]. intros (_ & H & _). apply existsb_exists in E0 as (c & Hc & E). assert (c = 0) as -> by lia. easy.
    - assert (Hz : ~ In 0 s).
      { intros H. assert (existsb (fun c => c =? 0) s = true); [|congruence]. apply existsb_exists. exists 0. auto. }
      unfold std_components. destruct (is_abs s) eqn:Ea.
      + cbn [stays_inside]. split; [bad|]. intros (H & _). discriminate H.
      + assert (Hk : stays_inside 0 (match pieces s with p :: r => Some (classify p) :: map (fun p => Some (classify p)) (filter not_dot r) | [] => [] end) = true <-> ~ escapes s).
        { unfold escapes. destruct (pieces s) as [|p r] eqn:Ep.
          - split; auto. intros _ (l1 & l2 & H & Hu). destruct l1; [cbn in Hu; lia|discriminate H].
          - change (Some (classify p) :: map (fun p => Some (classify p)) (filter not_dot r)) with (map (fun p => Some (classify p)) (p :: filter not_dot r)).
            rewrite stays_inside_spec. split.
            + intros H (l1 & l2 & E & Hu). destruct l1 as [|y l1]; [cbn in Hu; lia|]. injection E as -> ->.
              specialize (H (y :: filter not_dot l1) (filter not_dot l2)). rewrite filter_app in H. specialize (H eq_refl).
              change (y :: filter not_dot l1) with ([y] ++ filter not_dot l1) in H. change (y :: l1) with ([y] ++ l1) in Hu. rewrite ups_app in H, Hu.
              rewrite ups_filter in H. lia.
            + intros H l1 l2 E. destruct (Z_lt_le_dec (ups l1) 0) as [Hu|Hu]; [|lia]. exfalso. apply H.
              destruct l1 as [|y l1]; [cbn in Hu; lia|]. injection E as -> E. destruct (filter_split _ _ _ _ E) as (k1 & k2 & -> & <- & <-).
              exists (y :: k1), k2. split; auto. change (y :: filter not_dot k1) with ([y] ++ filter not_dot k1) in Hu. change (y :: k1) with ([y] ++ k1).
              rewrite ups_app in *. rewrite ups_filter in Hu. lia. }
        destruct (stays_inside 0 _).
        * split; auto. intros _. split; auto. split; auto. now apply Hk.
        * split; [bad|]. intros (_ & _ & H). apply Hk in H. discriminate H. }
  split; auto. rewrite <- G. unfold enclosed_name. destruct (existsb _ s); [split; auto; easy|]. destruct (stays_inside 0 _); split; auto; easy.
Qed.

Lemma slice_spec (file : bytes) start size : start + size <= N.of_nat (length file) ->
  exists before after, file = before ++ firstn (N.to_nat size) (skipn (N.to_nat start) file) ++ after /\
    N.of_nat (length before) = start /\ N.of_nat (length (firstn (N.to_nat size) (skipn (N.to_nat start) file))) = size.
Proof.
  intros H. exists (firstn (N.to_nat start) file), (skipn (N.to_nat size) (skipn (N.to_nat start) file)).
  rewrite firstn_skipn, firstn_skipn. split; auto. rewrite !firstn_length, skipn_length. lia.
Qed.

Lemma zip_made file x l l' oe : zip_fits file x -> zip_conv (Ok file) x l = Ok (l', oe) ->
  (exists ext, l' = l ++ ext) /\ made _ (zip_good file) (fun _ => False) l' x oe.
Proof.
  intros Hfit. unfold zip_conv. destruct x as [m|]; [|bad]. unfold zip_entry.
  destruct (zip_mtime m) as [mtime| | |] eqn:E1; cbn [bind]; try bad.
  destruct (enclosed_spec (zm_name m)) as [S1 S2]. destruct (enclosed_name (zm_name m)) as [raw|] eqn:E2; [|bad].
  assert (raw = zm_name m) as ->.
  { unfold enclosed_name in E2. destruct (existsb _ (zm_name m)); [discriminate E2|]. destruct (stays_inside 0 _); congruence. }
  assert (Hsafe : safe_name (zm_name m)) by (now apply S1).
  destruct (from_path (zm_name m)) as [p| | |] eqn:E3; cbn [bind unwrap]; try bad.
  destruct (from_path_means _ p E3) as (P1 & P2 & P3).
  set (mt := mkMeta 0 0 match zm_mode m with Some x => x | None => 420 end mtime).
  assert (Hmode : zm_mode m = Some (m_mode mt) \/ (zm_mode m = None /\ m_mode mt = 420)) by (unfold mt; cbn; destruct (zm_mode m); auto).
  assert (Ht : zip_time m (m_mtime mt)) by (now apply zip_mtime_spec).
  pose proof (zip_is_dir_spec m) as Hd. destruct (zip_is_dir (zm_name m)).
  - intros H. assert (l' = l) as -> by congruence. assert (oe = Some (mkEntry p (Ok (Some KDir)) mt)) as -> by congruence.
    split; [exists []; now rewrite app_nil_r|]. exists KDir. split; auto. split; auto. exists m. split; auto. split; auto. split; auto.
    split; auto. split; auto. split; auto. split; auto. left. split; auto. now apply Hd.
  - set (datar := if zm_stored m then _ else _). assert (Hdata : forall data, datar = Ok data -> zip_bytes file m data).
    { unfold datar, zip_bytes. destruct (zm_stored m) eqn:Es; auto. cbn [bind]. intros data H.
      destruct (slice_spec file (zm_start m) (zm_size m) (Hfit Es)) as (x & y & H1 & H2 & H3).
      assert (data = firstn (N.to_nat (zm_size m)) (skipn (N.to_nat (zm_start m)) file)) as -> by congruence. exists x, y. auto. }
    destruct datar as [data| | |]; cbn [bind]; try bad. specialize (Hdata data eq_refl).
    pose proof (add_content_ok l data) as (ext & A1 & A2). destruct (add_content l data) as [l0 addr]. cbn [fst snd] in *. subst l0.
    intros H. assert (l' = l ++ ext) as -> by congruence. assert (oe = Some (mkEntry p (Ok (Some (KFile (zm_size m) addr))) mt)) as -> by congruence.
    split; [eauto|]. eexists. split; [reflexivity|]. split; [auto|]. exists m. split; auto. split; auto. split; auto.
    split; auto. split; auto. split; auto. split; auto. right. split; [intros Hz; apply Hd in Hz; discriminate Hz|]. exists data, addr. auto.
Qed.

Lemma zip_mono file x l ext p nd : zip_good file x (fetch_of l) p nd -> zip_good file x (fetch_of (l ++ ext)) p nd.
Proof.
  intros (m & H1 & H2 & H3 & A & B & C & D & H4). exists m. split; auto. split; auto. split; auto. split; auto. split; auto. split; auto. split; auto.
  destruct H4 as [H4|(H5 & data & addr & H6 & H7 & H8)]; auto. right. split; auto. exists data, addr. split; auto. split; auto.
  now apply fetch_of_mono.
Qed.
