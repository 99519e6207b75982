(** What the mount shows is what the session holds. *)
From Verif Require Export SpecRemount PropMount PropCreated.

Lemma read_on_reading a root : forall sizes s ino off, read_on a root s ino off sizes = reading a root s ino off sizes.
Proof.
  induction sizes as [|z r IH]; intros s ino off; [reflexivity|]. cbn [read_on reading].
  destruct (Fuse.step a root s (Read ino off z)) as [s' r']. destruct r' as [rep| | |]; [|reflexivity|reflexivity|reflexivity].
  destruct rep; reflexivity || (rewrite IH; reflexivity).
Qed.

Lemma empty_or_not (l : list (res (list dirent))) : In (Ok []) l \/ ~ In (Ok []) l.
Proof.
  induction l as [|r l [IH|IH]]; [now right|left; now right|]. destruct r as [[|d x]| | |]; [left; now left| | | |]; right; intros [H|H]; try discriminate H; auto.
Qed.
(** Listing long enough ends with an empty page. *)
Lemma all_full (l : list (res (list dirent))) : (forall r, In r l -> exists x, r = Ok x) -> ~ In (Ok []) l -> (length l <= length (replies l))%nat.
Proof.
  induction l as [|r l IH]; intros H1 H2; [apply le_n|]. destruct (H1 r) as [x ->]; [now left|].
  change (replies (Ok x :: l)) with (x ++ replies l). rewrite app_length. cbn [length].
  assert (IH' : (length l <= length (replies l))%nat) by (apply IH; [intros r Hr; apply H1; now right|intros Hr; apply H2; now right]).
  destruct x as [|y x]; [exfalso; apply H2; now left|]. cbn [length]. lia.
Qed.

Lemma sorted_names kids : StronglySorted (fun x y => bytes_cmp (de_name x) (de_name y) = Lt) kids ->
  StronglySorted (fun x y => bytes_cmp x y = Lt) (map de_name kids).
Proof.
  intros D3. induction D3 as [|d r Hr IH Hall]; [constructor|]. cbn [map]. constructor; [exact IH|].
  apply Forall_forall. intros n Hn. apply in_map_iff in Hn as (d' & <- & Hd'). rewrite Forall_forall in Hall. auto.
Qed.
Lemma sorted_nodup names : StronglySorted (fun x y => bytes_cmp x y = Lt) names -> NoDup names.
Proof.
  intros Hs. induction Hs as [|n r Hs IH Hall]; constructor; [|exact IH]. intros Hi. rewrite Forall_forall in Hall. specialize (Hall _ Hi).
  rewrite bytes_cmp_refl in Hall. discriminate Hall.
Qed.
Lemma kids_names l fetch (HW : whole l fetch) rd q kids : (forall n, In n (map de_name kids) <-> exists nd, has l (rd ++ q ++ [n]) nd) ->
  filter (fun n => negb (bytes_eqb n (b ".") || bytes_eqb n (b ".."))) (map de_name kids) = map de_name kids.
Proof.
  intros D4. assert (Ho : forall n, In n (map de_name kids) -> ordinary n).
  { intros n Hi. apply D4 in Hi as [nd Hh]. apply (HW _ _ Hh). apply in_or_app. right. apply in_or_app. right. now left. }
  clear - Ho. induction (map de_name kids) as [|n r IH]; [reflexivity|]. cbn [filter]. rewrite IH by (intros m Hm; apply Ho; now right).
  destruct (Ho n (or_introl eq_refl)) as (_ & _ & H1 & H2).
  destruct (bytes_eqb_spec n (b ".")) as [|_]; [easy|]. destruct (bytes_eqb_spec n (b "..")) as [|_]; [easy|]. reflexivity.
Qed.
Lemma skipn_twice {A} (l : list A) x y : skipn x (skipn y l) = skipn (y + x) l.
Proof. revert l. induction y as [|y IH]; intros l; [reflexivity|]. destruct l; [now rewrite !skipn_nil|]. apply IH. Qed.

(** The world agrees with the session. *)
Record agrees (l : list entry) (fetch : caddr -> fetched) (rd : path) (w : world) (M : path) : Prop := {
  ag_none : forall q, q <> [] -> (forall nd, ~ has l (rd ++ q) nd) -> h_names (w_fs w) (M ++ q) = None;
  ag_some : forall q nd, q <> [] -> has l (rd ++ q) nd -> exists n, h_names (w_fs w) (M ++ q) = Some n /\
    let x := w_attr w (M ++ q) in
    FsAdder.at_uid x = m_uid (snd nd) mod 2^32 /\ FsAdder.at_gid x = m_gid (snd nd) mod 2^32 /\ FsAdder.at_mtime x = Z.of_N (m_mtime (snd nd)) /\
    (forall k, N.testbit (at_mode x) k = N.testbit (type_bits (ftype_kind (fst nd))) k ||
       (N.testbit (m_mode (snd nd)) k && (k <? 16) && negb ((k =? 1) || (k =? 4) || (k =? 7)))) /\
    match fst nd with
    | KDir => n = HDir
    | KLink t => exists m, n = HLink t m
    | KFile _ addr => exists i, n = HFile i /\ fetch addr = Found (h_data (w_fs w) i) /\ at_special x = false /\ at_readable x = true
    end;
  ag_list : forall q, q = [] \/ (exists mt, has l (rd ++ q) (KDir, mt)) -> exists names, w_list w (M ++ q) = Some names /\
    StronglySorted (fun x y => bytes_cmp x y = Lt) names /\ forall n, In n names <-> exists nd, has l (rd ++ q ++ [n]) nd }.

Section Remount.
  Variables (l : list entry) (fetch : caddr -> fetched) (a : archive) (root : range) (rd : path) (w : world) (M : path).
  Hypothesis HM : mount_of l fetch a root rd.
  Hypothesis HW : whole l fetch.

  Lemma whole_showable : showable l.
  Proof.
    intros p [k mt] Hh. destruct (HW _ _ Hh) as (_ & H1 & H2). split; [exact H1|]. cbn [fst] in *. destruct k as [|size addr|t]; [exact I|apply H2|apply H2].
  Qed.

  (** Every path resolves to what is stored. *)
  Lemma resolved q nd : q <> [] -> has l (rd ++ q) nd -> exists h s ino, resolves a root h s q (Reached ino (ftype_kind (fst nd))).
  Proof.
    intros Hne Hh. destruct (C63_resolves_every_path l fetch a root rd [] fs_new q HM whole_showable (served_new a root)) as (h & s & o & Hr).
    pose proof (C63_resolution _ _ _ _ _ _ _ _ _ HM whole_showable Hr) as Ho. destruct o as [ino k|e].
    - destruct Ho as [(-> & _)|(_ & _ & nd' & Hh' & ->)]; [easy|]. rewrite <- (has_fun _ _ _ _ Hh Hh') in *. eauto.
    - exfalso. destruct e; try contradiction; exact (proj1 Ho _ Hh).
  Qed.
  Lemma refused q : q <> [] -> (forall nd, ~ has l (rd ++ q) nd) -> exists h s e, resolves a root h s q (Refused e).
  Proof.
    intros Hne Hno. destruct (C63_resolves_every_path l fetch a root rd [] fs_new q HM whole_showable (served_new a root)) as (h & s & o & Hr).
    pose proof (C63_resolution _ _ _ _ _ _ _ _ _ HM whole_showable Hr) as Ho. destruct o as [ino k|e]; [|eauto].
    exfalso. destruct Ho as [(-> & _)|(_ & _ & nd' & Hh' & _)]; [easy|]. now apply Hno in Hh'.
  Qed.
  Lemma reached_has h s q ino k : resolves a root h s q (Reached ino k) -> q <> [] -> exists nd, has l (rd ++ q) nd /\ k = ftype_kind (fst nd).
  Proof.
    intros Hr Hne. pose proof (C63_resolution _ _ _ _ _ _ _ _ _ HM whole_showable Hr) as Ho. cbn beta iota in Ho.
    destruct Ho as [(-> & _)|(_ & _ & nd' & Hh' & Hk)]; [easy|]. eauto.
  Qed.

  (** A file that is opened once more is open. *)
  Lemma opened h s q ino k : resolves a root h s q (Reached ino k) -> snd (Fuse.step a root s (Open ino)) = Ok ROpened ->
    exists s', resolves a root (h ++ [(Open ino, Ok ROpened)]) s' q (Reached ino k) /\
      releases ino (h ++ [(Open ino, Ok ROpened)]) < opens ino (h ++ [(Open ino, Ok ROpened)]).
  Proof.
    intros Hr Ho. destruct (Fuse.step a root s (Open ino)) as [s' r] eqn:E. cbn [snd] in Ho. subst r. exists s'.
    split; [eapply res_other; eauto|]. rewrite opens_app, releases_app. cbn [opens releases]. rewrite N.eqb_refl.
    pose proof (resolves_served _ _ _ _ _ _ Hr) as Hs. destruct (C21_caches_bounded _ _ _ _ _ _ _ HM Hs) as (_ & _ & _ & _ & _ & H & _).
    specialize (H ino). lia.
  Qed.

  Lemma seen_agrees : narrow a -> mount_seen a root w M -> agrees l fetch rd w M.
  Proof.
    intros Hnar [S1 S2 S3 S4 S5 S6 S7]. constructor.
    - intros q Hne Hno. destruct (refused q Hne Hno) as (h & s & e & Hr). eauto.
    - intros q nd Hne Hh. destruct (resolved q nd Hne Hh) as (h & s & ino & Hr).
      destruct (C63_contents _ _ _ _ _ _ _ _ _ _ _ HM whole_showable Hr Hne Hh) as (_ & (t & i & Et & Hat) & Hc).
      destruct (S2 _ _ _ _ _ Hr Hne) as (n & Hn & Hk). exists n. split; [exact Hn|]. cbn zeta.
      destruct (S3 _ _ _ _ _ _ Hr Hne Et) as (A1 & A2 & A3 & A4). destruct Hat as (_ & _ & B1 & B2 & B3 & _ & _ & B4 & _).
      split; [congruence|]. split; [congruence|]. split; [congruence|]. split.
      { intros k. rewrite A4, N.lor_spec, B4. reflexivity. }
      destruct (HW _ _ Hh) as (_ & _ & Hw). destruct nd as [[|size addr|target] mt]; cbn [fst snd ftype_kind of_type] in *.
      + exact Hk.
      + destruct Hk as [j ->]. destruct Hw as (_ & data & Hd & _). exists j. split; [reflexivity|].
        destruct (Hc _ Hd) as [Ho _]. destruct (S5 _ _ _ _ Hr Hne Ho) as [R1 R2]. split; [|auto].
        destruct (opened _ _ _ _ _ Hr Ho) as (s' & Hr' & Hlt).
        destruct (C63_contents _ _ _ _ _ _ _ _ _ _ _ HM whole_showable Hr' Hne Hh) as (_ & _ & Hc'). cbn [fst] in Hc'.
        destruct (Hc' _ Hd) as [_ Hread]. destruct (Hread Hlt) as [E1 E2]. rewrite Hd. f_equal. symmetry.
        apply (S6 _ _ _ _ _ [N.of_nat (length data)] _ Hr' Hne Hlt Hn).
        * rewrite read_on_reading. apply E2. cbn [map]. unfold list_sum. cbn [fold_right]. lia.
        * rewrite (E1 _ 1) by lia. rewrite skipn_all2 by lia. reflexivity.
      + destruct (S4 _ _ _ _ _ Hr Hne Hc) as [m Hm]. exists m. congruence.
    - intros q Hq.
      assert (Hr : exists h s ino, resolves a root h s q (Reached ino FtDir)).
      { destruct q as [|y q]; [exists [], fs_new, 1; apply res_root; apply served_new|]. destruct Hq as [Hq|[mt Hq]]; [discriminate Hq|].
        apply (resolved (y :: q) _ ltac:(discriminate) Hq). }
      destruct Hr as (h & s & ino & Hr). destruct (S7 _ _ _ _ Hr) as (names & Hn & Hl). exists names. split; [exact Hn|].
      destruct (C63_directory _ _ _ _ _ _ _ _ _ HM whole_showable Hnar Hr) as (dot & dotdot & kids & D1 & _ & D2 & D3 & D4 & _ & D5).
      pose proof (resolves_served _ _ _ _ _ _ Hr) as Hs. pose proof (resolves_inv _ _ _ _ _ HM _ _ _ _ whole_showable Hr) as Hin. cbn beta iota in Hin.
      destruct (C25_listing _ _ _ _ _ _ _ _ _ HM Hnar Hs (reached_denotes _ _ _ _ _ Hin) (reached_dir _ _ _ _ _ HM _ _ Hin)) as (all & _ & D6).
      set (f := fun (_ : list dirent) (_ : dirent) => false).
      set (more := repeat ([] : list request, f) (length (dot :: dotdot :: kids) + length all)).
      assert (Hmore : Forall (fun bf : list request * (list dirent -> dirent -> bool) => fits_one (snd bf)) more).
      { apply Forall_forall. intros x Hx. apply repeat_spec in Hx. subst x. intros d. reflexivity. }
      assert (Hf : fits_two f) by (split; intros d; reflexivity).
      assert (Hlen : length more = (length (dot :: dotdot :: kids) + length all)%nat) by apply repeat_length.
      destruct (D5 [] f more Hf Hmore) as [_ Hall]. destruct (D6 [] f more Hf Hmore) as (E1 & E2 & _ & E3).
      specialize (Hl [] f more Hf Hmore). cbn zeta in Hl. set (res := pages a root s ino 0 (([], f) :: more)) in *. clearbody res.
      assert (Hrep : replies res = dot :: dotdot :: kids) by (apply Hall; right; lia).
      assert (Hend : In (Ok []) res).
      { destruct (empty_or_not res) as [Hi|Hi]; [exact Hi|exfalso].
        pose proof (all_full res E1 Hi) as Hfull. rewrite E3 in Hfull by (right; lia). lia. }
      specialize (Hl Hend). rewrite Hrep in Hl. cbn [map filter] in Hl. rewrite D1, D2 in Hl. cbn [negb orb] in Hl. change (bytes_eqb (b ".") (b ".")) with true in Hl. change (bytes_eqb (b "..") (b "..")) with true in Hl.
      rewrite orb_true_r in Hl. cbn [negb orb] in Hl.
      assert (Ek : names = map de_name kids).
      { rewrite Hl. exact (kids_names l fetch HW rd q kids D4). }
      rewrite Ek. split; [|exact D4]. now apply sorted_names.
  Qed.
End Remount.

Lemma agrees_tree l fetch rd w M depth : whole l fetch -> agrees l fetch rd w M -> (forall p nd, has l p nd -> (length p <= depth)%nat) ->
  (forall q, q <> [] -> (exists nd, has l (rd ++ q) nd) \/ forall nd, ~ has l (rd ++ q) nd) -> source_tree w M depth.
Proof.
  intros HW [A1 A2 A3] Hd Hdec.
  assert (Hin : forall q, q <> [] -> h_names (w_fs w) (M ++ q) <> None -> exists nd, has l (rd ++ q) nd).
  { intros q Hne Hn. destruct (Hdec q Hne) as [H|H]; [exact H|]. now apply A1 in H. }
  assert (Hdir : forall q, q = [] \/ h_names (w_fs w) (M ++ q) = Some HDir -> q = [] \/ exists mt, has l (rd ++ q) (KDir, mt)).
  { intros q [->|Hq]; [now left|]. destruct q as [|y q]; [now left|]. right. destruct (Hin (y :: q)) as [[k mt] Hh]; [discriminate|congruence|].
    destruct (A2 (y :: q) _ (fun E => ltac:(discriminate E)) Hh) as (n & Hn & _ & _ & _ & _ & H). rewrite Hq in Hn. injection Hn as <-. cbn [fst] in H.
    destruct k as [|sz ad|t]; [eauto|destruct H as (i & H & _); discriminate H|destruct H as [m H]; discriminate H]. }
  constructor.
  - intros p x H. destruct p as [|y p]; [now left|]. right. destruct (Hin ((y :: p) ++ [x])) as [nd Hh]; [discriminate|exact H|]. rewrite app_assoc in Hh.
    destruct (has_ancestor l _ x [] nd Hh) as [mt Hmt]; [intros E; apply app_eq_nil in E as [_ E]; discriminate E|].
    destruct (A2 (y :: p) _ (fun E => ltac:(discriminate E)) Hmt) as (n & Hn & _ & _ & _ & _ & Hk). cbn [fst] in Hk. now subst n.
  - intros p Hp. destruct (A3 p (Hdir p Hp)) as (names & E & Hs & Hn). exists names. split; [exact E|]. split.
    + now apply sorted_nodup.
    + intros n. rewrite Hn. split.
      * intros [nd Hh]. destruct (A2 (p ++ [n]) nd) as (x & Hx & _); [now destruct p|exact Hh|congruence].
      * intros H. apply (Hin (p ++ [n])); [now destruct p|exact H].
  - intros p n Hn Hi. destruct p as [|y p]; [destruct Hi|]. destruct (Hin (y :: p)) as [nd Hh]; [discriminate|exact Hn|].
    apply (HW _ _ Hh). apply in_or_app. now right.
  - intros p Hn. destruct p as [|y p]; [apply Nat.le_0_l|]. destruct (Hin (y :: p)) as [nd Hh]; [discriminate|exact Hn|]. apply Hd in Hh. rewrite app_length in Hh. lia.
  - intros p i Hne Hp. destruct (Hin p Hne) as [[k mt] Hh]; [congruence|]. destruct (A2 _ _ Hne Hh) as (n & Hn & _ & _ & _ & _ & H). rewrite Hp in Hn. injection Hn as <-.
    cbn [fst] in H. destruct k as [|sz ad|t]; [discriminate H|destruct H as (j & _ & _ & H); exact H|destruct H as [m H]; discriminate H].
  - intros p t m Hne Hp. destruct (Hin p Hne) as [[k mt] Hh]; [congruence|]. destruct (A2 _ _ Hne Hh) as (n & Hn & _ & _ & _ & _ & H). rewrite Hp in Hn. injection Hn as <-.
    cbn [fst] in H. destruct (HW _ _ Hh) as (_ & _ & Ht). cbn [fst] in Ht. destruct k as [|sz ad|t']; [discriminate H|destruct H as (j & H & _); discriminate H|].
    destruct H as [m' H]. injection H as <- _. split; apply Ht.
Qed.

(** What is archived of a node of the mount is what is stored for it. *)
Lemma agrees_carried l fetch rd w M q nd n contents nd2 : whole l fetch -> agrees l fetch rd w M -> q <> [] -> has l (rd ++ q) nd ->
  h_names (w_fs w) (M ++ q) = Some n -> mirrors_as w (M ++ q) n contents nd2 -> carried fetch (fetch_of contents) nd nd2.
Proof.
  intros HW HA Hne Hh Hn (M1 & M2 & M3 & M4 & M5). destruct (ag_some _ _ _ _ _ HA _ _ Hne Hh) as (n' & Hn' & A1 & A2 & A3 & A4 & A5).
  rewrite Hn in Hn'. injection Hn' as <-. destruct (HW _ _ Hh) as (_ & Ht & Hw).
  split; [congruence|]. split; [congruence|]. split.
  { rewrite M4, A3. unfold as_u64. rewrite Z.mod_small; [now rewrite N2Z.id|]. split; [apply N2Z.is_nonneg|]. change (2 ^ 64)%Z with (Z.of_N (2^64)). apply N2Z.inj_lt. etransitivity; [exact Ht|reflexivity]. }
  split; [intros k; rewrite M3; apply A4|].
  destruct nd as [[|size addr|t] mt]; cbn [fst] in *.
  - subst n. exact M5.
  - destruct A5 as (i & -> & Hd & _). destruct M5 as (addr2 & -> & Hf). destruct Hw as (_ & data & Hd' & Hsz). exists addr2.
    rewrite Hd in Hd'. injection Hd' as Hd'. rewrite Hd' in *. rewrite Hsz, Hf, Hd. split; reflexivity.
  - destruct A5 as [m ->]. exact M5.
Qed.

(** Conversely, a host that agrees with the session shows the mount (used for the examples). *)
Lemma resolves_root a root h s q o : resolves a root h s q o -> q = [] -> o = Reached 1 FtDir.
Proof.
  induction 1 as [h s Hs|h s p o q s' r Hr IH Hst|h s p ino nm s' t Hr IH Hst|h s p ino nm s' e Hr IH Hst|h s p ino k nm Hr IH Hk|h s p e nm Hr IH];
    intros E; auto; apply app_eq_nil in E as [_ E]; discriminate E.
Qed.

Lemma agrees_seen l fetch a root rd w M : mount_of l fetch a root rd -> whole l fetch -> narrow a -> agrees l fetch rd w M -> mount_seen a root w M.
Proof.
  intros HM HW Hnar [A1 A2 A3]. pose proof (whole_showable l fetch HW) as Hsh.
  constructor.
  - intros h s q e Hr. destruct q as [|y q]; [apply resolves_root in Hr; [discriminate Hr|reflexivity]|].
    apply A1; [discriminate|]. pose proof (C63_resolution _ _ _ _ _ _ _ _ _ HM Hsh Hr) as Ho. destruct e; try contradiction; exact (proj1 Ho).
  - intros h s q ino k Hr Hne. destruct (reached_has l fetch a root rd HM HW _ _ _ _ _ Hr Hne) as (nd & Hh & ->).
    destruct (A2 _ _ Hne Hh) as (n & Hn & _ & _ & _ & _ & H). exists n. split; [exact Hn|].
    destruct nd as [[|size addr|t] mt]; cbn [fst ftype_kind of_type] in *; [exact H|destruct H as (i & -> & _); now exists i|destruct H as [m ->]; now exists t, m].
  - intros h s q ino k t Hr Hne Et. destruct (reached_has l fetch a root rd HM HW _ _ _ _ _ Hr Hne) as (nd & Hh & ->).
    destruct (A2 _ _ Hne Hh) as (n & Hn & B1 & B2 & B3 & B4 & _). destruct (C63_contents _ _ _ _ _ _ _ _ _ _ _ HM Hsh Hr Hne Hh) as (_ & (t' & i & Et' & Hat) & _).
    rewrite Et in Et'. injection Et' as <-. destruct Hat as (_ & _ & C1 & C2 & C3 & _ & _ & C4 & _). cbn zeta.
    split; [congruence|]. split; [congruence|]. split; [congruence|]. apply N.bits_inj. intros k. now rewrite B4, N.lor_spec, C4.
  - intros h s q ino t Hr Hne Et. destruct (reached_has l fetch a root rd HM HW _ _ _ _ _ Hr Hne) as (nd & Hh & Ek).
    destruct (A2 _ _ Hne Hh) as (n & Hn & _ & _ & _ & _ & H). destruct (C63_contents _ _ _ _ _ _ _ _ _ _ _ HM Hsh Hr Hne Hh) as (_ & _ & Hc).
    destruct nd as [[|size addr|t'] mt]; [discriminate Ek|discriminate Ek|]. cbn [fst] in *. rewrite Et in Hc. injection Hc as ->. destruct H as [m ->]. eauto.
  - intros h s q ino Hr Hne Et. destruct (reached_has l fetch a root rd HM HW _ _ _ _ _ Hr Hne) as (nd & Hh & Ek).
    destruct (A2 _ _ Hne Hh) as (n & Hn & _ & _ & _ & _ & H). destruct nd as [[|size addr|t'] mt]; [discriminate Ek| |discriminate Ek].
    cbn [fst] in H. destruct H as (i & _ & _ & H). exact H.
  - intros h s q ino i sizes data Hr Hne Hop Hi Hread Hend. destruct (reached_has l fetch a root rd HM HW _ _ _ _ _ Hr Hne) as (nd & Hh & Ek).
    destruct (A2 _ _ Hne Hh) as (n & Hn & _ & _ & _ & _ & H). destruct (C63_contents _ _ _ _ _ _ _ _ _ _ _ HM Hsh Hr Hne Hh) as (_ & _ & Hc).
    destruct nd as [[|size addr|t'] mt]; [discriminate Ek| |discriminate Ek].
    cbn [fst] in H, Hc. destruct H as (i' & -> & Hd & _). rewrite Hi in Hn. injection Hn as <-. destruct (Hc _ Hd) as [_ Hc']. destruct (Hc' Hop) as [H1 _]. clear Hc Hc'.
    pose proof (resolves_served _ _ _ _ _ _ Hr) as Hs. pose proof (resolves_inv _ _ _ _ _ HM _ _ _ _ Hsh Hr) as Hin. cbn beta iota in Hin.
    destruct (C24_read _ _ _ _ _ _ _ _ _ HM Hs (reached_denotes _ _ _ _ _ Hin) Hop) as (d2 & _ & H2 & _).
    assert (Ed : d2 = h_data (w_fs w) i).
    { specialize (H1 0 (N.of_nat (length d2 + length (h_data (w_fs w) i))) ltac:(lia)). rewrite H2 in H1 by lia. cbn [snd skipn N.to_nat] in H1.
      rewrite Nat2N.id in H1. rewrite (firstn_all2 d2) in H1 by lia. rewrite (firstn_all2 (h_data (w_fs w) i)) in H1 by lia. congruence. }
    subst d2. set (d := h_data (w_fs w) i) in *. clearbody d.
    assert (Hpre : forall sizes off x, off <= N.of_nat (length d) -> read_on a root s ino off sizes = Ok x -> exists k, x = firstn k (skipn (N.to_nat off) d)).
    { clear - H2. induction sizes as [|z r IH]; intros off x Hoff Hx; [exists 0%nat; cbn [read_on] in Hx; injection Hx as <-; reflexivity|].
      cbn [read_on] in Hx. rewrite (H2 off z Hoff) in Hx. set (u := firstn (N.to_nat z) (skipn (N.to_nat off) d)) in *.
      destruct (read_on a root s ino (off + N.of_nat (length u)) r) as [y| | |] eqn:Ey; try discriminate Hx. cbn [bind] in Hx. injection Hx as <-.
      assert (Hu : (length u <= length d - N.to_nat off)%nat) by (unfold u; rewrite firstn_length, skipn_length; lia).
      apply IH in Ey; [|lia]. destruct Ey as [k ->]. exists (length u + k)%nat.
      assert (Eu : u = firstn (length u) (skipn (N.to_nat off) d)).
      { unfold u at 1. rewrite <- (firstn_all (firstn (N.to_nat z) (skipn (N.to_nat off) d))) at 1. fold u. unfold u at 2. rewrite firstn_firstn. f_equal. unfold u. rewrite firstn_length. lia. }
      transitivity (firstn (length u + k) (u ++ skipn (length u) (skipn (N.to_nat off) d))).
      - rewrite firstn_app_2, skipn_twice. do 3 f_equal. lia.
      - f_equal. rewrite Eu at 1. apply firstn_skipn. }
    destruct (Hpre sizes 0 data ltac:(lia) Hread) as [k Ek']. change (skipn (N.to_nat 0) d) with d in Ek'.
    assert (Hl : (length data <= length d)%nat) by (rewrite Ek', firstn_length; lia).
    rewrite (H2 (N.of_nat (length data)) 1) in Hend by (clear - Hl; lia). cbn [snd] in Hend. injection Hend as Hend. rewrite Nat2N.id in Hend.
    assert (Hz : length (skipn (length data) d) = 0%nat) by (destruct (skipn (length data) d); [reflexivity|discriminate Hend]).
    rewrite skipn_length in Hz. rewrite Ek' in *. rewrite firstn_length in *. rewrite firstn_all2; [reflexivity|lia].
  - intros h s q ino Hr.
    assert (Hq : q = [] \/ exists mt, has l (rd ++ q) (KDir, mt)).
    { destruct q as [|y q]; [now left|]. right. destruct (reached_has l fetch a root rd HM HW _ _ _ _ _ Hr) as (nd & Hh & Ek); [discriminate|].
      destruct nd as [[|size addr|t'] mt]; [eauto|discriminate Ek|discriminate Ek]. }
    destruct (A3 q Hq) as (names & E & Hs & Hn). exists names. split; [exact E|]. intros between f more Hf Hmore res Hend.
    destruct (C63_directory _ _ _ _ _ _ _ _ _ HM Hsh Hnar Hr) as (dot & dotdot & kids & D1 & _ & D2 & D3 & D4 & _ & D5).
    destruct (D5 between f more Hf Hmore) as [_ Hall]. fold res in Hall. rewrite (Hall (or_introl Hend)). cbn [map filter]. rewrite D1, D2.
    change (bytes_eqb (b ".") (b ".")) with true. change (bytes_eqb (b "..") (b "..")) with true. rewrite orb_true_r. cbn [negb orb].
    rewrite (kids_names l fetch HW rd q kids D4).
    apply (sorted_unique (fun x y => bytes_cmp x y = Lt)).
    + intros x y H1 H2. rewrite bytes_cmp_antisym, H1 in H2. discriminate H2.
    + apply NoDup_Permutation; [now apply sorted_nodup|apply sorted_nodup; now apply sorted_names|]. intros n. rewrite Hn, D4. reflexivity.
    + exact Hs.
    + now apply sorted_names.
Qed.
