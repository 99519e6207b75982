(** From conversions to sessions. *)
From Verif Require Export SpecConverted PropConvert PropCli2 InsideProofs.
From Verif Require Import SpecHostile.

Lemma tar_session o items can_open evs out a :
  tar_main o (Ok (Some (Ok items))) can_open = (evs, Ok tt) -> In (CWritten out a) evs ->
  N.of_nat (length (a_recs a)) < 2^32 -> exists l, small l /\ archive_of l (a_fetch a) a.
Proof.
  intros H Hin Hsm.
  destruct (tar_main_shape _ _ _ _ _ H) as [(H' & _)|(_ & out' & m & items' & c & a' & _ & _ & E1 & E2 & E3 & ->)]; [easy|].
  injection E1 as <-. destruct Hin as [Hin|[Hin|[]]]; [discriminate Hin|]. injection Hin as -> ->.
  rewrite tar_loop in E2. destruct (loop_means _ _ tar_good tar_skip (fun _ => True) (fun x l l' oe _ => tar_made x l l' oe) tar_mono items c) as (l & P1 & _); auto.
  { apply Forall_forall. auto. }
  exists l. destruct (finalized c a l P1 E3 Hsm) as [F1 _]. unfold finalize in E3. rewrite P1, <- F1 in E3.
  split; [|exact E3]. eapply archive_small; eauto.
Qed.

Lemma zip_session o items file can_open evs out a :
  zip_main o (Ok (Some items)) (Ok file) can_open = (evs, Ok tt) -> In (CWritten out a) evs ->
  (forall m, In (Some m) items -> zip_fitting file m) ->
  N.of_nat (length (a_recs a)) < 2^32 -> exists l, small l /\ archive_of l (a_fetch a) a.
Proof.
  intros H Hin Hfit Hsm.
  destruct (zip_main_shape _ _ _ _ _ _ H) as [(H' & _)|(_ & m & items' & c & a' & _ & E1 & E2 & E3 & ->)]; [easy|].
  injection E1 as <-. destruct Hin as [Hin|[Hin|[]]]; [discriminate Hin|]. injection Hin as <- ->.
  rewrite zip_loop in E2. destruct (loop_means _ _ (zip_good file) (fun _ => False) (zip_fits file) (zip_made file) (zip_mono file) items c) as (l & P1 & _); auto.
  { apply Forall_forall. intros [y|] Hy; cbn; auto. }
  exists l. destruct (finalized c a l P1 E3 Hsm) as [F1 _]. unfold finalize in E3. rewrite P1, <- F1 in E3.
  split; [|exact E3]. eapply archive_small; eauto.
Qed.

(** The node of an archive with contents [F] is the thing [t]. *)
Definition is_thing (F : caddr -> fetched) (nd : node) (t : thing) : Prop :=
  match t with
  | GotDir => fst nd = KDir
  | GotFile data => exists size addr, fst nd = KFile size addr /\ F addr = Found data
  | GotLink x => fst nd = KLink x
  end.

Lemma tar_dir_not_link m : tar_directory m -> ~ tar_link m.
Proof. unfold tar_link. intros [H|(_ & H & _)]; congruence. Qed.
Lemma tar_becomes_thing m F nd t : tar_becomes m F nd -> tar_thing m t -> is_thing F nd t.
Proof.
  intros [_ H] Ht. destruct t as [|data|x]; cbn [tar_thing is_thing] in *.
  - destruct H as [[_ H]|[(H & _)|(H & _)]]; auto; [now apply tar_dir_not_link in Ht|now destruct H as (_ & H & _)].
  - destruct Ht as [Hf Hd]. destruct H as [[H _]|[(H & _)|(_ & d & addr & H1 & H2 & H3)]];
      [now destruct Hf as (_ & Hf & _)|now destruct Hf as (_ & _ & Hf)|]. exists (N.of_nat (length d)), addr. split; auto. congruence.
  - destruct Ht as [Hl Hx]. destruct H as [[H _]|[(_ & t & H1 & H2)|(H & _)]]; [now apply tar_dir_not_link in H|congruence|now destruct H as (_ & _ & H)].
Qed.
Lemma becomes_tar_thing m F nd : tar_becomes m F nd -> exists t, tar_thing m t /\ is_thing F nd t.
Proof.
  intros H. pose proof H as [_ [[H1 H2]|[(H1 & t & H2 & H3)|(H1 & d & addr & H2 & H3 & H4)]]].
  - exists GotDir. now split.
  - exists (GotLink t). split; [now split|exact H3].
  - exists (GotFile d). split; [now split|]. exists (N.of_nat (length d)), addr. auto.
Qed.

Lemma zip_bytes_fun file m d d' : zip_bytes file m d -> zip_bytes file m d' -> d = d'.
Proof.
  unfold zip_bytes. destruct (zm_stored m); [|congruence].
  intros (x & y & E1 & L1 & S1) (x' & y' & E2 & L2 & S2). rewrite E1 in E2.
  assert (Lx : length x = length x') by lia.
  assert (E : x = x' /\ d ++ y = d' ++ y').
  { clear - E2 Lx. revert x' E2 Lx. induction x as [|c x IH]; intros [|c' x'] E L; cbn in *; try lia; auto. injection E as -> E. destruct (IH x' E) as [-> ->]; auto. }
  destruct E as [_ E]. assert (Ld : length d = length d') by lia. clear - E Ld.
  revert d' E Ld. induction d as [|c d IH]; intros [|c' d'] E L; cbn in *; try lia; auto. injection E as -> E. f_equal. apply IH; auto.
Qed.
Lemma zip_becomes_thing file m F nd t : zip_becomes file m F nd -> zip_thing file m t -> is_thing F nd t.
Proof.
  intros (_ & _ & _ & _ & H) Ht. destruct t as [|data|x]; cbn [zip_thing is_thing] in *; [| |easy].
  - destruct H as [[_ H]|[H _]]; [exact H|easy].
  - destruct Ht as [Hf Hd]. destruct H as [[H _]|(_ & d & addr & H1 & H2 & H3)]; [easy|].
    exists (zm_size m), addr. split; auto. now rewrite (zip_bytes_fun file m data d Hd H1).
Qed.
Lemma becomes_zip_thing file m F nd : zip_becomes file m F nd -> exists t, zip_thing file m t /\ is_thing F nd t.
Proof.
  intros (_ & _ & _ & _ & [[H1 H2]|(H1 & d & addr & H2 & H3 & H4)]).
  - exists GotDir. now split.
  - exists (GotFile d). split; [now split|]. exists (zm_size m), addr. auto.
Qed.

(** Extraction of a session described by [have]: things at paths. *)
Section Out.
Variables (l : list entry) (a : archive) (have : path -> thing -> Prop).
Hypothesis Hs : small l.
Hypothesis Ha : archive_of l (a_fetch a) a.
Hypothesis Hkept : forall p t, have p t -> p <> [] /\ exists nd, has l p nd /\ is_thing (a_fetch a) nd t.
Hypothesis Honly : forall p nd, has l p nd -> (exists t, have p t /\ is_thing (a_fetch a) nd t) \/
  (fst nd = KDir /\ p <> [] /\ exists q t, have q t /\ proper_prefix p q).
Hypothesis Hgood : forall p t n, have p t -> In n p -> ordinary n /\ utf8 n = true.
Hypothesis Hlinks : forall p x, have p (GotLink x) -> utf8 x = true /\ x <> [].

Lemma above p q t : have q t -> proper_prefix p q -> p <> [] -> exists mt, has l p (KDir, mt).
Proof.
  intros Hq (x & u & E) Hp. destruct (Hkept q t Hq) as (_ & nd & Hh & _). rewrite E in Hh. exact (has_ancestor l p x u nd Hh Hp).
Qed.

Theorem things_extracted w od out rc pol sched last g res :
  tidy (w_fs w) -> outdir (w_fs w) (base_of w od) out -> (forall p, p <> [] -> h_names (w_fs w) (out ++ p) = None) ->
  extract_cmd w a od [] None None rc pol sched last = (g, res) ->
  (quiet sched last -> res <> Diverge -> res = Ok tt) /\
  (res = Ok tt ->
   (forall p t, have p t -> on_disk g (out ++ p) t) /\
   (forall p q t, have q t -> proper_prefix p q -> p <> [] -> h_names g (out ++ p) = Some HDir) /\
   (forall p, p <> [] -> h_names g (out ++ p) <> None -> exists q t, have q t /\ (q = p \/ proper_prefix p q))) /\
  only_below (w_fs w) g out.
Proof.
  intros Htidy Hout Hempty Hrun.
  assert (Hnames : forall p nd n, has l p nd -> In n p -> ordinary n /\ utf8 n = true).
  { intros p nd n Hh Hn. destruct (Honly p nd Hh) as [(t & Ht & _)|(_ & _ & q & t & Ht & x & u & E)]; [eauto|].
    apply (Hgood q t); auto. rewrite E. apply in_or_app. now left. }
  destruct (C56_extract_root_dir w l _ a None [] od out rc pol sched last g res Hs Ha eq_refl) as (R1 & R2 & R3); auto.
  - intros p nd n _ Hh Hn. eapply Hnames; eauto.
  - intros p size addr mt _ Hh. cbn [app] in Hh. destruct (Honly _ _ Hh) as [(t & _ & Ht)|(E & _)]; [|discriminate E].
    destruct t as [|data|x]; cbn in Ht; [discriminate Ht| |discriminate Ht]. destruct Ht as (size' & addr' & E & Hf). injection E as <- <-. eauto.
  - intros p t mt _ Hh. cbn [app] in Hh. destruct (Honly _ _ Hh) as [(t' & Ht' & Ht)|(E & _)]; [|discriminate E].
    destruct t' as [|data|x]; cbn in Ht; [discriminate Ht|destruct Ht as (? & ? & E & _); discriminate E|]. injection Ht as <-. eauto.
  - split; [exact R1|]. split; [|exact R3]. intros Hok. specialize (R2 Hok). split; [|split].
    + intros p t Ht. destruct (Hkept p t Ht) as (Hne & [k mt] & Hh & Hk). destruct (R2 p Hne) as (D & F & L). cbn [app] in *.
      destruct t as [|data|x]; cbn [is_thing on_disk fst] in *.
      * subst k. apply D. eauto.
      * destruct Hk as (size & addr & -> & Hf). apply F. eauto 6.
      * subst k. apply L. eauto.
    + intros p q t Ht Hpp Hne. destruct (above p q t Ht Hpp Hne) as (mt & Hh). apply (proj1 (R2 p Hne)). eauto.
    + intros p Hne Hn. destruct (R2 p Hne) as (D & F & L). cbn [app] in *.
      assert (Hh : exists nd, has l p nd).
      { destruct (h_names g (out ++ p)) as [[|i|t mm]|] eqn:E; [| | |easy].
        - destruct (proj1 D eq_refl) as (mt & Hh). eauto.
        - destruct (proj1 (F (h_data g i))) as (sz & addr & mt & Hh & _); [exists i; auto|eauto].
        - destruct (proj1 (L t)) as (mt & Hh); [exists mm; auto|eauto]. }
      destruct Hh as [nd Hh]. destruct (Honly _ _ Hh) as [(t & Ht & _)|(_ & _ & q & t & Ht & Hpp)]; eauto 6.
Qed.
End Out.

(** Links only where the session has links. *)
Lemma no_link_names l fetch a : small l -> archive_of l fetch a -> (forall p t mt, ~ has l p (KLink t, mt)) -> forall x, ~ link_name a x.
Proof.
  intros Hs Ha Hno x (r & t & q & Hr & Hp & _). destruct (In_nth_error _ _ Hr) as [n Hn].
  destruct (archive_ok l fetch a Hs Ha) as (m & _ & _ & _ & Hw & _).
  assert (Hat : at_ (a_recs a) (N.of_nat n) = Some r).
  { unfold at_. assert (Hl : (n < length (a_recs a))%nat) by (apply nth_error_Some; congruence).
    destruct (N.ltb_spec (N.of_nat n) (N.of_nat (length (a_recs a)))); [|lia]. now rewrite Nat2N.id. }
  destruct (apath_total a Hw (N.of_nat n)) as [p Hap]; [assert (Hl : (n < length (a_recs a))%nat) by (apply nth_error_Some; congruence); lia|].
  apply (Hno p t (meta_of_rec r)). apply (archive_has l fetch a); auto. exists (N.of_nat n), r. split; auto. split; auto. unfold node_of_rec. now rewrite Hp.
Qed.

(** The paths of a session whose members never go above, and have no ".". *)
Lemma inside_prefix p q : inside (p ++ q) -> inside p.
Proof. intros H l1 l2 E. apply (H l1 (l2 ++ q)). now rewrite E, <- app_assoc. Qed.
Lemma safe_inside s p : safe_name s -> stands_for s p -> inside p.
Proof.
  intros (_ & _ & He) [_ E] l1 l2 Ep. rewrite <- E in Ep. apply filter_split in Ep as (k1 & k2 & Ek & <- & _).
  rewrite ups_filter. destruct (Z.ltb_spec (ups k1) 0); [|lia]. exfalso. apply He. exists k1, k2. auto.
Qed.
