(** Contents in a creator: C91. *)
From Verif Require Export SpecOnce PythonFacts.

Local Ltac bad := let H := fresh in intros H; discriminate H.

(** Two files of the store may share a content, but no two contents are the same; all addresses are known. *)
Definition tidy (c : creator) : Prop :=
  NoDup (cr_contents c) /\
  forall e size x, In e (cs_store (cr_entries c)) -> se_kind e = KFile size x -> exists data, fetch_of (cr_contents c) x = Found data.
Definition lean (c : creator) : Prop :=
  forall x data, fetch_of (cr_contents c) x = Found data ->
    exists e size, In e (cs_store (cr_entries c)) /\ se_kind e = KFile size x.

Lemma tidy_empty : tidy creator_empty.
Proof. split; [constructor|]. intros e size x []. Qed.
Lemma lean_empty : lean creator_empty.
Proof.
  intros x data. unfold fetch_of. cbn [creator_empty cr_contents]. destruct (ca_pack x =? 1); [|bad].
  unfold at_. cbn [length]. destruct (ca_content x <? N.of_nat 0) eqn:E; [lia|bad].
Qed.

Lemma find_content_none l data : forall k, find_content l data k = None -> ~ In data l.
Proof.
  induction l as [|x l IH]; intros k; cbn [find_content]; [easy|]. destruct (bytes_eqb_spec x data) as [->|Hx]; [bad|].
  intros E [H|H]; [easy|now apply (IH _ E)].
Qed.

Lemma nodup_snoc {A} (l : list A) x : NoDup l -> ~ In x l -> NoDup (l ++ [x]).
Proof.
  intros H Hx. induction H as [|y l Hy H IH]; cbn [app]; [constructor; [easy|constructor]|].
  constructor; [|apply IH; intros Hin; apply Hx; now right].
  intros Hin. apply in_app_iff in Hin as [Hin|[<-|[]]]; [easy|]. apply Hx. now left.
Qed.

Lemma add_content_nodup l data : NoDup l -> NoDup (fst (add_content l data)).
Proof.
  intros H. unfold add_content. destruct (find_content l data 0) as [k|] eqn:E; cbn [fst]; auto.
  apply nodup_snoc; auto. eapply find_content_none; eauto.
Qed.

Lemma fetch_inv l x data : fetch_of l x = Found data -> ca_pack x = 1 /\ at_ l (ca_content x) = Some data.
Proof.
  unfold fetch_of. destruct (ca_pack x =? 1) eqn:E; [|bad]. destruct (at_ l (ca_content x)) as [d|]; [|bad].
  intros H. injection H as ->. split; [lia|reflexivity].
Qed.

(** What was not there before is at the new address. *)
Lemma add_content_new l data x d : fetch_of (fst (add_content l data)) x = Found d ->
  fetch_of l x = Found d \/ x = snd (add_content l data).
Proof.
  unfold add_content. destruct (find_content l data 0) as [k|]; cbn [fst snd]; [auto|].
  intros H. apply fetch_inv in H as [H1 H2]. unfold at_ in H2. rewrite app_length in H2. cbn [length] in H2.
  destruct (ca_content x <? N.of_nat (length l + 1)) eqn:E; [|discriminate H2].
  destruct (ca_content x <? N.of_nat (length l)) eqn:E'.
  - left. unfold fetch_of. rewrite H1. change (1 =? 1) with true. cbn iota. unfold at_. rewrite E'.
    rewrite nth_error_app1 in H2 by lia. now rewrite H2.
  - right. destruct x as [pk ct]. cbn [ca_pack ca_content] in *. subst pk. f_equal. lia.
Qed.

Lemma fetch_injective l x y data : NoDup l -> fetch_of l x = Found data -> fetch_of l y = Found data -> x = y.
Proof.
  intros Hn Hx Hy. apply fetch_inv in Hx as [X1 X2]. apply fetch_inv in Hy as [Y1 Y2].
  destruct x as [px cx], y as [py cy]. cbn [ca_pack ca_content] in *. subst px py. f_equal. unfold at_ in X2, Y2.
  destruct (cx <? N.of_nat (length l)) eqn:Ex; [|discriminate X2]. destruct (cy <? N.of_nat (length l)) eqn:Ey; [|discriminate Y2].
  assert (N.to_nat cx = N.to_nat cy); [|lia]. eapply (proj1 (NoDup_nth_error l) Hn); [lia|congruence].
Qed.

(** ** What one entry adds to the store *)
Definition fits_in (e : entry) (ext : list sentry) (r : res unit) : Prop :=
  (forall s size x, In s ext -> se_kind s = KFile size x -> e_kind e = Ok (Some (KFile size x))) /\
  (r = Ok tt -> forall size x, e_kind e = Ok (Some (KFile size x)) -> exists s, In s ext /\ se_kind s = KFile size x).

Lemma add_entry_in_ext st d e : exists ext, cs_store (fst (add_entry_in st d e)) = cs_store st ++ ext /\ fits_in e ext (snd (add_entry_in st d e)).
Proof.
  assert (Hnil : forall r, (r = Ok tt -> forall size x, e_kind e <> Ok (Some (KFile size x))) ->
    exists ext, cs_store (fst (st, r)) = cs_store st ++ ext /\ fits_in e ext (snd (st, r))).
  { intros r Hr. exists []. cbn [fst snd]. rewrite app_nil_r. split; auto. split; [intros s size x []|].
    intros E size x H. exfalso. eapply Hr; eauto. }
  unfold add_entry_in. destruct (e_kind e) as [[k|]|x| |] eqn:Ek; try (apply Hnil; intros _ size x' H; discriminate H); try (apply Hnil; bad).
  destruct (file_name (e_path e)) as [n|]; [|apply Hnil; bad].
  assert (Hadd : forall mk, exists ext, cs_store (add_child st d mk (mkSentry n d k (e_meta e))) = cs_store st ++ ext /\ fits_in e ext (Ok tt)).
  { intros mk. exists [mkSentry n d k (e_meta e)]. split; [reflexivity|]. split.
    - intros s size x [<-|[]] H. cbn [se_kind] in H. rewrite Ek. congruence.
    - intros _ size x H. exists (mkSentry n d k (e_meta e)). split; [now left|]. cbn [se_kind]. rewrite Ek in H. congruence. }
  destruct k as [|size addr|t]; destruct (assoc n (cs_heap st d)) as [[c|c]|]; try (apply Hadd); try (apply Hnil; bad).
  apply Hnil. intros _ size x H. discriminate H.
Qed.

Lemma add_ext comps : forall st d e, exists ext, cs_store (fst (add st d comps e)) = cs_store st ++ ext /\ fits_in e ext (snd (add st d comps e)).
Proof.
  induction comps as [|c comps IH]; intros st d e; cbn [add]; [apply add_entry_in_ext|].
  assert (H1 : exists ext, cs_store (ensure_dir st d (as_str c)) = cs_store st ++ ext /\ forall s, In s ext -> se_kind s = KDir).
  { unfold ensure_dir. destruct (assoc (as_str c) (cs_heap st d)); [exists []; rewrite app_nil_r; split; auto; intros s []|].
    eexists [_]. split; [reflexivity|]. intros s [<-|[]]. reflexivity. }
  destruct H1 as (ext1 & E1 & K1). set (st1 := ensure_dir st d (as_str c)) in *. clearbody st1.
  assert (Hbad : forall r, r <> Ok tt -> exists ext, cs_store (fst (st1, r)) = cs_store st ++ ext /\ fits_in e ext (snd (st1, r))).
  { intros r Hr. exists ext1. split; [exact E1|]. split; [intros s size x Hs H; rewrite (K1 s Hs) in H; discriminate H|]. intros H. now apply Hr in H. }
  destruct (assoc (as_str c) (cs_heap st1 d)) as [[s|s]|]; try (apply Hbad; bad).
  destruct (IH st1 (Some s) e) as (ext2 & E2 & F1 & F2). exists (ext1 ++ ext2). rewrite E2, E1, app_assoc. split; auto. split.
  - intros t size x Ht H. apply in_app_iff in Ht as [Ht|Ht]; [rewrite (K1 t Ht) in H; discriminate H|eauto].
  - intros Hr size x H. destruct (F2 Hr size x H) as (t & T1 & T2). exists t. split; auto. apply in_app_iff. auto.
Qed.

Lemma add_entry_ext st e : exists ext, cs_store (fst (add_entry st e)) = cs_store st ++ ext /\ fits_in e ext (snd (add_entry st e)).
Proof. unfold add_entry. destruct (parent (e_path e)); apply add_ext. Qed.

(** How an entry comes with its content. *)
Definition brings (l : list bytes) (l' : list bytes) (e : entry) : Prop :=
  (l' = l /\ forall size x, e_kind e <> Ok (Some (KFile size x))) \/
  (exists data size, l' = fst (add_content l data) /\ e_kind e = Ok (Some (KFile size (snd (add_content l data))))).

Lemma brings_tidy c l' e : tidy c -> brings (cr_contents c) l' e -> tidy (mkCreator (fst (add_entry (cr_entries c) e)) l').
Proof.
  intros [H1 H2] Hb. destruct (add_entry_ext (cr_entries c) e) as (ext & E & F & _). unfold tidy. cbn [cr_entries cr_contents]. rewrite E.
  destruct Hb as [(-> & Hk)|(data & size & -> & Hk)].
  - split; auto. intros s size x Hs Hf. apply in_app_iff in Hs as [Hs|Hs]; [eauto|]. destruct (Hk size x). eauto.
  - split; [now apply add_content_nodup|]. destruct (add_content_ok (cr_contents c) data) as (m & E1 & E2). rewrite E1.
    intros s size' x Hs Hf. apply in_app_iff in Hs as [Hs|Hs].
    + destruct (H2 s size' x Hs Hf) as [d Hd]. exists d. now apply fetch_mono.
    + pose proof (F s size' x Hs Hf) as K. rewrite Hk in K. injection K as _ <-. eauto.
Qed.

Lemma brings_lean c l' e : lean c -> brings (cr_contents c) l' e -> snd (add_entry (cr_entries c) e) = Ok tt ->
  lean (mkCreator (fst (add_entry (cr_entries c) e)) l').
Proof.
  intros H Hb Hr. destruct (add_entry_ext (cr_entries c) e) as (ext & E & _ & F). unfold lean. cbn [cr_entries cr_contents]. rewrite E.
  assert (Hold : forall x d, fetch_of (cr_contents c) x = Found d ->
    exists e0 size, In e0 (cs_store (cr_entries c) ++ ext) /\ se_kind e0 = KFile size x).
  { intros x d Hd. destruct (H x d Hd) as (e0 & size & I1 & I2). exists e0, size. split; auto. apply in_app_iff. auto. }
  destruct Hb as [(-> & _)|(data & size & -> & Hk)]; [exact Hold|].
  intros x d Hd. apply add_content_new in Hd as [Hd| ->]; [eauto|].
  destruct (F Hr _ _ Hk) as (s & S1 & S2). exists s, size. split; auto. apply in_app_iff. auto.
Qed.

(** ** Files from the host *)
Lemma new_from_path_brings w s p l follow l' e : new_from_path w s p l follow = Ok (l', e) -> brings l l' e.
Proof.
  unfold new_from_path. destruct (detect_kind w s follow) as [[k q]| | |]; cbn [bind]; try bad.
  destruct k as [|data|t|]; [intros H; injection H as <- <-; left; split; auto; intros size x K; discriminate K| |
    intros H; injection H as <- <-; left; split; auto; intros size x K; discriminate K|intros H; injection H as <- <-; left; split; auto; intros size x K; discriminate K].
  destruct (at_readable (w_attr w q)); [|bad]. destruct (add_content l data) as [l1 addr] eqn:E. intros H. injection H as <- <-.
  right. exists data, (N.of_nat (length data)). rewrite E. split; reflexivity.
Qed.

Definition steady (c c' : creator) (r : res unit) : Prop := (tidy c -> tidy c') /\ (r = Ok tt -> lean c -> lean c').

Lemma steady_refl c r : steady c c r.
Proof. split; auto. Qed.

Lemma entry_steady w pre s follow c c' r : add_entry_from_path w pre s follow c = (c', r) -> steady c c' r.
Proof.
  unfold add_entry_from_path. destruct (from_path s) as [p| | |]; try (intros H; injection H as <- <-; apply steady_refl).
  destruct (strip_prefix p pre) as [q|]; try (intros H; injection H as <- <-; apply steady_refl).
  destruct (nonempty q); try (intros H; injection H as <- <-; apply steady_refl).
  destruct (new_from_path w s q (cr_contents c) follow) as [[l e]| | |] eqn:En; try (intros H; injection H as <- <-; apply steady_refl).
  apply new_from_path_brings in En. destruct (add_entry (cr_entries c) e) as [st r'] eqn:Ea. intros H. injection H as <- <-. split.
  - intros Ht. pose proof (brings_tidy c l e Ht En) as G. rewrite Ea in G. exact G.
  - intros -> Hl. pose proof (brings_lean c l e Hl En) as G. rewrite Ea in G. apply G. reflexivity.
Qed.

Lemma each_steady w pre l : forall c c' r, add_each w pre l c = (c', r) -> steady c c' r.
Proof.
  induction l as [|[s f] l IH]; intros c c' r; cbn [add_each]; [intros H; injection H as <- <-; apply steady_refl|].
  destruct (add_entry_from_path w pre s f c) as [c1 r1] eqn:E. destruct (entry_steady _ _ _ _ _ _ _ E) as [H1 H2].
  destruct r1 as [[]| | |]; try (intros H; injection H as <- <-; split; [exact H1|bad]).
  intros H. destruct (IH _ _ _ H) as [H3 H4]. split; auto.
Qed.

Lemma from_path_steady fuel w pre s rc c c' r : add_from_path fuel w pre s rc c = (c', r) -> steady c c' r.
Proof.
  unfold add_from_path. destruct (walk fuel w s rc) as [items|]; [apply each_steady|]. intros H. injection H as <- <-. apply steady_refl.
Qed.

Lemma infiles_steady fuel w pre rc l : forall c c' r, add_infiles fuel w pre l rc c = (c', r) -> steady c c' r.
Proof.
  induction l as [|s l IH]; intros c c' r; cbn [add_infiles]; [intros H; injection H as <- <-; apply steady_refl|].
  destruct (add_from_path fuel w pre s rc c) as [c1 r1] eqn:E. destruct (from_path_steady _ _ _ _ _ _ _ _ E) as [H1 H2].
  destruct r1 as [[]| | |]; try (intros H; injection H as <- <-; split; [exact H1|bad]).
  intros H. destruct (IH _ _ _ H) as [H3 H4]. split; auto.
Qed.

Lemma fill_steady fuel w0 w o c r : fill fuel w0 w o = (c, r) -> steady creator_empty c r.
Proof.
  unfold fill. destruct (o_file_list o) as [fl|].
  - destruct (bind (read_file w0 fl) read_lines) as [files| | |]; try (intros H; injection H as <- <-; apply steady_refl). apply each_steady.
  - destruct (existsb is_abs (o_infiles o)); [intros H; injection H as <- <-; apply steady_refl|].
    destruct (check_input_paths_exist w (o_infiles o)) as [u| | |]; try (intros H; injection H as <- <-; apply steady_refl). apply infiles_steady.
Qed.

(** ** Members of a tar or a zip *)
Section Loop.
  Variable M : Type.
  Variable conv : M -> list bytes -> res (list bytes * option entry).
  Hypothesis conv_brings : forall x l l' oe, conv x l = Ok (l', oe) -> match oe with Some e => brings l l' e | None => l' = l end.

  Lemma loop_steady items : forall c c' r, loop M conv items c = (c', r) -> steady c c' r.
  Proof.
    induction items as [|x items IH]; intros c c' r; cbn [loop]; [intros H; injection H as <- <-; apply steady_refl|].
    destruct (conv x (cr_contents c)) as [[l oe]| | |] eqn:Ec; try (intros H; injection H as <- <-; apply steady_refl).
    pose proof (conv_brings _ _ _ _ Ec) as Hb. destruct oe as [e|].
    - destruct (add_entry (cr_entries c) e) as [st r1] eqn:Ea.
      assert (Hs : steady c (mkCreator st l) r1).
      { split.
        - intros Ht. pose proof (brings_tidy c l e Ht Hb) as G. rewrite Ea in G. exact G.
        - intros -> Hl. pose proof (brings_lean c l e Hl Hb) as G. rewrite Ea in G. apply G. reflexivity. }
      destruct Hs as [H1 H2]. destruct r1 as [[]| | |]; try (intros H; injection H as <- <-; split; [exact H1|bad]).
      intros H. destruct (IH _ _ _ H) as [H3 H4]. split; auto.
    - subst l. destruct c as [st l]. cbn [cr_entries cr_contents]. apply IH.
  Qed.
End Loop.

Lemma tar_conv_brings x l l' oe : tar_conv x l = Ok (l', oe) -> match oe with Some e => brings l l' e | None => l' = l end.
Proof.
  unfold tar_conv. destruct x as [m| | |]; cbn [bind]; try bad. unfold tar_entry.
  destruct (tm_uid m) as [uid| | |]; cbn [bind]; try bad. destruct (tm_gid m) as [gid| | |]; cbn [bind]; try bad.
  destruct (tm_mtime m) as [mtime| | |]; cbn [bind]; try bad. destruct (tm_mode m) as [mode| | |]; cbn [bind]; try bad.
  destruct (tm_path m) as [raw| | |]; cbn [bind]; try bad. destruct (unwrap (from_path raw)) as [p| | |]; cbn [bind]; try bad.
  cbv zeta.
  set (meta0 := mkMeta uid gid mode mtime). clearbody meta0.
  assert (Hd : Ok (l, Some (mkEntry p (Ok (Some KDir)) meta0)) = Ok (l', oe) -> match oe with Some e => brings l l' e | None => l' = l end).
  { intros H. injection H as <- <-. left. split; auto. intros size x K. discriminate K. }
  assert (Hn : Ok (l, @None entry) = Ok (l', oe) -> match oe with Some e => brings l l' e | None => l' = l end).
  { intros H. injection H as <- <-. reflexivity. }
  assert (Hf : (if negb (tm_ustar m) && ends_with_sep (tm_header_path m) then Ok (l, Some (mkEntry p (Ok (Some KDir)) meta0))
     else bind (tm_data m) (fun data => let (l', addr) := add_content l data in Ok (l', Some (mkEntry p (Ok (Some (KFile (N.of_nat (length data)) addr))) meta0)))) = Ok (l', oe) ->
     match oe with Some e => brings l l' e | None => l' = l end).
  { destruct (negb (tm_ustar m) && ends_with_sep (tm_header_path m)); [exact Hd|]. destruct (tm_data m) as [data| | |]; cbn [bind]; try bad.
    destruct (add_content l data) as [l1 addr] eqn:E. intros H. injection H as <- <-. right. exists data, (N.of_nat (length data)). rewrite E. split; reflexivity. }
  destruct (tm_type m); try exact Hd; try exact Hn; try exact Hf.
  destruct (tm_link m) as [[t|]| | |]; cbn [bind]; try bad. intros H. injection H as <- <-. left. split; auto. intros size x K. discriminate K.
Qed.

Lemma zip_conv_brings reopen x l l' oe : zip_conv reopen x l = Ok (l', oe) -> match oe with Some e => brings l l' e | None => l' = l end.
Proof.
  unfold zip_conv. destruct x as [m|]; [|bad]. destruct (zip_entry reopen m l) as [[l1 e]| | |] eqn:E; try bad.
  intros H. injection H as <- <-. revert E. unfold zip_entry. destruct (zip_mtime m) as [mtime| | |]; cbn [bind]; try bad.
  destruct (enclosed_name (zm_name m)) as [raw|]; [|bad]. destruct (unwrap (from_path raw)) as [p| | |]; cbn [bind]; try bad. cbv zeta.
  destruct (zip_is_dir (zm_name m)).
  { intros H. injection H as <- <-. left. split; auto. intros size x K. discriminate K. }
  match goal with |- bind ?y _ = _ -> _ => destruct y as [data| | |]; cbn [bind]; try bad end.
  destruct (add_content l data) as [l2 addr] eqn:E. intros H. injection H as <- <-. right. exists data, (zm_size m). rewrite E. split; reflexivity.
Qed.

(** ** The written archive *)
Lemma written_once c a : sound c -> finalize c = Some a -> N.of_nat (length (a_recs a)) < 2^32 ->
  (tidy c -> each_once a) /\ (lean c -> no_stray a).
Proof.
  intros [Hi [m Hm]] Hf Hn. unfold finalize in Hf.
  assert (Hs : N.of_nat (length (cs_store (cr_entries c))) < 2^32) by (rewrite <- (written_length _ _ _ Hi Hf); exact Hn).
  destruct (write_archive_ok (cr_entries c) m (fetch_of (cr_contents c)) Hi Hm Hs) as (a' & E & F1 & _ & F3 & _).
  rewrite Hf in E. injection E as <-. split.
  - intros [T1 T2]. split.
    + intros p x (i & size & mt & H). assert (K : m p = Some (KFile size x, mt)) by (apply F3; now exists i).
      apply Hm in K as (s & e & K1 & _ & K2). rewrite F1. apply (T2 e size x); [eapply nth_error_In; eauto|congruence].
    + intros x y data. rewrite F1. apply fetch_injective. exact T1.
  - intros HL x data H. rewrite F1 in H. destruct (HL x data H) as (e & size & I1 & I2). apply In_nth_error in I1 as [s I1].
    assert (Hlt : (s < length (cs_store (cr_entries c)))%nat) by (apply nth_error_Some; congruence).
    destruct (spath_total _ s Hi Hlt) as [p Hp]. assert (K : stored (cs_store (cr_entries c)) p (se_kind e, se_meta e)) by (exists s, e; auto).
    apply Hm in K. apply F3 in K as [i K]. rewrite I2 in K. exists p, i, size, (se_meta e). exact K.
Qed.
Lemma after_sound c l : cr_entries c = after l -> sound c.
Proof. intros E. unfold sound. rewrite E. destruct (after_sim l) as (m & Hi & Hr & _). split; [exact Hi|]. exists m. exact Hr. Qed.
Lemma sound_empty : sound creator_empty.
Proof. exact (sound_filled 0 []). Qed.
Lemma loop_sound M conv items : forall c c' r, loop M conv items c = (c', r) -> sound c -> sound c'.
Proof.
  induction items as [|x items IH]; intros c c' r; cbn [loop]; [intros H; injection H as <- <-; auto|].
  destruct (conv x (cr_contents c)) as [[l oe]| | |]; try (intros H; injection H as <- <-; now auto).
  destruct oe as [e|].
  - intros H Hs. assert (G : sound (mkCreator (fst (add_entry (cr_entries c) e)) l)).
    { destruct Hs as [H1 H2]. exact (add_entry_inv _ e H1 H2). }
    destruct (add_entry (cr_entries c) e) as [st r1]. cbn [fst] in G.
    destruct r1 as [[]| | |]; try (injection H as <- <-; exact G). eapply IH; eauto.
  - intros H Hs. eapply IH; [exact H|]. exact Hs.
Qed.

(** A Python program. *)
Definition py_ready (st : pycreator) : Prop := forall c, py_creator st = Some c -> sound c /\ tidy c.
Definition py_lean (st : pycreator) : Prop := forall c, py_creator st = Some c -> lean c.
Definition add_done (k : pycall) (r : res unit) : Prop := match k with PyAdd _ _ _ => r = Ok tt | _ => True end.

Local Ltac bad2 := let a := fresh in let H := fresh in intros a H; discriminate H.
Lemma py_step_once fuel st k st' x r : py_step fuel st k = (st', x, r) -> py_ready st ->
  py_ready st' /\ (add_done k r -> py_lean st -> py_lean st') /\
  (forall a, x = Some a -> exists c, py_creator st = Some c /\ finalize c = Some a).
Proof.
  intros H Hr. destruct k as [|exc|w p rc]; cbn [py_step] in H.
  - unfold py_enter in H. destruct (py_creator st) as [c|] eqn:E.
    + assert (G : forall x0, py_creator x0 = py_creator st -> py_ready x0 /\ (True -> py_lean st -> py_lean x0)).
      { intros x0 Ex. split; [|intros _ Hl]; intros c' E'; rewrite Ex in E'; auto. }
      destruct (py_started st); injection H as <- <- <-; [destruct (G st eq_refl)|destruct (G (mkPy true (Some c)))]; auto; split; auto; split; auto; bad2.
    + injection H as <- <- <-. split; auto. split; auto. bad2.
  - unfold py_exit in H. assert (Hd : py_ready (mkPy false None) /\ (True -> py_lean st -> py_lean (mkPy false None))) by (split; [|intros _ _]; intros c E; discriminate E).
    destruct Hd as [D1 D2]. destruct (py_started st).
    + destruct (py_creator st) as [c|] eqn:E; [|injection H as <- <- <-; split; auto; split; auto; bad2].
      destruct (finalize c) as [a|] eqn:Ef; injection H as <- <- <-; split; auto; split; auto; [|bad2].
      intros a' E'. injection E' as <-. eauto.
    + injection H as <- <- <-. split; auto. split; auto. bad2.
  - unfold py_add in H. destruct (py_creator st) as [c|] eqn:E; [|injection H as <- <- <-; split; auto; split; auto; bad2].
    destruct (py_started st); [|injection H as <- <- <-; split; auto; split; auto; bad2].
    destruct (add_from_path fuel w [] p rc c) as [c' r'] eqn:Ea. injection H as <- <- <-.
    destruct (from_path_steady _ _ _ _ _ _ _ _ Ea) as [S1 S2]. destruct (Hr c E) as [R1 R2].
    pose proof (sound_add fuel w [] p rc c R1) as R3. rewrite Ea in R3. cbn [fst] in R3. split; [|split; [|bad2]].
    + intros c0 E0. cbn [py_creator] in E0. injection E0 as <-. auto.
    + intros Hd Hl c0 E0. cbn [py_creator] in E0. injection E0 as <-. apply S2; auto.
Qed.

Lemma py_run_once fuel h : forall st st' ws os a, py_run fuel st h = (st', ws, os) -> py_ready st -> In a ws ->
  exists c, sound c /\ tidy c /\ finalize c = Some a /\ (Forall2 add_done h os -> py_lean st -> lean c).
Proof.
  induction h as [|k h IH]; intros st st' ws os a; cbn [py_run]; [intros H _ Hin; injection H as _ <- _; destruct Hin|].
  destruct (py_step fuel st k) as [[st1 x] o] eqn:Es. destruct (py_run fuel st1 h) as [[st2 l] os2] eqn:Er.
  intros H Hr Hin. injection H as _ <- <-. destruct (py_step_once _ _ _ _ _ _ Es Hr) as (H1 & H2 & H3).
  assert (Hx : x = Some a \/ In a l) by (destruct x as [a0|]; [destruct Hin as [->|Hin]; auto|auto]).
  destruct Hx as [Hx|Hx].
  - destruct (H3 a Hx) as (c & E & Ef). destruct (Hr c E) as [R1 R2]. exists c. repeat (split; auto).
  - destruct (IH _ _ _ _ a Er H1 Hx) as (c & C1 & C2 & C3 & C4). exists c. repeat (split; auto).
    intros HF Hl. inversion HF; subst. auto.
Qed.
