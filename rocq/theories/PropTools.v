(** C96: the same files, archived by [arx create] or as a tar or zip that is converted. *)
From Verif Require Export ToolsFacts AlikeReaders AlikeMount PropConvertedRead.

Local Ltac bad := let H := fresh in intros H; discriminate H.

Lemma tar_path_fun m p q : tar_path m p -> tar_path m q -> p = q.
Proof. intros (s & E & [_ <-] & _) (s' & E' & [_ <-] & _). congruence. Qed.

Lemma tar_copy_like (g : N -> N) v q n m f nd contents nd1 : tar_copy (fun x y => g x = g y) v q n m -> tar_becomes m f nd ->
  mirrors_as v q n contents nd1 -> like_node (fetch_of contents) (plain_node g nd1) f (plain_node g nd).
Proof.
  intros (U1 & G1 & T1 & (mode & E & Hmode) & Hn) ((U2 & G2 & M2 & T2) & Hk) (U3 & G3 & M3 & T3 & K3).
  cbv beta in Hmode. destruct nd as [k [u gg mo t]], nd1 as [k1 [u1 g1 mo1 t1]]. cbn [fst snd m_uid m_gid m_mode m_mtime] in *.
  unfold plain_node, plain_meta. split; cbn [fst snd m_uid m_gid m_mode m_mtime]; [f_equal; congruence|].
  destruct n as [|i|tg mt].
  - subst k1. destruct Hk as [[_ ->]|[[Hk _]|[(_ & Hk & _) _]]]; [reflexivity|now apply tar_dir_not_link in Hn|contradiction].
  - destruct K3 as (addr & -> & F1). destruct Hn as [(N1 & N2 & N3) Hd]. destruct Hk as [[Hk _]|[[Hk _]|(_ & data & addr2 & D2 & -> & F2)]]; [contradiction..|].
    assert (data = h_data (w_fs v) i) as -> by congruence. split; [reflexivity|congruence].
  - subst k1. destruct Hn as [Hl Ht]. destruct Hk as [[Hk _]|[(_ & t2 & E2 & ->)|[(_ & _ & Hk) _]]]; [now apply tar_dir_not_link in Hk|congruence|contradiction].
Qed.

Lemma tar_alike (g : N -> N) w o v inputs a1 topts items can_open evs out a2 : created_archive w o v inputs a1 ->
  tar_main topts (Ok (Some (Ok items))) can_open = (evs, Ok tt) -> In (CWritten out a2) evs -> N.of_nat (length (a_recs a2)) < 2^32 ->
  tar_of (fun x y => g x = g y) v (source_at v inputs) items -> same_table (plain g a1) (plain g a2).
Proof.
  intros K1 H Hin Hsm (T1 & T2 & T3). destruct (tar_session _ _ _ _ _ _ H Hin Hsm) as (l & Hs & Ha).
  assert (Hst : forall p nd, has l p nd <-> exists i, astored a2 i p nd) by (intros p nd; apply (archive_has l (a_fetch a2) a2); auto).
  pose proof K1 as (P1 & _). pose proof (pr_apart _ _ _ _ P1) as Hap.
  apply (sources_alike g w o v inputs a1 l (a_fetch a2) a2 K1 Hs Ha).
  - intros p q n Hsrc Hne. destruct (T1 p q n Hsrc Hne) as (x & Hx & m & -> & Hext & Hp). apply in_split in Hx as (l1 & l2 & E).
    destruct (C49_members_are_kept _ _ _ _ _ _ H Hin Hsm l1 (Ok m) l2 E) as (m0 & Em & [He|(p' & i & nd & Hp' & _ & Hi & Hb)]); [congruence|].
    injection Em as <-. assert (p' = p) as -> by (eapply tar_path_fun; eauto).
    exists nd. split; [apply Hst; eauto|].
    assert (Hcopy : forall m', In (Ok m') items -> ~ tar_extension m' -> tar_path m' p -> tar_copy (fun x y => g x = g y) v q n m').
    { intros m' H1 H2 H3. destruct (T2 m' p H1 H2 H3) as (q' & n' & Hsrc' & Hc). destruct (source_unique _ _ _ _ _ _ _ Hap Hsrc Hsrc') as [-> ->]. exact Hc. }
    intros contents nd1 Hm1. destruct Hb as [Hb|(_ & _ & m' & q' & Hm' & Hext' & Hq' & [[-> Hb]|[Hpp _]])].
    + eapply tar_copy_like; eauto. apply Hcopy; auto. rewrite E. apply in_or_app. right. now left.
    + eapply tar_copy_like; eauto. apply Hcopy; auto. rewrite E. apply in_or_app. now left.
    + exfalso. apply (T3 l1 (Ok m) l2 (Ok m') p q' E Hm'); [exists m; auto|exists m'; auto|exact Hpp].
  - intros p nd Hh. apply Hst in Hh as (i & Hi). destruct (C49_nothing_else _ _ _ _ _ _ H Hin Hsm i p nd Hi) as (m & q & Hm & Hext & Hp & [[-> _]|[(x & t & ->) ->]]).
    + left. destruct (T2 m p Hm Hext Hp) as (q & n & Hsrc & _). eauto.
    + right. split; [reflexivity|]. destruct (T2 m _ Hm Hext Hp) as (q & n & Hsrc & _). eauto.
Qed.

(** Of some files and directories, [arx create] makes one archive, a tar of them converted by [tar2arx]
    another one: the same records, in the same order, with the same owners, permissions, times, targets
    and contents. *)
Theorem C96_tar : forall w o v inputs a1 topts items can_open evs out a2, created_archive w o v inputs a1 ->
  tar_main topts (Ok (Some (Ok items))) can_open = (evs, Ok tt) -> In (CWritten out a2) evs -> N.of_nat (length (a_recs a2)) < 2^32 ->
  tar_of same_permissions v (source_at v inputs) items -> alike_table a1 a2.
Proof. intros w o v inputs a1 topts items can_open evs out a2 K H Hin Hsm Ht. apply plain_alike. exact (tar_alike _ _ _ _ _ _ _ _ _ _ _ _ K H Hin Hsm Ht). Qed.
Print Assumptions C96_tar.

(** When the tar has the type bits as well, the same archive (but for where the contents are). *)
Theorem C96_tar_exact : forall w o v inputs a1 topts items can_open evs out a2, created_archive w o v inputs a1 ->
  tar_main topts (Ok (Some (Ok items))) can_open = (evs, Ok tt) -> In (CWritten out a2) evs -> N.of_nat (length (a_recs a2)) < 2^32 ->
  tar_of eq v (source_at v inputs) items -> same_table a1 a2.
Proof.
  intros w o v inputs a1 topts items can_open evs out a2 K H Hin Hsm Ht. rewrite <- (plain_id a1), <- (plain_id a2).
  exact (tar_alike (fun m => m) _ _ _ _ _ _ _ _ _ _ _ K H Hin Hsm Ht).
Qed.
Print Assumptions C96_tar_exact.

(** ** zip *)
Lemma zip_time_fun m t u : zip_time m t -> zip_time m u -> t = u.
Proof.
  intros [(l & E)|(E & Ht)] [(l' & E')|(E' & Hu)].
  - rewrite E in E'. apply app_inj_tail in E' as [_ E']. congruence.
  - exfalso. destruct E' as [E'|(l' & E')]; rewrite E in E'; [now destruct l|]. apply app_inj_tail in E' as [_ E']. discriminate E'.
  - exfalso. destruct E as [E|(l & E)]; rewrite E in E'; [now destruct l'|]. apply app_inj_tail in E' as [_ E']. discriminate E'.
  - destruct Ht as [(Ht & ->)|(z & Ht & ->)], Hu as [(Hu & ->)|(z' & Hu & ->)]; congruence.
Qed.
Lemma app_eq_length {A} (a b c d : list A) : length a = length c -> a ++ b = c ++ d -> a = c /\ b = d.
Proof.
  revert c. induction a as [|x a IH]; intros [|y c] Hl E; try discriminate Hl; [auto|]. cbn [app] in E. injection E as <- E. injection Hl as Hl. destruct (IH c Hl E) as [-> ->]. auto.
Qed.
Lemma zip_bytes_fun file m d e : zip_bytes file m d -> zip_bytes file m e -> d = e.
Proof.
  unfold zip_bytes. destruct (zm_stored m); [|congruence]. intros (x & y & -> & L1 & L2) (x' & y' & E & L1' & L2').
  assert (Hl : length x = length x') by lia. destruct (app_eq_length _ _ _ _ Hl E) as [_ E2]. assert (Hl2 : length d = length e) by lia. now destruct (app_eq_length _ _ _ _ Hl2 E2).
Qed.

Lemma zip_copy_like (g : N -> N) v q n file m f nd contents nd1 : zip_copy (fun x y => g x = g y) v q n file m -> zip_becomes file m f nd ->
  mirrors_as v q n contents nd1 -> like_node (fetch_of contents) (plain_node g nd1) f (plain_node g nd).
Proof.
  intros (U1 & G1 & T1 & (mode & E & Hmode) & Hn) (U2 & G2 & M2 & T2 & Hk) (U3 & G3 & M3 & T3 & K3).
  cbv beta in Hmode. destruct nd as [k [u gg mo t]], nd1 as [k1 [u1 g1 mo1 t1]]. cbn [fst snd m_uid m_gid m_mode m_mtime] in *.
  pose proof (zip_time_fun _ _ _ T1 T2) as ET. destruct M2 as [M2|[M2 _]]; [|congruence].
  unfold plain_node, plain_meta. split; cbn [fst snd m_uid m_gid m_mode m_mtime]; [f_equal; congruence|].
  destruct n as [|i|tg mt]; [| |contradiction].
  - subst k1. destruct Hk as [[_ ->]|[Hk _]]; [reflexivity|contradiction].
  - destruct K3 as (addr & -> & F1). destruct Hn as (N1 & N2 & N3). destruct Hk as [[Hk _]|(_ & data & addr2 & D2 & -> & F2)]; [contradiction|].
    assert (data = h_data (w_fs v) i) as -> by (eapply zip_bytes_fun; eauto). split; [congruence|congruence].
Qed.

Lemma zip_alike (g : N -> N) w o v inputs a1 zopts items file can_open evs out a2 : created_archive w o v inputs a1 ->
  zip_main zopts (Ok (Some items)) (Ok file) can_open = (evs, Ok tt) -> In (CWritten out a2) evs ->
  (forall m, In (Some m) items -> zip_fitting file m) -> N.of_nat (length (a_recs a2)) < 2^32 ->
  zip_of (fun x y => g x = g y) v (source_at v inputs) file items -> same_table (plain g a1) (plain g a2).
Proof.
  intros K1 H Hin Hfit Hsm (T1 & T2 & T3). destruct (zip_session _ _ _ _ _ _ _ H Hin Hfit Hsm) as (l & Hs & Ha).
  assert (Hst : forall p nd, has l p nd <-> exists i, astored a2 i p nd) by (intros p nd; apply (archive_has l (a_fetch a2) a2); auto).
  pose proof K1 as (P1 & _). pose proof (pr_apart _ _ _ _ P1) as Hap.
  assert (Hpt : forall s p q, stands_for s p -> stands_for s q -> p = q) by (intros s p q [_ <-] [_ <-]; reflexivity).
  apply (sources_alike g w o v inputs a1 l (a_fetch a2) a2 K1 Hs Ha).
  - intros p q n Hsrc Hne. destruct (T1 p q n Hsrc Hne) as (x & Hx & m & -> & Hp). apply in_split in Hx as (l1 & l2 & E).
    destruct (C50_members_are_kept _ _ _ _ _ _ _ H Hin Hfit Hsm l1 (Some m) l2 E) as (m0 & p' & i & nd & Em & _ & Hp' & _ & Hi & Hb).
    injection Em as <-. assert (p' = p) as -> by (eapply Hpt; eauto).
    exists nd. split; [apply Hst; eauto|].
    assert (Hcopy : forall m', In (Some m') items -> stands_for (zm_name m') p -> zip_copy (fun x y => g x = g y) v q n file m').
    { intros m' H1 H3. destruct (T2 m' p H1 H3) as (q' & n' & Hsrc' & Hc). destruct (source_unique _ _ _ _ _ _ _ Hap Hsrc Hsrc') as [-> ->]. exact Hc. }
    intros contents nd1 Hm1. destruct Hb as [Hb|(_ & _ & m' & q' & Hm' & Hq' & [[-> Hb]|[Hpp _]])].
    + eapply zip_copy_like; eauto. apply Hcopy; auto. rewrite E. apply in_or_app. right. now left.
    + eapply zip_copy_like; eauto. apply Hcopy; auto. rewrite E. apply in_or_app. now left.
    + exfalso. apply (T3 l1 (Some m) l2 (Some m') p q' E Hm'); [exists m; auto|exists m'; auto|exact Hpp].
  - intros p nd Hh. apply Hst in Hh as (i & Hi). destruct (C50_nothing_else _ _ _ _ _ _ _ H Hin Hfit Hsm i p nd Hi) as (m & q & Hm & Hp & [[-> _]|[(x & t & ->) ->]]).
    + left. destruct (T2 m p Hm Hp) as (q & n & Hsrc & _). eauto.
    + right. split; [reflexivity|]. destruct (T2 m _ Hm Hp) as (q & n & Hsrc & _). eauto.
Qed.

(** The same for a zip of files that belong to user and group 0. *)
Theorem C96_zip : forall w o v inputs a1 zopts items file can_open evs out a2, created_archive w o v inputs a1 ->
  zip_main zopts (Ok (Some items)) (Ok file) can_open = (evs, Ok tt) -> In (CWritten out a2) evs ->
  (forall m, In (Some m) items -> zip_fitting file m) -> N.of_nat (length (a_recs a2)) < 2^32 ->
  (zip_of same_permissions v (source_at v inputs) file items -> alike_table a1 a2) /\
  (zip_of eq v (source_at v inputs) file items -> same_table a1 a2).
Proof.
  intros w o v inputs a1 zopts items file can_open evs out a2 K H Hin Hfit Hsm. split; intros Hz.
  - apply plain_alike. exact (zip_alike _ _ _ _ _ _ _ _ _ _ _ _ _ K H Hin Hfit Hsm Hz).
  - rewrite <- (plain_id a1), <- (plain_id a2). exact (zip_alike (fun m => m) _ _ _ _ _ _ _ _ _ _ _ _ K H Hin Hfit Hsm Hz).
Qed.
Print Assumptions C96_zip.

(** Archives that are alike are listed, dumped and extracted alike, and are mounted alike
    (permissions without type bits), on every input. *)
Theorem C96_readers_agree : forall a1 a2, alike_table a1 a2 ->
  (forall s, list_cmd a1 s = list_cmd a2 s) /\
  (forall w p out, dump w a1 p out = dump w a2 p out) /\
  (forall w od files fl root rc pol sched last,
     extract_cmd w a1 od files fl root rc pol sched last = extract_cmd w a2 od files fl root rc pol sched last) /\
  (forall d, Fuse.mount_range a1 d = Fuse.mount_range a2 d) /\
  (forall root l, Forall2 alike_answer (snd (Fuse.serve a1 root Fuse.fs_new l)) (snd (Fuse.serve a2 root Fuse.fs_new l))).
Proof.
  intros a1 a2 H. split; [now apply list_alike|]. split; [now apply dump_alike|]. split; [now apply extract_alike|]. split; [now apply mount_alike|].
  intros root l. assert (Hs : two_fs Fuse.fs_new Fuse.fs_new) by (split; [reflexivity|split; [reflexivity|constructor]]).
  pose proof (serve_alike a1 a2 H root l _ _ Hs) as K. induction K as [|x y l1 l2 Hx _ IH]; constructor; [|exact IH]. destruct x, y; cbn [rres alike_answer] in *; try easy; congruence.
Qed.
Print Assumptions C96_readers_agree.

(** A tar of the sources of C64: src/a/f.txt and the tree ln. *)
Definition c_member (ty : tar_type) (p : bytes) (mode : N) (link : option bytes) (data : bytes) : tar_member :=
  mkTar (Ok 1001) (Ok 100) (Ok 1234567) (Ok mode) (Ok p) ty (Ok link) true p (Ok data).
Definition c_items (mode : N) : list (res tar_member) :=
  [Ok (c_member TRegular (b "src/a/f.txt") mode None (b "hello")); Ok (c_member TXHeader (b "PaxHeaders/ln") mode None []);
   Ok (c_member TDirectory (b "ln/") mode None []); Ok (c_member TRegular (b "ln/z") mode None (b "xyz"));
   Ok (c_member TDirectory (b "./ln/a") mode None []); Ok (c_member TSymlink (b "ln/a/l") mode (Some (b "f.txt")) []);
   Ok (c_member TRegular (b "ln/a/f.txt") mode None (b "hello"))].
(** The directory ln/a after what is in it. *)
Definition c_late : list (res tar_member) :=
  [Ok (c_member TRegular (b "src/a/f.txt") 33188 None (b "hello"));
   Ok (c_member TDirectory (b "ln/") 33188 None []); Ok (c_member TRegular (b "ln/z") 33188 None (b "xyz"));
   Ok (c_member TSymlink (b "ln/a/l") 33188 (Some (b "f.txt")) []);
   Ok (c_member TRegular (b "ln/a/f.txt") 33188 None (b "hello")); Ok (c_member TDirectory (b "./ln/a") 33188 None [])].
Definition c_arx : archive := match create 3 src_world true o_two with ([_; Written a], _) => a | _ => demo_arx end.
Definition c_tar (items : list (res tar_member)) : archive := match tar_main t_opts (Ok (Some (Ok items))) true with ([_; CWritten _ a], _) => a | _ => demo_arx end.

Lemma c_created : created_archive src_world o_two src_world two_inputs c_arx.
Proof.
  split; [exact C64_proper|]. split; [vm_compute; reflexivity|]. exists 3%nat, (fst (create 3 src_world true o_two)). split; [repeat constructor|].
  split; [vm_compute; reflexivity|]. vm_compute. right. left. reflexivity.
Qed.
Lemma c_sources p q n : source_at src_world two_inputs p q n ->
  In (p, q, n) [([b "src"; b "a"; b "f.txt"], [b "h"; b "src"; b "a"; b "f.txt"], HFile 0); ([b "ln"], src_root, HDir); ([b "ln"; b "a"], src_root ++ [b "a"], HDir);
    ([b "ln"; b "a"; b "f.txt"], src_root ++ [b "a"; b "f.txt"], HFile 0); ([b "ln"; b "a"; b "l"], src_root ++ [b "a"; b "l"], HLink (b "f.txt") 7%Z); ([b "ln"; b "z"], src_root ++ [b "z"], HFile 1)].
Proof.
  intros (x & t & [<-|[<-|[]]] & -> & -> & Ht); cbn [in_path in_root].
  - destruct t as [|y t]; cbn [at_input in_node] in Ht; [subst n; now left|destruct Ht as [Ht _]; discriminate Ht].
  - destruct t as [|y t]; cbn [at_input in_node in_root] in Ht; [subst n; right; now left|]. destruct Ht as [_ Ht]. apply src_cases in Ht.
    destruct Ht as [[E _]|[[-> ->]|[[-> ->]|[[-> ->]|[-> ->]]]]]; [discriminate E|cbn; auto 10..].
Qed.
Lemma c_source_1 : source_at src_world two_inputs [b "src"; b "a"; b "f.txt"] [b "h"; b "src"; b "a"; b "f.txt"] (HFile 0).
Proof. exists (mkInput (b "src/a/f.txt") [b "h"; b "src"; b "a"; b "f.txt"] (HFile 0) [b "src"; b "a"; b "f.txt"] 0), []. split; [now left|]. repeat split. Qed.
Lemma c_source_ln t n : match t with [] => n = HDir | _ => h_names src_fs (src_root ++ t) = Some n end -> source_at src_world two_inputs (b "ln" :: t) (src_root ++ t) n.
Proof.
  intros H. exists (mkInput (b "./ln/") src_root HDir [b "ln"] 2), t. split; [right; now left|]. split; [reflexivity|]. split; [reflexivity|]. destruct t; cbn [at_input in_node in_root]; [exact H|]. split; [reflexivity|exact H].
Qed.

Lemma c_member_path ty p mode link data q : tar_path (c_member ty p mode link data) q -> filter not_dot (pieces p) = q.
Proof. intros (s & E & [_ H] & _). cbn [c_member tm_path] in E. injection E as <-. exact H. Qed.
Lemma c_at ty p mode link data : is_abs p = false -> forallb utf8 (filter not_dot (pieces p)) = true -> match ty with TXHeader => false | _ => true end = true ->
  match ty with TRegular | TDirectory | TSymlink => true | _ => false end = true -> tar_at (Ok (c_member ty p mode link data)) (filter not_dot (pieces p)).
Proof.
  intros H1 H2 _ H3. exists (c_member ty p mode link data). split; [reflexivity|]. split; [intros [E|[E|[E|E]]]; cbn [c_member tm_type] in E; subst ty; discriminate H3|].
  exists p. split; [reflexivity|]. split; [split; auto|]. apply Forall_forall. now apply forallb_forall.
Qed.
Lemma c_copies (M : N -> N -> Prop) mode ty p link data q n : M 33188 mode -> match n with HDir => ty = TDirectory | HFile i => ty = TRegular /\ data = h_data src_fs i | HLink t _ => ty = TSymlink /\ link = Some t end ->
  tar_copy M src_world q n (c_member ty p mode link data).
Proof.
  intros HM Hn. split; [reflexivity|]. split; [reflexivity|]. split; [vm_compute; reflexivity|]. split; [exists mode; split; [reflexivity|exact HM]|].
  destruct n as [|i|t m].
  - subst ty. left. reflexivity.
  - destruct Hn as [-> ->]. split; [|reflexivity]. split; [intros [E|[E|[E|E]]]; discriminate E|]. split; [|intros E; discriminate E]. intros [E|(_ & _ & E & _)]; discriminate E.
  - destruct Hn as [-> ->]. split; reflexivity.
Qed.

Lemma c_two (M : N -> N -> Prop) mode items : M 33188 mode -> items = c_items mode \/ (mode = 33188 /\ items = c_late) ->
  (forall p q n, source_at src_world two_inputs p q n -> p <> [] -> exists x, In x items /\ tar_at x p) /\
  (forall m p, In (Ok m) items -> ~ tar_extension m -> tar_path m p -> exists q n, source_at src_world two_inputs p q n /\ tar_copy M src_world q n m).
Proof.
  intros HM Hi. split.
  - intros p q n Hs _. apply c_sources in Hs.
    destruct Hi as [->|[-> ->]]; cbn [In] in Hs; unfold c_items, c_late; (repeat (destruct Hs as [Hs|Hs]; [injection Hs as <- <- <-|])); try contradiction.
    all: match goal with |- exists x, In x ?l /\ tar_at x ?p => let rec go k := (exists (nth k l (Err EUtf8)); split; [cbn [nth In]; tauto|apply c_at; reflexivity]) in first [go 0%nat|go 1%nat|go 2%nat|go 3%nat|go 4%nat|go 5%nat|go 6%nat] end.
  - intros m p Hin Hext Hp.
    assert (Hin' : In (Ok m) (c_items mode)).
    { destruct Hi as [->|[-> ->]]; [exact Hin|]. unfold c_late in Hin. unfold c_items. cbn [In] in *. tauto. }
    unfold c_items in Hin'. cbn [In] in Hin'.
    repeat (destruct Hin' as [E|Hin']; [injection E as <-|]); try contradiction; try (exfalso; apply Hext; right; right; now left); apply c_member_path in Hp; subst p.
    + exists [b "h"; b "src"; b "a"; b "f.txt"], (HFile 0). split; [exact c_source_1|]. apply c_copies; [exact HM|split; reflexivity].
    + exists src_root, HDir. split; [exact (c_source_ln [] HDir eq_refl)|]. apply c_copies; [exact HM|reflexivity].
    + exists (src_root ++ [b "z"]), (HFile 1). split; [exact (c_source_ln [b "z"] (HFile 1) eq_refl)|]. apply c_copies; [exact HM|split; reflexivity].
    + exists (src_root ++ [b "a"]), HDir. split; [exact (c_source_ln [b "a"] HDir eq_refl)|]. apply c_copies; [exact HM|reflexivity].
    + exists (src_root ++ [b "a"; b "l"]), (HLink (b "f.txt") 7%Z). split; [exact (c_source_ln [b "a"; b "l"] _ eq_refl)|]. apply c_copies; [exact HM|split; reflexivity].
    + exists (src_root ++ [b "a"; b "f.txt"]), (HFile 0). split; [exact (c_source_ln [b "a"; b "f.txt"] _ eq_refl)|]. apply c_copies; [exact HM|split; reflexivity].
Qed.
Lemma first_pairs {A} (at_path : A -> path -> Prop) l : ForallOrdPairs (fun y x => forall p p', at_path x p -> at_path y p' -> ~ proper_prefix p p') l -> dirs_first at_path l.
Proof.
  intros H l1 x l2 y p p' E Hy Hx Hp. revert l1 E Hy. induction H as [|z l Hz Hl IH]; intros [|z' l1] E Hy; try contradiction; [discriminate E|].
  cbn [app] in E. injection E as <- E. destruct Hy as [<-|Hy]; [|now apply (IH l1)]. rewrite Forall_forall in Hz. apply (Hz x); [rewrite E; apply in_or_app; right; now left|exact Hx|exact Hp].
Qed.
Lemma c_first mode : dirs_first tar_at (c_items mode).
Proof.
  apply first_pairs. unfold c_items. repeat constructor.
  all: intros p p' (m & E & Hx & Hp) (m' & E' & Hx' & Hp'); injection E as <-; injection E' as <-.
  all: try (exfalso; apply Hx; right; right; now left); try (exfalso; apply Hx'; right; right; now left).
  all: apply c_member_path in Hp, Hp'; subst p p'; intros (x & t & E); vm_compute in E; discriminate E.
Qed.

Lemma c_ran items : snd (tar_main t_opts (Ok (Some (Ok items))) true) = Ok tt -> In (CWritten (b "x.arx") (c_tar items)) (fst (tar_main t_opts (Ok (Some (Ok items))) true)) ->
  tar_main t_opts (Ok (Some (Ok items))) true = (fst (tar_main t_opts (Ok (Some (Ok items))) true), Ok tt).
Proof. intros H _. destruct (tar_main t_opts (Ok (Some (Ok items))) true) as [e r]. cbn [fst snd] in *. now subst r. Qed.

(** The tar as [tar] makes it, with permissions only: alike, but not the same, since [arx create] keeps
    the type bits of the mode. *)
Theorem C96_modes_refuted : exists w o v inputs a1 topts items can_open evs out a2, created_archive w o v inputs a1 /\
  tar_main topts (Ok (Some (Ok items))) can_open = (evs, Ok tt) /\ In (CWritten out a2) evs /\ N.of_nat (length (a_recs a2)) < 2^32 /\
  tar_of same_permissions v (source_at v inputs) items /\ alike_table a1 a2 /\ ~ same_table a1 a2.
Proof.
  exists src_world, o_two, src_world, two_inputs, c_arx, t_opts, (c_items 420), true, (fst (tar_main t_opts (Ok (Some (Ok (c_items 420)))) true)), (b "x.arx"), (c_tar (c_items 420)).
  assert (H1 : In (CWritten (b "x.arx") (c_tar (c_items 420))) (fst (tar_main t_opts (Ok (Some (Ok (c_items 420)))) true))) by (vm_compute; right; left; reflexivity).
  assert (H2 : tar_main t_opts (Ok (Some (Ok (c_items 420)))) true = (fst (tar_main t_opts (Ok (Some (Ok (c_items 420)))) true), Ok tt)) by (apply c_ran; [vm_compute; reflexivity|exact H1]).
  assert (H3 : N.of_nat (length (a_recs (c_tar (c_items 420)))) < 2^32) by (vm_compute; reflexivity).
  assert (H4 : tar_of same_permissions src_world (source_at src_world two_inputs) (c_items 420)).
  { destruct (c_two same_permissions 420 (c_items 420)) as [K1 K2]; [vm_compute; reflexivity|left; exact eq_refl|]. split; [exact K1|]. split; [exact K2|exact (c_first 420)]. }
  split; [exact c_created|]. split; [exact H2|]. split; [exact H1|]. split; [exact H3|]. split; [exact H4|].
  split; [exact (C96_tar _ _ _ _ _ _ _ _ _ _ _ c_created H2 H1 H3 H4)|].
  intros (_ & _ & H). assert (E : map r_rights (a_recs c_arx) = map r_rights (a_recs (c_tar (c_items 420)))).
  { clear - H. revert H. generalize (a_fetch c_arx) (a_fetch (c_tar (c_items 420))). intros f1 f2 H. induction H as [|r1 r2 l1 l2 (_ & _ & _ & _ & E & _) _ IH]; [reflexivity|]. cbn [map]. now rewrite E, IH. }
  vm_compute in E. discriminate E.
Qed.
Print Assumptions C96_modes_refuted.

(** A directory that comes after something in it loses its owner, permissions and time. *)
Theorem C96_order_refuted : exists w o v inputs a1 topts items can_open evs out a2, created_archive w o v inputs a1 /\
  tar_main topts (Ok (Some (Ok items))) can_open = (evs, Ok tt) /\ In (CWritten out a2) evs /\ N.of_nat (length (a_recs a2)) < 2^32 /\
  (forall p q n, source_at v inputs p q n -> p <> [] -> exists x, In x items /\ tar_at x p) /\
  (forall m p, In (Ok m) items -> ~ tar_extension m -> tar_path m p -> exists q n, source_at v inputs p q n /\ tar_copy eq v q n m) /\
  ~ alike_table a1 a2.
Proof.
  exists src_world, o_two, src_world, two_inputs, c_arx, t_opts, c_late, true, (fst (tar_main t_opts (Ok (Some (Ok c_late))) true)), (b "x.arx"), (c_tar c_late).
  assert (H1 : In (CWritten (b "x.arx") (c_tar c_late)) (fst (tar_main t_opts (Ok (Some (Ok c_late))) true))) by (vm_compute; right; left; reflexivity).
  split; [exact c_created|]. split; [apply c_ran; [vm_compute; reflexivity|exact H1]|]. split; [exact H1|]. split; [vm_compute; reflexivity|].
  destruct (c_two eq 33188 c_late) as [K1 K2]; [exact eq_refl|right; split; exact eq_refl|]. split; [exact K1|]. split; [exact K2|].
  intros (_ & _ & H). assert (E : map r_owner (a_recs c_arx) = map r_owner (a_recs (c_tar c_late))).
  { clear - H. revert H. generalize (a_fetch c_arx) (a_fetch (c_tar c_late)). intros f1 f2 H. induction H as [|r1 r2 l1 l2 (_ & _ & E & _) _ IH]; [reflexivity|]. cbn [map]. now rewrite E, IH. }
  vm_compute in E. discriminate E.
Qed.
Print Assumptions C96_order_refuted.

Example C96_exact_meets : exists evs a2, created_archive src_world o_two src_world two_inputs c_arx /\
  tar_main t_opts (Ok (Some (Ok (c_items 33188)))) true = (evs, Ok tt) /\ In (CWritten (b "x.arx") a2) evs /\ N.of_nat (length (a_recs a2)) < 2^32 /\
  tar_of eq src_world (source_at src_world two_inputs) (c_items 33188) /\ fst (list_cmd a2 None) = fst (list_cmd c_arx None).
Proof.
  exists (fst (tar_main t_opts (Ok (Some (Ok (c_items 33188)))) true)), (c_tar (c_items 33188)).
  assert (H1 : In (CWritten (b "x.arx") (c_tar (c_items 33188))) (fst (tar_main t_opts (Ok (Some (Ok (c_items 33188)))) true))) by (vm_compute; right; left; reflexivity).
  split; [exact c_created|]. split; [apply c_ran; [vm_compute; reflexivity|exact H1]|]. split; [exact H1|]. split; [vm_compute; reflexivity|]. split; [|vm_compute; reflexivity].
  destruct (c_two eq 33188 (c_items 33188)) as [K1 K2]; [exact eq_refl|left; exact eq_refl|]. split; [exact K1|]. split; [exact K2|exact (c_first 33188)].
Qed.

(** A zip of one file of user 0. *)
Definition root_world : world := mkWorld src_fs (fun q => FsAdder.mkAttr 0 0 33188 1234567%Z false true) src_list [b "h"].
Definition root_inputs : list input := [mkInput (b "src/z") [b "h"; b "src"; b "z"] (HFile 1) [b "src"; b "z"] 0].
Definition root_opts : create_opts := mkOpts false (b "out.arx") None None [b "src/z"] None true None false false.
Definition root_zip : list (option zip_member) := [Some (mkZip [Some 1234567] None (Some 33188) (b "src/z") true 3 4 (Err EUtf8))].
Definition root_file : bytes := b "....xyz....".
Example C96_zip_meets : exists a1 evs a2, created_archive root_world root_opts root_world root_inputs a1 /\
  zip_main (z_opts CNone) (Ok (Some root_zip)) (Ok root_file) true = (evs, Ok tt) /\ In (CWritten (b "x.arx") a2) evs /\
  (forall m, In (Some m) root_zip -> zip_fitting root_file m) /\ N.of_nat (length (a_recs a2)) < 2^32 /\
  zip_of eq root_world (source_at root_world root_inputs) root_file root_zip /\ fst (list_cmd a2 None) = fst (list_cmd a1 None).
Proof.
  exists (match create 3 root_world true root_opts with ([_; Written a], _) => a | _ => demo_arx end), (fst (zip_main (z_opts CNone) (Ok (Some root_zip)) (Ok root_file) true)),
    (match zip_main (z_opts CNone) (Ok (Some root_zip)) (Ok root_file) true with ([_; CWritten _ a], _) => a | _ => demo_arx end).
  split; [|split; [|split; [|split; [|split; [|split]]]]].
  - split; [|split; [vm_compute; reflexivity|]].
    + constructor; try reflexivity.
      * exists []. reflexivity.
      * exists [b "h"], (b "out.arx"). split; [reflexivity|]. split; [eexists; vm_compute; reflexivity|]. intros (q & n & H). vm_compute in H. discriminate H.
      * constructor; [|constructor]. split; [vm_compute; auto|]. split; [reflexivity|]. split; [repeat constructor; vm_compute; intuition discriminate|]. split; [reflexivity|]. split; [discriminate|]. split; reflexivity.
      * constructor; [constructor|constructor].
    + exists 3%nat, (fst (create 3 root_world true root_opts)). split; [repeat constructor|]. split; [vm_compute; reflexivity|]. vm_compute. right. left. reflexivity.
  - vm_compute. reflexivity.
  - vm_compute. right. left. reflexivity.
  - intros m [E|[]]. injection E as <-. intros _. vm_compute. discriminate.
  - vm_compute. reflexivity.
  - assert (Hs : forall p q n, source_at root_world root_inputs p q n -> p = [b "src"; b "z"] /\ q = [b "h"; b "src"; b "z"] /\ n = HFile 1).
    { intros p q n (x & t & [<-|[]] & -> & -> & Ht). destruct t as [|y t]; cbn [at_input in_node] in Ht; [subst n; repeat split|destruct Ht as [Ht _]; discriminate Ht]. }
    split; [|split].
    + intros p q n H _. destruct (Hs _ _ _ H) as (-> & _ & _). eexists. split; [left; reflexivity|]. eexists. split; [reflexivity|]. split; reflexivity.
    + intros m p [E|[]] [_ H]. injection E as <-. cbn [zm_name] in H. subst p. exists [b "h"; b "src"; b "z"], (HFile 1). split.
      * exists (mkInput (b "src/z") [b "h"; b "src"; b "z"] (HFile 1) [b "src"; b "z"] 0), []. split; [now left|]. repeat split.
      * split; [reflexivity|]. split; [reflexivity|]. split; [left; exists []; reflexivity|]. split; [exists 33188; split; reflexivity|].
        split; [intros (x & [E|E]); apply (f_equal (@rev N)) in E; rewrite rev_app_distr in E; vm_compute in E; discriminate E|]. split; [|reflexivity].
        exists (b "...."), (b "...."). repeat split.
    + apply first_pairs. repeat constructor.
  - vm_compute. reflexivity.
Qed.
