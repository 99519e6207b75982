(** C38-C41: adding files of the host. *)
From Verif Require Export DemoAdd.

(** C38: create then extract gives the same tree, below the directory [r0] left by the prefix. *)
Theorem C38_roundtrip : forall w pre s root r0 depth fuel c answer a f cfg out sched last g res,
  (* the tree below [s], whose stored path is [r0] *)
  stands_for s (pieces pre ++ r0) -> forallb utf8 (pieces s) = true -> Forall ordinary r0 ->
  look_str w true s = At root HDir -> source_tree w root depth -> (depth < fuel)%nat ->
  (* is archived *)
  add_from_path fuel w pre s true creator_empty = (c, answer) ->
  N.of_nat (length (cs_store (cr_entries c))) < 2^32 -> finalize c = Some a ->
  (* and extracted in an empty directory *)
  tidy f -> outdir f (x_base cfg) out -> (forall p, p <> [] -> h_names f (out ++ p) = None) -> x_files cfg = [] ->
  extract_range a (a_root a) cfg sched last f = (g, res) -> quiet sched last -> res <> Diverge ->
  answer = Ok tt /\ res = Ok tt /\
  (forall q, q <> [] -> same_at (w_fs w) (root ++ q) g (out ++ r0 ++ q)) /\
  (forall p t, r0 = p ++ t -> p <> [] -> h_names g (out ++ p) = Some HDir) /\
  (forall p, p <> [] -> h_names g (out ++ p) <> None ->
     (exists t, r0 = p ++ t) \/ exists q, p = r0 ++ q /\ h_names (w_fs w) (root ++ q) <> None) /\
  (forall q, ~ below out q ->
     unchanged f g q \/ (h_names f q = None /\ h_names g q = Some HDir /\ exists t, out = q ++ t)).
Proof.
  intros w pre s root r0 depth fuel c answer a f cfg out sched last g res [Hrel Hpre] Hutf Hr0 Hroot HT Hfuel Hadd Hsm Hfin Htidy Hout Hempty Hall Hrun Hq Hd.
  destruct (created w s pre root r0 depth fuel Hrel Hpre Hutf Hr0 Hroot HT Hfuel) as (c' & es & E & _).
  rewrite E in Hadd. injection Hadd as <- <-. split; auto.
  exact (roundtrip_tree w s pre root r0 depth fuel Hrel Hpre Hutf Hr0 Hroot HT Hfuel c' a f g cfg out sched last res E Hsm Hfin Htidy Hout Hempty Hall Hrun Hq Hd).
Qed.
Print Assumptions C38_roundtrip.

(** What the archive holds in between: exactly the tree, with its metadata, and the directories above
    [r0]. *)
Theorem C38_archived : forall w pre s root r0 depth fuel l contents,
  stands_for s (pieces pre ++ r0) -> forallb utf8 (pieces s) = true -> Forall ordinary r0 ->
  look_str w true s = At root HDir -> source_tree w root depth -> (depth < fuel)%nat ->
  (* nothing is stored at or below [r0], and only directories above *)
  all_ok l -> (forall q nd, ~ has l (r0 ++ q) nd) -> (forall p x t nd, r0 = p ++ x :: t -> has l p nd -> is_dir_node nd = true) ->
  exists c l', add_from_path fuel w pre s true (mkCreator (after l) contents) = (c, Ok tt) /\
    cr_entries c = after l' /\ all_ok l' /\ (exists ext, cr_contents c = contents ++ ext) /\
    (forall p nd, has l p nd -> has l' p nd) /\
    (r0 <> [] -> exists nd, has l' r0 nd /\ mirrors_as w root HDir (cr_contents c) nd) /\
    (forall q, q <> [] -> h_names (w_fs w) (root ++ q) <> None -> exists nd, has l' (r0 ++ q) nd /\ mirrors w (root ++ q) (cr_contents c) nd) /\
    (forall p nd, has l' p nd -> has l p nd \/ p = r0 \/ (exists q, p = r0 ++ q /\ h_names (w_fs w) (root ++ q) <> None) \/
       (nd = (KDir, mkMeta 1000 1000 493 0) /\ p <> [] /\ exists x t, r0 = p ++ x :: t)).
Proof.
  intros w pre s root r0 depth fuel l contents [Hrel Hpre] Hutf Hr0 Hroot HT Hfuel Hok Hfree Hdirs.
  destruct (add_tree w s pre root r0 depth Hrel Hroot HT Hpre Hutf Hr0 l contents Hfree Hdirs Hok fuel Hfuel)
    as (c & es & ext & A1 & A2 & A3 & A4 & A5 & A6 & A7).
  exists c, (l ++ es). repeat (split; [now eauto|]).
  assert (Hgood : forall q nd, has (l ++ es) (r0 ++ q) nd -> goodnode w root q (cr_contents c) nd).
  { intros q nd H. destruct (A7 _ _ H) as [G|[(q2 & _ & E & G)|(_ & _ & x & t & E)]].
    - now apply Hfree in G.
    - apply app_inv_head in E. now subst q2.
    - apply (f_equal (@length _)) in E. rewrite !app_length in E. cbn in E. lia. }
  split; [|split].
  - intros Hne. destruct (A6 []) as [nd H]; auto; [now rewrite app_nil_r|]. exists nd. split; [now rewrite app_nil_r in H|].
    exact (Hgood [] nd H).
  - intros q Hq Hn. destruct (A6 q) as [nd H]; auto; [now destruct r0|]. exists nd. split; auto. apply Hgood in H. now destruct q.
  - intros p nd H. destruct (A7 p nd H) as [G|[(q & [->|Hq] & -> & _)|G]]; auto.
    + right. left. now rewrite app_nil_r.
    + right. right. left. eauto.
Qed.
Print Assumptions C38_archived.

(** "src" archived with the prefix "src", and through the link "ln" without prefix. *)
Example C38_meets_hypotheses :
  stands_for (b "./src/") (pieces (b "src") ++ []) /\ look_str src_world true (b "./src/") = At src_root HDir /\
  stands_for (b "ln") (pieces (b "") ++ [b "ln"]) /\ look_str src_world true (b "ln") = At src_root HDir /\
  source_tree src_world src_root 2 /\
  exists c a g, add_from_path 3 src_world (b "src") (b "./src/") true creator_empty = (c, Ok tt) /\ finalize c = Some a /\
    extract_range a (a_root a) (cfg_all Skip) idle all_turns host0 = (g, Ok tt) /\
    h_names g (at_out ++ [b "a"; b "l"]) = Some (HLink (b "f.txt") 5000000000000%Z) /\
    has_file g (at_out ++ [b "a"; b "f.txt"]) (b "hello") /\ has_file g (at_out ++ [b "z"]) (b "xyz").
Proof.
  split; [vm_compute; auto|]. split; [reflexivity|]. split; [vm_compute; auto|]. split; [reflexivity|]. split; [exact src_tree|].
  eexists. eexists. eexists. split; [vm_compute; reflexivity|]. split; [vm_compute; reflexivity|]. split; [vm_compute; reflexivity|].
  split; [vm_compute; reflexivity|]. split; eexists; split; vm_compute; reflexivity.
Qed.

(** C39: what is refused, leaving the creator as it was. *)
Theorem C39_absolute_refused : forall w pre s follow c, is_abs s = true ->
  add_entry_from_path w pre s follow c = (c, Err ENonRelative).
Proof. intros w pre s follow c H. unfold add_entry_from_path. now rewrite from_path_abs. Qed.
Print Assumptions C39_absolute_refused.

Theorem C39_non_utf8_refused : forall w pre s follow c n, is_abs s = false -> In n (pieces s) -> utf8 n = false ->
  add_entry_from_path w pre s follow c = (c, Err ENonUtf8).
Proof.
  intros w pre s follow c n H Hn Hu. unfold add_entry_from_path. rewrite from_path_bad; auto.
  destruct (forallb utf8 (filter not_dot (pieces s))) eqn:E; auto. rewrite forallb_forall in E. rewrite E in Hu; [discriminate Hu|].
  apply filter_In. split; auto. unfold not_dot. destruct (bytes_eqb_spec n (b ".")); auto. subst n. discriminate Hu.
Qed.
Print Assumptions C39_non_utf8_refused.

Theorem C39_outside_refused : forall w pre s follow c, s <> [] -> is_abs s = false -> forallb utf8 (pieces s) = true ->
  (forall r, ~ stands_for s (pieces pre ++ r)) -> add_entry_from_path w pre s follow c = (c, Err ENotInPrefix).
Proof.
  intros w pre s follow c Hs Hr Hu Hout.
  assert (Hu' : forallb utf8 (filter not_dot (pieces s)) = true).
  { apply forallb_forall. intros n Hn. apply filter_In in Hn as [Hn _]. rewrite forallb_forall in Hu. auto. }
  destruct (from_path_ok s Hs Hr Hu') as [H1 H2]. unfold add_entry_from_path. rewrite H1.
  pose proof (strip_prefix_pieces (join (filter not_dot (pieces s))) pre) as H. rewrite H2 in H.
  destruct (strip_prefix (join (filter not_dot (pieces s))) pre) as [x|]; auto. exfalso. apply (Hout (pieces x)). now split.
Qed.
Print Assumptions C39_outside_refused.

(** The prefix itself is accepted and stores nothing. *)
Theorem C39_prefix_itself : forall w pre s follow c, s <> [] -> forallb utf8 (pieces s) = true ->
  stands_for s (pieces pre) -> add_entry_from_path w pre s follow c = (c, Ok tt).
Proof.
  intros w pre s follow c Hs Hu [Hr Hp].
  assert (Hu' : forallb utf8 (filter not_dot (pieces s)) = true).
  { apply forallb_forall. intros n Hn. apply filter_In in Hn as [Hn _]. rewrite forallb_forall in Hu. auto. }
  destruct (one_path s pre [] Hs Hr Hu') as (p & a & H1 & H2 & _ & H3); [now rewrite app_nil_r|].
  unfold add_entry_from_path. rewrite H1, H2. now rewrite H3.
Qed.
Print Assumptions C39_prefix_itself.

(** [pre/r] is stored under [r]: an accepted call adds a node at [r] and possibly directories above
    [r], nothing else; nothing stored is lost. *)
Theorem C39_stored_below_prefix : forall w pre s follow d x l contents c' q n,
  stands_for s (pieces pre ++ d ++ [x]) -> forallb utf8 (pieces s) = true -> x <> b ".." -> all_ok l ->
  look_str w follow s = At q n -> (forall i, n = HFile i -> at_special (w_attr w q) = false) ->
  add_entry_from_path w pre s follow (mkCreator (after l) contents) = (c', Ok tt) ->
  exists l', cr_entries c' = after l' /\ all_ok l' /\ (forall p nd, has l p nd -> has l' p nd) /\
    (exists nd, has l' (d ++ [x]) nd) /\
    (forall p nd, has l' p nd -> has l p nd \/ p = d ++ [x] \/
       (p <> [] /\ (exists t, d = p ++ t) /\ nd = (KDir, mkMeta 1000 1000 493 0))).
Proof.
  intros w pre s follow d x l contents c' q n [Hr Hp] Hu Hx Hok Hl Hsp Hadd.
  assert (Hs : s <> []) by (intros ->; discriminate Hl).
  assert (Hu' : forallb utf8 (filter not_dot (pieces s)) = true).
  { apply forallb_forall. intros m Hm. apply filter_In in Hm as [Hm _]. rewrite forallb_forall in Hu. auto. }
  pose proof (dotless_filter s _ _ Hp) as Hdot.
  assert (Hread : forall i, n = HFile i -> at_special (w_attr w q) = false -> at_readable (w_attr w q) = true).
  { intros i -> Hs0. destruct (at_readable (w_attr w q)) eqn:Er; auto. exfalso.
    destruct (one_path s pre (d ++ [x]) Hs Hr Hu' Hp) as (p & a & H1 & H2 & H3 & _).
    unfold add_entry_from_path in Hadd. rewrite H1, H2 in Hadd.
    assert (Hna : nonempty a = true) by (destruct a; auto; now destruct d). rewrite Hna in Hadd.
    unfold new_from_path in Hadd. rewrite (detect_look w s pre (d ++ [x]) Hs Hr Hu' Hp follow q (HFile i) Hl) in Hadd. cbn [bind kind_at] in Hadd. rewrite Hs0, Er in Hadd. discriminate Hadd. }
  destruct (one_entry w s pre (d ++ [x]) Hs Hr Hu' Hp follow q n (mkCreator (after l) contents)) as (e & ext & E & Ep & Hk); auto; [now destruct d|].
  rewrite E in Hadd. cbn [cr_entries cr_contents] in *.
  destruct (add_entry (after l) e) as [st r] eqn:Ea. injection Hadd as <- ->.
  destruct Hk as [(_ & _ & i & -> & Hs1)|(k & Ek & _)]; [now rewrite (Hsp i eq_refl) in Hs1|].
  destruct (dotless_split (e_path e) d x Ep Hdot) as [Hd Hlast]. specialize (Hlast Hx).
  destruct (accepted l e st k d x Hok Ek Hd Hlast Ea) as (-> & B2 & B3 & B4 & B5).
  exists (l ++ [e]). cbn [cr_entries]. repeat (split; [now auto|]). split; auto.
  destruct B4 as [B4|(_ & mt & B4)]; eauto.
Qed.
Print Assumptions C39_stored_below_prefix.

(** A path that ends in ".." aborts the program. *)
Theorem C39_dotdot_refuted : forall w c q, look_str w false (b "..") = At q HDir ->
  snd (add_entry_from_path w [] (b "..") false c) = Panic.
Proof.
  intros w c q Hq. unfold add_entry_from_path. change (from_path (b "..")) with (Ok (b "..")).
  change (strip_prefix (b "..") []) with (Some (b "..")). cbn [nonempty b].
  unfold new_from_path, detect_kind. change [N_of_ascii "."; N_of_ascii "."] with (b ".."). rewrite Hq. reflexivity.
Qed.
Print Assumptions C39_dotdot_refuted.

Example C39_meets_hypotheses :
  stands_for (b "src/./a//f.txt") (pieces (b "src/") ++ [b "a"; b "f.txt"]) /\
  (exists q, look_str src_world false (b "src/./a//f.txt") = At q (HFile 0)) /\
  snd (add_entry_from_path src_world (b "src/") (b "src/./a//f.txt") false creator_empty) = Ok tt /\
  snd (add_entry_from_path src_world (b "src/a") (b "src/z") false creator_empty) = Err ENotInPrefix /\
  (exists q, look_str src_world false (b "..") = At q HDir).
Proof.
  split; [vm_compute; auto|]. split; [eexists; vm_compute; reflexivity|]. split; [vm_compute; reflexivity|].
  split; [vm_compute; reflexivity|]. eexists. vm_compute. reflexivity.
Qed.

(** C40: what is stored is what [lstat] sees, or [stat] when following was asked. *)
Theorem C40_stored_node : forall w pre s follow d x l contents c' q n,
  stands_for s (pieces pre ++ d ++ [x]) -> forallb utf8 (pieces s) = true -> x <> b ".." -> all_ok l ->
  look_str w follow s = At q n -> (forall i, n = HFile i -> at_special (w_attr w q) = false) ->
  add_entry_from_path w pre s follow (mkCreator (after l) contents) = (c', Ok tt) ->
  exists l' nd, cr_entries c' = after l' /\ has l' (d ++ [x]) nd /\
    (mirrors_as w q n (cr_contents c') nd \/ (n = HDir /\ fst nd = KDir /\ has l (d ++ [x]) nd)).
Proof.
  intros w pre s follow d x l contents c' q n [Hr Hp] Hu Hx Hok Hl Hsp Hadd.
  assert (Hs : s <> []) by (intros ->; discriminate Hl).
  assert (Hu' : forallb utf8 (filter not_dot (pieces s)) = true).
  { apply forallb_forall. intros m Hm. apply filter_In in Hm as [Hm _]. rewrite forallb_forall in Hu. auto. }
  pose proof (dotless_filter s _ _ Hp) as Hdot.
  assert (Hread : forall i, n = HFile i -> at_special (w_attr w q) = false -> at_readable (w_attr w q) = true).
  { intros i -> Hs0. destruct (at_readable (w_attr w q)) eqn:Er; auto. exfalso.
    destruct (one_path s pre (d ++ [x]) Hs Hr Hu' Hp) as (p & a & H1 & H2 & H3 & _).
    unfold add_entry_from_path in Hadd. rewrite H1, H2 in Hadd.
    assert (Hna : nonempty a = true) by (destruct a; auto; now destruct d). rewrite Hna in Hadd.
    unfold new_from_path in Hadd. rewrite (detect_look w s pre (d ++ [x]) Hs Hr Hu' Hp follow q (HFile i) Hl) in Hadd. cbn [bind kind_at] in Hadd. rewrite Hs0, Er in Hadd. discriminate Hadd. }
  destruct (one_entry w s pre (d ++ [x]) Hs Hr Hu' Hp follow q n (mkCreator (after l) contents)) as (e & ext & E & Ep & Hk); auto; [now destruct d|].
  rewrite E in Hadd. cbn [cr_entries cr_contents] in *.
  destruct (add_entry (after l) e) as [st r] eqn:Ea. injection Hadd as <- ->.
  destruct Hk as [(_ & _ & i & -> & Hs1)|(k & Ek & Hm & _)]; [now rewrite (Hsp i eq_refl) in Hs1|].
  destruct (dotless_split (e_path e) d x Ep Hdot) as [Hd Hlast]. specialize (Hlast Hx).
  destruct (accepted l e st k d x Hok Ek Hd Hlast Ea) as (-> & B2 & B3 & B4 & B5).
  exists (l ++ [e]). cbn [cr_entries cr_contents]. destruct B4 as [B4|(-> & mt & B4)].
  - exists (k, e_meta e). auto.
  - exists (KDir, mt). split; auto. split; auto. right. split; auto. destruct Hm as (_ & _ & _ & _ & Hm). destruct n; auto; [|discriminate Hm].
    destruct Hm as (addr & Hm & _). discriminate Hm.
Qed.
Print Assumptions C40_stored_node.

(** A link is stored as a link, with its own metadata, unless following was asked. *)
Theorem C40_link_kept : forall w pre s d x l contents c' q t m,
  stands_for s (pieces pre ++ d ++ [x]) -> forallb utf8 (pieces s) = true -> x <> b ".." -> all_ok l ->
  look_str w false s = At q (HLink t m) ->
  add_entry_from_path w pre s false (mkCreator (after l) contents) = (c', Ok tt) ->
  exists l', cr_entries c' = after l' /\
    let a := w_attr w q in has l' (d ++ [x]) (KLink t, mkMeta (at_uid a) (at_gid a) (at_mode a) (as_u64 (at_mtime a))).
Proof.
  intros w pre s d x l contents c' q t m H1 H2 H3 H4 H5 H6.
  destruct (C40_stored_node w pre s false d x l contents c' q (HLink t m) H1 H2 H3 H4 H5) as (l' & nd & A1 & A2 & [A3|(A3 & _)]); auto; try easy.
  exists l'. split; auto. cbv zeta. destruct A3 as (B1 & B2 & B3 & B4 & B5). destruct nd as [k [u g o t0]]. cbn in B1, B2, B3, B4, B5. now subst.
Qed.
Print Assumptions C40_link_kept.

(** With following, never a link: the final target's kind, content and metadata under the link's path. *)
Theorem C40_link_followed : forall w pre s d x l contents c' q n,
  stands_for s (pieces pre ++ d ++ [x]) -> forallb utf8 (pieces s) = true -> x <> b ".." -> all_ok l ->
  look_str w true s = At q n -> (forall i, n = HFile i -> at_special (w_attr w q) = false) ->
  add_entry_from_path w pre s true (mkCreator (after l) contents) = (c', Ok tt) ->
  (forall t m, n <> HLink t m) /\
  exists l' nd, cr_entries c' = after l' /\ has l' (d ++ [x]) nd /\
    (mirrors_as w q n (cr_contents c') nd \/ (n = HDir /\ fst nd = KDir /\ has l (d ++ [x]) nd)).
Proof.
  intros w pre s d x l contents c' q n H1 H2 H3 H4 H5 H6 H7. split.
  - intros t m ->. now apply look_followed in H5.
  - exact (C40_stored_node w pre s true d x l contents c' q n H1 H2 H3 H4 H5 H6 H7).
Qed.
Print Assumptions C40_link_followed.

(** A path that does not exist, or a link to follow that leads nowhere, is an error and changes nothing. *)
Theorem C40_missing : forall w pre s follow r c,
  stands_for s (pieces pre ++ r) -> forallb utf8 (pieces s) = true -> r <> [] ->
  (forall q n, look_str w follow s <> At q n) ->
  exists e, add_entry_from_path w pre s follow c = (c, Err (EIo e)).
Proof.
  intros w pre s follow r c [Hr Hp] Hu Hne Hno.
  assert (Hu' : forallb utf8 (filter not_dot (pieces s)) = true).
  { apply forallb_forall. intros m Hm. apply filter_In in Hm as [Hm _]. rewrite forallb_forall in Hu. auto. }
  assert (Hs : s <> []). { intros ->. cbn in Hp. symmetry in Hp. apply app_eq_nil in Hp as [_ Hp]. easy. }
  destruct (one_path s pre r Hs Hr Hu' Hp) as (p & a & H1 & H2 & H3 & _).
  unfold add_entry_from_path. rewrite H1, H2. assert (Hna : nonempty a = true) by (destruct a; auto). rewrite Hna.
  destruct (detect_fails w s pre r Hs Hr Hu' Hp follow Hno) as [e He]. exists e. unfold new_from_path. now rewrite He.
Qed.
Print Assumptions C40_missing.

(** Special files are skipped without error (directories above them appear). *)
Theorem C40_special_skipped : forall w pre s follow d x l contents q i,
  stands_for s (pieces pre ++ d ++ [x]) -> forallb utf8 (pieces s) = true -> all_ok l ->
  look_str w follow s = At q (HFile i) -> at_special (w_attr w q) = true ->
  (forall p t nd, d = p ++ t -> has l p nd -> is_dir_node nd = true) ->
  exists l', add_entry_from_path w pre s follow (mkCreator (after l) contents) = (mkCreator (after l') contents, Ok tt) /\ all_ok l' /\
    (forall p nd, has l' p nd <-> has l p nd \/
       (p <> [] /\ (exists t, d = p ++ t) /\ nd = (KDir, mkMeta 1000 1000 493 0) /\ forall nd', ~ has l p nd')).
Proof.
  intros w pre s follow d x l contents q i [Hr Hp] Hu Hok Hl Hsp Hdirs.
  assert (Hs : s <> []) by (intros ->; discriminate Hl).
  assert (Hu' : forallb utf8 (filter not_dot (pieces s)) = true).
  { apply forallb_forall. intros m Hm. apply filter_In in Hm as [Hm _]. rewrite forallb_forall in Hu. auto. }
  pose proof (dotless_filter s _ _ Hp) as Hdot.
  destruct (one_entry w s pre (d ++ [x]) Hs Hr Hu' Hp follow q (HFile i) (mkCreator (after l) contents)) as (e & ext & E & Ep & Hk); auto; [now destruct d|intros; congruence|].
  destruct Hk as [(Ek & -> & _)|(k & _ & _ & H)]; [|now rewrite (H i eq_refl) in Hsp].
  destruct (dotless_split (e_path e) d x Ep Hdot) as [Hd _].
  destruct (skipped l e d Hok Ek Hd Hdirs) as (B1 & B2 & B3). rewrite E. cbn [cr_entries cr_contents]. rewrite B1, app_nil_r.
  exists (l ++ [e]). auto.
Qed.
Print Assumptions C40_special_skipped.

(** Walking, only the path given is followed. *)
Theorem C40_only_root_followed : forall s q, s <> [] -> is_abs s = false -> Forall ordinary q ->
  std_path_eqb (str s q) s = true <-> q = [].
Proof.
  intros s q Hs Ha Hq. split; [|intros ->; apply is_root_self]. intros H.
  destruct (list_eq_dec (list_eq_dec N.eq_dec) q []) as [|Hne]; auto. rewrite is_root in H; auto. discriminate H.
Qed.
Print Assumptions C40_only_root_followed.

Example C40_meets_hypotheses :
  look_str src_world false (b "ln") = At [b "h"; b "ln"] (HLink (b "src") 8) /\ look_str src_world true (b "ln") = At src_root HDir /\
  snd (add_entry_from_path src_world [] (b "ln") true creator_empty) = Ok tt /\
  (exists c, add_entry_from_path src_world [] (b "sock") false creator_empty = (c, Ok tt) /\ cs_store (cr_entries c) = []).
Proof.
  split; [reflexivity|]. split; [reflexivity|]. split; [vm_compute; reflexivity|]. eexists. split; vm_compute; reflexivity.
Qed.

(** C41: every execution of the two threads that returns gives the answer of the sequential program
    [add_from_path]: the walked entries up to the first error of the walk, in order. *)
Theorem C41_schedule_independent : forall fuel w pre s recurse c items k t r,
  walk fuel w s recurse = Some items ->
  steps w pre s k (mkThreads (Walking items) [] Receiving c) t -> t_cons t = Returned r ->
  (t_creator t, r) = add_from_path fuel w pre s recurse c.
Proof.
  intros fuel w pre s recurse c items k t r Hw Hs Hr. apply steps_outcome in Hs. unfold outcome, pending in Hs.
  cbn [t_cons t_queue t_prod t_creator app] in Hs. rewrite Hr in Hs. unfold add_from_path. rewrite Hw. now symmetry.
Qed.
Print Assumptions C41_schedule_independent.

(** Every execution returns, whatever the schedule. *)
Theorem C41_terminates : forall w pre s items c k t,
  steps w pre s k (mkThreads (Walking items) [] Receiving c) t ->
  (k <= 2 * length items + 2)%nat /\ (t_cons t = Receiving -> exists u, step w pre s t u).
Proof.
  intros w pre s items c k t H. split; [|apply step_progress]. apply steps_fuel in H. unfold fuel_of at 2 in H. cbn in H. lia.
Qed.
Print Assumptions C41_terminates.

(** Hence, when the walk meets no error and the call succeeds, each walked path was added
    successfully, and what that stored is in the archive. *)
Theorem C41_all_added : forall fuel w pre s recurse c paths c', walk fuel w s recurse = Some (map WEntry paths) ->
  add_from_path fuel w pre s recurse c = (c', Ok tt) ->
  forall p, In p paths -> exists c1 c2, add_entry_from_path w pre p (std_path_eqb p s) c1 = (c2, Ok tt) /\
    (forall q nd, stored (cs_store (cr_entries c2)) q nd -> stored (cs_store (cr_entries c')) q nd).
Proof.
  intros fuel w pre s recurse c paths c' Hw Ha. unfold add_from_path in Ha. rewrite Hw in Ha.
  assert (Hb : before_fail (map WEntry paths) = paths) by (clear; induction paths; cbn; congruence). rewrite Hb in Ha. clear Hb Hw.
  assert (Hg : forall p follow c1 c2 r, add_entry_from_path w pre p follow c1 = (c2, r) -> grows (cr_entries c1) (cr_entries c2)).
  { intros p follow c1 c2 r. unfold add_entry_from_path. destruct (from_path p) as [x| | |]; try (intros H; injection H as <- <-; now left).
    destruct (strip_prefix x pre) as [ax|]; [|intros H; injection H as <- <-; now left]. destruct (nonempty ax); [|intros H; injection H as <- <-; now left].
    destruct (new_from_path w p ax (cr_contents c1) follow) as [[l e]| | |]; try (intros H; injection H as <- <-; now left).
    pose proof (add_entry_grows (cr_entries c1) e) as G. destruct (add_entry (cr_entries c1) e) as [st x']. intros H; injection H as <- <-. exact G. }
  assert (Hgs : forall l c1 c2 r, add_each w pre l c1 = (c2, r) -> grows (cr_entries c1) (cr_entries c2)).
  { induction l as [|[p fl] l IH]; intros c1 c2 r; cbn [add_each]; [intros H; injection H as <- <-; now left|].
    destruct (add_entry_from_path w pre p fl c1) as [c3 x] eqn:E. apply Hg in E. destruct x; intros H; try (injection H as <- <-; exact E).
    eapply grows_trans; eauto. }
  revert c Ha. induction paths as [|x paths IH]; intros c Ha p Hp; [destruct Hp|]. cbn [map add_each] in Ha.
  destruct (add_entry_from_path w pre x (std_path_eqb x s) c) as [c1 r] eqn:E. destruct r as [[]| | |]; try discriminate Ha.
  destruct Hp as [<-|Hp].
  - exists c, c1. split; auto. intros q nd. apply grows_stored. eapply Hgs; eauto.
  - now apply (IH c1).
Qed.
Print Assumptions C41_all_added.

(** But success does not mean that everything was added: a directory that cannot be read ends the
    walk silently.  Here the directory "src/a" is unreadable and "src/z" is lost. *)
Theorem C41_success_is_complete_refuted : exists c items,
  walk 3 locked_world (b "src") true = Some items /\ In WFail items /\
  add_from_path 3 locked_world [] (b "src") true creator_empty = (c, Ok tt) /\
  h_names (w_fs locked_world) (src_root ++ [b "z"]) = Some (HFile 1) /\
  map se_name (cs_store (cr_entries c)) = [b "src"; b "a"].
Proof.
  eexists. eexists. split; [vm_compute; reflexivity|]. split; [cbn; auto|]. split; [vm_compute; reflexivity|]. split; [reflexivity|].
  vm_compute. reflexivity.
Qed.
Print Assumptions C41_success_is_complete_refuted.

Example C41_meets_hypotheses :
  walk 3 src_world (b "src") true = Some (map WEntry [b "src"; b "src/z"; b "src/a"; b "src/a/f.txt"; b "src/a/l"]) /\
  snd (add_from_path 3 src_world [] (b "src") true creator_empty) = Ok tt.
Proof. split; vm_compute; reflexivity. Qed.
