(** C87-C88: concrete cases, and where "newer" is not enough. *)
From Verif Require Export PropUpdate PropRemount.

(** A directory with one file, archived at two moments. *)
Definition u_list (m : N) : list entry := [mkEntry (b "f") (Ok (Some (KFile 3 (mkAddr 1 0)))) (mkMeta 0 0 420 m)].
Definition u_fetch (d : bytes) : caddr -> fetched := fun _ => Found d.
Definition u_arx (m : N) (d : bytes) : archive := match write_archive (after (u_list m)) (u_fetch d) with Some a => a | None => dummy_archive end.
Definition u_world (f : hostfs) : world := mkWorld f src_attr src_list at_t.

Lemma u_has m p nd : has (u_list m) p nd <-> p = [b "f"] /\ nd = (KFile 3 (mkAddr 1 0), mkMeta 0 0 420 m).
Proof.
  unfold has, stored. change (cs_store (after (u_list m))) with [mkSentry (b "f") None (KFile 3 (mkAddr 1 0)) (mkMeta 0 0 420 m)]. split.
  - intros (s & e & He & Hp & ->). apply PropRemount.spath_inv in Hp as (e' & He' & Hp). rewrite He in He'. injection He' as <-.
    destruct s as [|s]; [injection He as <-|destruct s; discriminate He]. cbn [se_parent se_name se_kind se_meta] in *. auto.
  - intros [-> ->]. exists 0%nat. eexists. split; [reflexivity|]. split; [|reflexivity]. now apply (spath_top [mkSentry (b "f") None (KFile 3 (mkAddr 1 0)) (mkMeta 0 0 420 m)] 0 (mkSentry (b "f") None (KFile 3 (mkAddr 1 0)) (mkMeta 0 0 420 m))).
Qed.
Lemma u_ready m d : ready (u_list m) (u_fetch d) (u_arx m d).
Proof.
  constructor.
  - vm_compute. reflexivity.
  - reflexivity.
  - intros p nd n H Hn. apply u_has in H as [-> ->]. destruct Hn as [<-|[]]. split; [|reflexivity]. now apply ordinaryb_spec.
  - intros p size addr mt H. exists d. reflexivity.
  - intros p t mt H. apply u_has in H as [_ H]. discriminate H.
Qed.
Definition u_time (s : Z) : hostfs := later host0 (1000000000 * s)%Z.
Lemma u_dest s : tidy (u_time s) /\ outdir (u_time s) (base_of (u_world (u_time s)) (Some (b "./out"))) at_out /\
  forall p, p <> [] -> h_names (u_time s) (at_out ++ p) = None.
Proof.
  destruct demo_setting as [_ _ _ _ _ Ht _]. split; [now apply at_time_tidy|]. split.
  - destruct C56_meets_hypotheses as (_ & Ho & _). exact Ho.
  - intros p Hp. cbn [u_time later h_names host0 host_of]. destruct (lookup_name [(at_t, HDir)] (at_out ++ p)) eqn:E; [|reflexivity].
    apply lookup_in in E. destruct E as [E|[]]. destruct p; [easy|]. discriminate E.
Qed.

(** The first archive extracted at 1100000 s, the file changed at 1200000 s: "newer" replaces it. *)
Example C87_meets_hypotheses : exists g1 g,
  extract_cmd (u_world (u_time 1100000)) (u_arx 1000000 (b "old")) (Some (b "./out")) [] None None false Error idle all_turns = (g1, Ok tt) /\
  has_file g1 (at_out ++ [b "f"]) (b "old") /\
  extract_cmd (u_world (later g1 0)) (u_arx 1200000 (b "new")) (Some (b "./out")) [] None None false Newer idle all_turns = (g, Ok tt) /\
  has_file g (at_out ++ [b "f"]) (b "new") /\ goes_on Newer (u_list 1200000) /\
  (forall p x y, has (u_list 1000000) p x -> has (u_list 1200000) p y -> same_kind x y) /\
  (forall p y, has (u_list 1200000) p y -> not_older (m_mtime (snd y)) (h_now (u_time 1100000))).
Proof.
  do 2 eexists. split; [vm_compute; reflexivity|]. split; [exists 0; vm_compute; auto|]. split; [vm_compute; reflexivity|].
  split; [exists 0; vm_compute; auto|]. split; [intros p nd H; apply u_has in H as [_ ->]; reflexivity|]. split.
  - intros p x y H1 H2. apply u_has in H1 as [_ ->]. apply u_has in H2 as [_ ->]. exact I.
  - intros p y H. apply u_has in H as [_ ->]. vm_compute. discriminate.
Qed.

(** Refuted in general: the file changes at 1200000 s, after the first archive was made (it held the
    version of 1000000 s) and before this one is extracted, at 1300000 s.  "newer" then keeps the old
    version, although the second archive is newer: extraction gives files the time it runs at. *)
Theorem C87_newer_refuted : exists g1 g,
  ready (u_list 1000000) (u_fetch (b "old")) (u_arx 1000000 (b "old")) /\ ready (u_list 1200000) (u_fetch (b "new")) (u_arx 1200000 (b "new")) /\
  has (u_list 1000000) [b "f"] (KFile 3 (mkAddr 1 0), mkMeta 0 0 420 1000000) /\
  has (u_list 1200000) [b "f"] (KFile 3 (mkAddr 1 0), mkMeta 0 0 420 1200000) /\
  extract_cmd (u_world (u_time 1300000)) (u_arx 1000000 (b "old")) (Some (b "./out")) [] None None false Error idle all_turns = (g1, Ok tt) /\
  extract_cmd (u_world (later g1 (1000000000 * 1400000))) (u_arx 1200000 (b "new")) (Some (b "./out")) [] None None false Newer idle all_turns = (g, Ok tt) /\
  has_file g (at_out ++ [b "f"]) (b "old").
Proof.
  do 2 eexists. split; [apply u_ready|]. split; [apply u_ready|]. split; [now apply u_has|]. split; [now apply u_has|].
  split; [vm_compute; reflexivity|]. split; [vm_compute; reflexivity|]. exists 0. vm_compute. auto.
Qed.
Print Assumptions C87_newer_refuted.


Lemma demo_ready : ready demo demo_fetch demo_arx.
Proof.
  constructor.
  - vm_compute. reflexivity.
  - reflexivity.
  - intros p nd n H Hn. destruct (demo_whole p nd H) as [Ho _]. exact (Ho n Hn).
  - intros p size addr mt H. apply demo_exact in H. destruct H as [E|[E|[E|[E|[E|[]]]]]]; try discriminate E; injection E as <- <- <- <-; eexists; reflexivity.
  - intros p t mt H. apply demo_exact in H. destruct H as [E|[E|[E|[E|[E|[]]]]]]; try discriminate E; injection E as <- <- <-. split; [reflexivity|discriminate].
Qed.
Definition u_parts : list (list bytes) := [[b "a/z"]; [b "l"; b "a/z"]].
Example C88_meets_hypotheses : exists w' g,
  in_parts demo_arx (Some (b "./out")) false (u_world (u_time 5)) u_parts w' /\
  extract_cmd (u_world (u_time 5)) demo_arx (Some (b "./out")) (concat u_parts) None None false Warn idle all_turns = (g, Ok tt) /\
  ready demo demo_fetch demo_arx /\ (forall files, In files u_parts -> files <> [] /\ plain_list files) /\
  has_file (w_fs w') (at_out ++ [b "a"; b "z"]) (b "xyz") /\ has_link (w_fs w') (at_out ++ [b "l"]) (b "a/b").
Proof.
  do 2 eexists. split; [|split; [|split; [exact demo_ready|split; [|split]]]].
  - eapply parts_more with (pol := Error) (sched := idle) (last := all_turns) (t := 0%Z) (w1 := u_world _); [vm_compute; reflexivity|reflexivity|reflexivity|].
    eapply parts_more with (pol := Overwrite) (sched := idle) (last := all_turns) (t := 0%Z) (w1 := u_world _); [vm_compute; reflexivity|reflexivity|reflexivity|].
    apply parts_none.
  - vm_compute. reflexivity.
  - intros files [<-|[<-|[]]]; (split; [discriminate|]); intros s Hs Hd; cbn [In] in Hs; (repeat (destruct Hs as [<-|Hs]; [vm_compute in Hd; intuition discriminate|])); exact Hs.
  - exists 0. vm_compute. auto.
  - eexists. vm_compute. reflexivity.
Qed.
