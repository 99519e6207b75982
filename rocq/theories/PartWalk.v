(** Extraction does not depend on the records below directories that are not entered, nor on the
    contents of files that are not selected. *)
From Verif Require Export PartExtract.

Section Part.
  Variables (a a' : archive) (cfg : config) (sched : nat -> turns).
  Hypothesis Hwf : wf a.

  Lemma walk_part lo hi fo : forest_of a lo hi fo -> forall fuel d c, handled d -> fnames fo -> x_cur c = join d ->
    (forall i q x, In (i, q ++ [x]) (flat d fo) -> q = d \/ should_extract cfg (join q) true = true -> at_ (a_recs a') i = at_ (a_recs a) i) ->
    (forall i p r x s, In (i, p) (flat d fo) -> at_ (a_recs a) i = Some r -> r_payload r = RFile x s -> should_extract cfg (join p) false = true -> a_fetch a' x = a_fetch a x) ->
    run_range x_builder a' (extractor a' cfg sched) fuel lo hi c = run_range x_builder a (extractor a cfg sched) fuel lo hi c /\
    (snd (run_range x_builder a (extractor a cfg sched) fuel lo hi c) = Ok tt -> x_cur (fst (run_range x_builder a (extractor a cfg sched) fuel lo hi c)) = join d).
  Proof.
    induction 1 as [lo|lo hi r rest Hlt Hr Hnd Hrest IH|lo hi r first nb kids rest Hlt Hr Hp Hkids IHk Hrest IHr];
      intros fuel d c Hd Hn Hc Hrec Hsame; (destruct fuel as [|fuel]; [split; [reflexivity|intros H; discriminate H]|]); cbn [run_range].
    { rewrite N.eqb_refl. auto. }
    all: destruct (lo =? hi) eqn:Elh; [apply N.eqb_eq in Elh; lia|].
    all: destruct Hn as (Hn1 & Hn2 & Hn3); assert (Gd := handled_good _ Hd); assert (Gn := handled_good _ Hn1); apply Forall_inv in Gn.
    all: assert (Hdot : r_name r <> b ".") by (apply Forall_inv in Hn1; tauto).
    all: assert (Hu : utf8 (r_name r) = true) by (apply Forall_inv in Hn1; tauto).
    all: assert (Hr' : at_ (a_recs a') lo = Some r) by (rewrite <- Hr; apply (Hrec lo d (r_name r)); [cbn [flat]; now left|now left]).
    all: rewrite (x_create_file a lo r (r_name r) (r_mtime r) Hr eq_refl Hu eq_refl), (x_create_file a' lo r (r_name r) (r_mtime r) Hr' eq_refl Hu eq_refl).
    - assert (Hrest' : forall c1, x_cur c1 = join d ->
        run_range x_builder a' (extractor a' cfg sched) fuel (lo + 1) hi c1 = run_range x_builder a (extractor a cfg sched) fuel (lo + 1) hi c1 /\
        (snd (run_range x_builder a (extractor a cfg sched) fuel (lo + 1) hi c1) = Ok tt -> x_cur (fst (run_range x_builder a (extractor a cfg sched) fuel (lo + 1) hi c1)) = join d)).
      { intros c1 Hc1. apply IH; auto; [intros i q x Hin; apply (Hrec i q x); cbn [flat app]; now right|intros i p r0 x0 s0 Hin; apply Hsame; cbn [flat app]; now right]. }
      destruct (r_payload r) as [x s|first nb|t|v] eqn:Ep.
      + cbn [andthen]. change (on_file (extractor a cfg sched)) with (x_on_file a cfg sched).
        change (on_file (extractor a' cfg sched)) with (x_on_file a' cfg sched).
        assert (E : x_on_file a' cfg sched c (r_name r, x, r_mtime r) = x_on_file a cfg sched c (r_name r, x, r_mtime r)).
        { unfold x_on_file. rewrite tick_cur, Hc, push_join by auto. destruct (should_extract cfg (join (d ++ [r_name r])) false) eqn:Es; [|reflexivity].
          rewrite (Hsame lo (d ++ [r_name r]) r x s); auto. cbn [flat]. now left. }
        assert (E2 : x_cur (fst (x_on_file a cfg sched c (r_name r, x, r_mtime r))) = join d).
        { unfold x_on_file. pose proof (tick_cur sched c) as Ht. rewrite Hc in Ht. destruct (should_extract _ _ _); [|exact Ht]. destruct (a_fetch a x); try exact Ht.
          destruct (open_target _ _ _ _) as [g [[i|]| | |]]; exact Ht. }
        rewrite E. destruct (x_on_file a cfg sched c (r_name r, x, r_mtime r)) as [c1 [u| | |]]; cbn [andthen fst snd] in *; try (split; [reflexivity|intros H; discriminate H]).
        now apply Hrest'.
      + exfalso. exact (Hnd first nb eq_refl).
      + destruct (utf8 t); cbn [andthen]; [|split; [reflexivity|intros H; discriminate H]].
        change (on_link (extractor a cfg sched)) with (x_on_link cfg sched). change (on_link (extractor a' cfg sched)) with (x_on_link cfg sched).
        assert (E2 : x_cur (fst (x_on_link cfg sched c (r_name r, t, r_mtime r))) = join d).
        { unfold x_on_link. pose proof (tick_cur sched c) as Ht. rewrite Hc in Ht. destruct (should_extract _ _ _); [|exact Ht]. destruct (make_link _ _ _ _ _) as [g o]. exact Ht. }
        destruct (x_on_link cfg sched c (r_name r, t, r_mtime r)) as [c1 [u| | |]]; cbn [andthen fst snd] in *; try (split; [reflexivity|intros H; discriminate H]).
        now apply Hrest'.
      + cbn [andthen]. split; [reflexivity|intros H; discriminate H].
    - assert (Hrest' : forall c1, x_cur c1 = join d ->
        run_range x_builder a' (extractor a' cfg sched) fuel (lo + 1) hi c1 = run_range x_builder a (extractor a cfg sched) fuel (lo + 1) hi c1 /\
        (snd (run_range x_builder a (extractor a cfg sched) fuel (lo + 1) hi c1) = Ok tt -> x_cur (fst (run_range x_builder a (extractor a cfg sched) fuel (lo + 1) hi c1)) = join d)).
      { intros c1 Hc1. apply IHr; auto; [intros i q x Hin; apply (Hrec i q x); cbn [flat]; right; apply in_app_iff; now right|intros i p r0 x0 s0 Hin; apply Hsame; cbn [flat]; right; apply in_app_iff; now right]. }
      rewrite Hp. cbn [andthen fst snd]. destruct (wf_dir_u32 a Hwf lo r first nb Hr Hp) as [-> ->].
      change (on_enter (extractor a' cfg sched)) with (on_enter (extractor a cfg sched)).
      change (on_exit (extractor a' cfg sched)) with (on_exit (extractor a cfg sched)).
      assert (E2 : x_cur (fst (on_enter (extractor a cfg sched) c (r_name r))) = join (d ++ [r_name r])).
      { cbn [extractor on_enter]. rewrite tick_cur, Hc, push_join by auto. destruct (should_extract _ _ _); [|reflexivity]. unfold io. destruct (create_dir_all _ _) as [g [e|]]; reflexivity. }
      assert (E3 : snd (on_enter (extractor a cfg sched) c (r_name r)) = Ok true -> should_extract cfg (join (d ++ [r_name r])) true = true).
      { cbn [extractor on_enter]. rewrite tick_cur, Hc, push_join by auto. destruct (should_extract _ _ _); [reflexivity|]. intros H. discriminate H. }
      destruct (on_enter (extractor a cfg sched) c (r_name r)) as [c1 [[]| | |]]; cbn [andthen fst snd] in *; try (split; [reflexivity|intros H; discriminate H]).
      + specialize (E3 eq_refl). destruct (IHk fuel (d ++ [r_name r]) c1) as [K1 K2]; auto; [apply handled_app; auto| |intros i p r0 x0 s0 Hin; apply Hsame; cbn [flat]; right; apply in_app_iff; now left|].
        { intros i q x Hin Hq. apply (Hrec i q x); [cbn [flat]; right; apply in_app_iff; now left|]. right. destruct Hq as [-> |Hq]; auto. }
        rewrite K1. destruct (run_range x_builder a (extractor a cfg sched) fuel first (first + nb) c1) as [c2 [[]| | |]]; cbn [andthen fst snd] in *; try (split; [reflexivity|intros H; discriminate H]).
        specialize (K2 eq_refl). cbn [extractor on_exit andthen]. fold (extractor a cfg sched) (extractor a' cfg sched).
        apply Hrest'. cbn [with_cur x_cur]. rewrite K2. now apply pop_push.
      + cbn [extractor on_exit andthen]. fold (extractor a cfg sched) (extractor a' cfg sched).
        apply Hrest'. cbn [with_cur x_cur]. rewrite E2. now apply pop_push.
  Qed.

  Lemma extract_part rg d0 last f : dir_range a rg d0 -> handled_below a d0 -> length (a_recs a') = length (a_recs a) ->
    (forall i q x, apath a i (d0 ++ q ++ [x]) -> q = [] \/ should_extract cfg (join q) true = true -> at_ (a_recs a') i = at_ (a_recs a) i) ->
    (forall i p r x s, p <> [] -> apath a i (d0 ++ p) -> at_ (a_recs a) i = Some r -> r_payload r = RFile x s ->
       should_extract cfg (join p) false = true -> a_fetch a' x = a_fetch a x) ->
    extract_range a' rg cfg sched last f = extract_range a rg cfg sched last f.
  Proof.
    intros Hrg Hn Hlen Hrec Hsame. destruct (range_forest a Hwf rg d0 Hrg) as (fo & j & Hf & _ & _ & Hin & _ & _).
    assert (Hfn : fnames fo).
    { apply (fnames_flat fo d0). intros i p Hi. apply Hin in Hi as [Hi (x & t & ->)]. apply Hn in Hi.
      unfold handled in *. rewrite Forall_forall in Hi. constructor; [|constructor]. apply Hi.
      rewrite (app_removelast_last [] (l := d0 ++ x :: t)) by now destruct d0.
      rewrite last_last. replace (List.last (d0 ++ x :: t) []) with (List.last (x :: t) []).
      - rewrite (app_removelast_last [] (l := x :: t)) at 2 by easy. apply in_app_iff. right. now left.
      - clear. induction d0 as [|y d0 IH]; auto. cbn [app]. rewrite IH. destruct (d0 ++ x :: t) eqn:E; [now destruct d0|reflexivity]. }
    assert (Hin' : forall i p, In (i, p) (flat [] fo) -> apath a i (d0 ++ p) /\ p <> []).
    { intros i p Hi. pose proof (flat_prefix d0 fo [] i p Hi) as Hi'. rewrite app_nil_r in Hi'. apply Hin in Hi' as [Hi' (y & t & Ey)].
      apply app_inv_head in Ey. split; [exact Hi'|]. subst p. discriminate. }
    unfold extract_range. assert (walk_fuel a' = walk_fuel a) as -> by (unfold walk_fuel; now rewrite Hlen). unfold run_from_range.
    change (on_start (extractor a' cfg sched)) with (on_start (extractor a cfg sched)).
    assert (Ec : x_cur (fst (on_start (extractor a cfg sched) (mkCtx [] f [] false 0))) = []).
    { cbn [extractor on_start]. unfold io. cbn [fst with_fs x_cur]. now rewrite tick_cur. }
    destruct (on_start (extractor a cfg sched) (mkCtx [] f [] false 0)) as [c1 [[]| | |]]; cbn [andthen fst] in *; auto.
    destruct (walk_part _ _ _ Hf (walk_fuel a) [] c1) as [K _]; auto; [constructor|..].
    - intros i q x Hi Hq. apply Hin' in Hi as [Hi _]. now apply (Hrec i q x).
    - intros i p r x s Hi. apply Hin' in Hi as [Hi Hne]. now apply (Hsame i p r x s).
    - rewrite K. reflexivity.
  Qed.
End Part.
