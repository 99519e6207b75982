(** What an extraction that succeeds has found (C103). *)
From Verif Require Export ExtractSession.

Section Needs.
  Variables (a : archive) (cfg : config) (out : path).
  Hypothesis Hshape : shaped (x_base cfg) out.

  Lemma one_needs f d n nd g o : dirs_up f (out ++ d) -> Forall ordinary d -> ordinary n ->
    (forall t m, h_names f (out ++ d ++ [n]) = Some (HLink t m) -> exists t', fst nd = KLink t') ->
    xone a cfg f (d ++ [n]) nd = (g, o, Ok tt) ->
    (match fst nd with KLink t => utf8 t = true | _ => True end) /\
    (chosen cfg (d ++ [n]) nd = true -> fits a (x_policy cfg) f (out ++ d ++ [n]) nd).
  Proof.
    intros Hd Ho Hn Hl. set (q := out ++ d ++ [n]).
    assert (HL : forall fl, (fl = true -> forall t, fst nd <> KLink t) ->
      look f fl (abs_path cfg (join (d ++ [n]))) = match h_names f q with None => Missing q | Some x => At q x end).
    { intros fl Hfl. apply look_final; auto. intros t m E. destruct fl; auto. destruct (Hl t m E) as [t' E']. now destruct (Hfl eq_refl t'). }
    fold q in Hl. unfold xone, chosen, is_dir_node. destruct nd as [[|size addr|t] mt]; cbn [fst snd is_dir_kind].
    - (* directory *)
      destruct (should_extract cfg (join (d ++ [n])) true) eqn:Es; [|intros _; split; [exact I|intros HH; discriminate HH]].
      assert (Hcd : create_dir_all f (abs_path cfg (join (d ++ [n]))) =
        match h_names f q with
        | None => (set_name f q (Some HDir), None)
        | Some HDir => (f, None)
        | Some _ => (f, Some IoExists)
        end).
      { unfold create_dir_all. remember (abs_path cfg (join (d ++ [n]))) as ap.
        assert (Hsnd : snd ap <> []).
        { subst ap. unfold abs_path. cbn [snd]. assert (Hg : Forall good (d ++ [n])).
          { apply Forall_app. split; [|constructor; [now apply ordinary_good|constructor]]. eapply Forall_impl; [|exact Ho]. apply ordinary_good. }
          rewrite iter_pieces, pieces_join by exact Hg. destruct (snd (x_base cfg)); destruct d; easy. }
        destruct ap as [s comps]. cbn [fst snd] in *.
        destruct comps as [|c comps _] using rev_ind; [easy|]. rewrite rev_app_distr. change (rev [c] ++ rev comps) with (c :: rev comps).
        cbn [create_dir_all_rev]. assert (Er : rev (c :: rev comps) = comps ++ [c]) by (cbn [rev]; now rewrite rev_involutive). rewrite Er.
        unfold mkdir at 1. rewrite HL by easy. destruct (h_names f q) as [[|i|t m]|] eqn:Eq; auto.
        - unfold is_dir_path. now rewrite HL by easy.
        - unfold is_dir_path. now rewrite HL by easy.
        - now destruct (Hl t m eq_refl). }
      rewrite Hcd. unfold fits. cbn [fst]. destruct (h_names f q) as [[|i|t m]|] eqn:Eq; intros H; try discriminate H.
      + split; [exact I|]. auto.
      + split; [exact I|]. auto.
    - (* file *)
      destruct (should_extract cfg (join (d ++ [n])) false) eqn:Es; [|intros _; split; [exact I|intros HH; discriminate HH]].
      unfold fits. cbn [fst snd].
      destruct (a_fetch a addr) as [data| | |] eqn:Ef; try (intros H; discriminate H); [|intros _; split; [exact I|intros _; exact I]].
      set (m := m_mtime mt).
      assert (Hot : open_target cfg (join (d ++ [n])) m f =
        match h_names f q with
        | None => (touch (set_data (bump (set_name f q (Some (HFile (h_next f))))) (h_next f) []) (h_next f), Ok (Some (h_next f)))
        | Some x =>
            let trunc := match x with
                         | HFile i => (touch (set_data f i []) i, Ok (Some i))
                         | _ => (f, Err (EIo IoIsDir))
                         end in
            match x_policy cfg with
            | Skip | Warn => (f, Ok None)
            | Newer =>
                match entry_time m with
                | Ok t' => if (match time_of f q with Some t => (t <=? t')%Z | None => false end) then trunc else (f, Ok None)
                | _ => (f, Panic)
                end
            | Overwrite => trunc
            | Error => (f, Err (EFileExists (join (d ++ [n]))))
            end
        end).
      { unfold open_target, open_new, open_trunc, modified, time_of. rewrite !HL by easy.
        destruct (h_names f q) as [[|i|t mm]|] eqn:Eq; try reflexivity; try now destruct (Hl t mm eq_refl). }
      rewrite Hot. clear Hot. unfold replaceable, entry_time, not_older.
      destruct (h_names f q) as [x|] eqn:Eq; [|intros _; split; [exact I|intros _; exact I]]. cbn zeta.
      destruct (x_policy cfg).
      1,2: intros _; split; [exact I|intros _; exact I].
      + destruct (N.ltb_spec m (2^63)) as [Hm|Hm]; [|intros H; discriminate H].
        intros H. split; [exact I|]. intros _. split; [exact Hm|]. intros tm Etm Ht. fold m in Ht. rewrite Etm in H.
        destruct (Z.leb_spec tm (1000000000 * Z.of_N m)) as [_|Hlt]; [|lia].
        destruct x as [|i|t mm]; [discriminate H|eauto|discriminate H].
      + destruct x as [|i|t mm]; intros H; try discriminate H. split; [exact I|]. eauto.
      + intros H. discriminate H.
    - (* link *)
      destruct (utf8 t) eqn:Eu; [|intros H; discriminate H]. intros H. split; [exact eq_refl|]. revert H.
      destruct (should_extract cfg (join (d ++ [n])) false) eqn:Es; [|intros _ HH; discriminate HH].
      unfold fits. cbn [fst snd]. set (m := m_mtime mt).
      destruct t as [|c t']; [unfold make_link, symlink; intros H; discriminate H|].
      set (t := c :: t') in *.
      assert (Hml : forall g' , make_link cfg (join (d ++ [n])) t m f = (g', Ok tt) ->
         match h_names f q with
         | None => True
         | Some x => match x_policy cfg with
           | Skip | Warn => True
           | Newer => m < 2^63 /\ (forall tm, time_of f q = Some tm -> (tm <= 1000000000 * Z.of_N m)%Z -> x <> HDir)
           | Overwrite => x <> HDir
           | Error => False
           end
         end).
      { intros g'. unfold make_link, remove_file, modified, time_of, entry_time. unfold t at 1. unfold symlink at 1. fold t. rewrite !HL by easy.
        destruct (h_names f q) as [x|]; [|auto]. cbn zeta.
        destruct (x_policy cfg); auto.
        - destruct (N.ltb_spec m (2^63)) as [Hm|Hm].
          2: { destruct x; intros H; discriminate H. }
          destruct x as [|i|t2 mm]; intros H; (split; [exact Hm|]); intros tm Etm Ht; injection Etm as <-; [|intros HH; discriminate HH..].
          destruct (Z.leb_spec (h_dirtime f q) (1000000000 * Z.of_N m)) as [_|Hlt]; [discriminate H|lia].
        - destruct x as [|i|t2 mm]; intros H; [discriminate H|intros HH; discriminate HH..].
        - destruct x; intros H; discriminate H. }
      destruct (make_link cfg (join (d ++ [n])) t m f) as [g' r] eqn:Em. intros H _. injection H as _ _ ->.
      split; [intros HH; discriminate HH|]. specialize (Hml g' eq_refl). unfold replaceable, not_older. fold m.
      destruct (h_names f q) as [x|]; [|exact I]. destruct (x_policy cfg); auto.
  Qed.
End Needs.

Section FoldNeeds.
  Variables (a : archive) (cfg : config) (out : path).
  Hypothesis Hshape : shaped (x_base cfg) out.
  Variable f0 : hostfs.
  Variable items : list (path * node).
  Hypothesis Hsorted : StronglySorted path_lt (map fst items).
  Hypothesis Hord : forall p nd, In (p, nd) items -> p <> [] /\ Forall ordinary p.
  Hypothesis Hanc : forall p nd q, In (p, nd) items -> q <> [] -> below q p ->
    exists mt, In (q, (KDir, mt)) items /\ should_extract cfg (join q) true = true.
  Hypothesis Hnolinks : forall p nd t m, In (p, nd) items -> h_names f0 (out ++ p) = Some (HLink t m) -> exists t', fst nd = KLink t'.

  Lemma fold_needs todo : forall done f log g log', items = done ++ todo -> state a cfg out f0 done f log ->
    xseq a cfg todo f log = (g, log', Ok tt) ->
    forall p nd, In (p, nd) todo ->
      (match fst nd with KLink t => utf8 t = true | _ => True end) /\
      (chosen cfg p nd = true -> fits a (x_policy cfg) f0 (out ++ p) nd).
  Proof.
    induction todo as [|[p nd] todo IH]; intros done f log g log' E HS Hx; [intros ? ? []|]. cbn [xseq] in Hx.
    assert (Hin : In (p, nd) items) by (rewrite E; apply in_app_iff; right; now left).
    destruct (Hord _ _ Hin) as [Hp Hop].
    destruct p as [|n d _] using rev_ind; [easy|]. apply Forall_app in Hop as [Hod Hon]. apply Forall_inv in Hon.
    assert (Hs2 : forall p' nd', In (p', nd') done -> path_lt p' (d ++ [n])).
    { intros p' nd' Hin'. rewrite E, map_app in Hsorted. cbn [map fst] in Hsorted. apply (in_map fst) in Hin'. cbn [fst] in Hin'.
      clear - Hsorted Hin'. induction (map fst done) as [|y l IHl]; [easy|]. cbn [app] in Hsorted. apply StronglySorted_inv in Hsorted as [H1 H2].
      destruct Hin' as [->|Hin']; auto. rewrite Forall_forall in H2. apply H2. apply in_app_iff. right. now left. }
    assert (Hs3 : forall p' nd', In (p', nd') todo -> path_lt (d ++ [n]) p').
    { intros p' nd' Hin'. rewrite E, map_app in Hsorted. cbn [map fst] in Hsorted. apply (in_map fst) in Hin'. cbn [fst] in Hin'.
      clear - Hsorted Hin'. induction (map fst done) as [|y l IHl]; cbn [app] in Hsorted; apply StronglySorted_inv in Hsorted as [H1 H2]; auto.
      rewrite Forall_forall in H2. now apply H2. }
    assert (Hnew : forall nd', ~ In (d ++ [n], nd') done).
    { intros nd' Hin'. apply Hs2 in Hin'. now apply path_lt_irrefl in Hin'. }
    assert (Hanc' : forall q, q <> [] -> (exists t, d = q ++ t) -> exists mt, In (q, (KDir, mt)) done /\ should_extract cfg (join q) true = true).
    { intros q Hq (t & Et). destruct (Hanc _ _ q Hin Hq) as (mt & Hqin & Hsel).
      { rewrite Et. destruct t as [|y t]; [exists n, []; now rewrite app_nil_r|exists y, (t ++ [n]); now rewrite <- app_assoc]. }
      exists mt. split; auto. rewrite E in Hqin. apply in_app_iff in Hqin as [Hqin|[Hqin|Hqin]]; auto; exfalso.
      * injection Hqin as E' _. rewrite Et in E'. apply (f_equal (@length _)) in E'. rewrite !app_length in E'. cbn in E'. lia.
      * apply Hs3 in Hqin. apply (path_lt_asym _ _ Hqin). rewrite Et. rewrite <- app_assoc.
        destruct t as [|y t]; [apply path_lt_below|apply path_lt_below]. }
    assert (Hl0 : forall t m, h_names f0 (out ++ d ++ [n]) = Some (HLink t m) -> exists t', fst nd = KLink t').
    { intros t m. apply (Hnolinks (d ++ [n]) nd t m Hin). }
    assert (Hq0 : unchanged f0 f (out ++ d ++ [n])).
    { apply (s_rest _ _ _ _ _ _ _ HS). intros p nd' Hp' E'. apply app_inv_head in E'. subst p. now apply (Hnew nd'). }
    assert (Hup : dirs_up f (out ++ d)).
    { apply dirs_up_app; [apply (s_up _ _ _ _ _ _ _ HS)|]. intros q t E' Hq.
      destruct (Hanc' q Hq) as (mt & Hin' & Hsel); [now exists t|]. pose proof (s_done _ _ _ _ _ _ _ HS _ _ Hin') as Hp'.
      unfold chosen in Hp'. cbn [is_dir_node is_dir_kind fst] in Hp'. rewrite Hsel in Hp'. exact Hp'. }
    destruct (state_step a cfg out Hshape f0 done f log d n nd HS Hnew Hanc' Hod Hon Hl0) as (g1 & o & r & Ex & Hok & _).
    rewrite Ex in Hx. destruct r as [[]|e| |]; try discriminate Hx.
    assert (Hneed := one_needs a cfg out Hshape f d n nd g1 o Hup Hod Hon).
    intros p' nd' [Hp'|Hp'].
    - injection Hp' as <- <-. destruct Hneed as [N1 N2]; [|exact Ex|].
      + intros t m. rewrite (proj1 Hq0). apply Hl0.
      + split; [exact N1|]. intros Hc. eapply fits_from; [| |exact (N2 Hc)].
        * destruct Hq0 as [A1 A2]. split; [now rewrite A1|]. intros i Hi. rewrite A1 in Hi. destruct (A2 i Hi) as [-> ->]. auto.
        * symmetry. apply (s_dirtime _ _ _ _ _ _ _ HS).
    - eapply (IH (done ++ [(d ++ [n], nd)])); [now rewrite <- app_assoc|apply Hok; exact eq_refl|exact Hx|exact Hp'].
  Qed.
End FoldNeeds.

Section Exact.
  Variables (a : archive) (cfg : config) (rg : range) (d0 out : path) (f : hostfs).
  Hypothesis Hwf : wf a.
  Hypothesis Hrg : dir_range a rg d0.
  Hypothesis Hnames : plain_names a d0.
  Hypothesis Hout : outdir f (x_base cfg) out.
  Hypothesis Htidy : tidy f.
  Hypothesis Hnl : no_links a d0 f out.

  Theorem extract_exact sched last g res : extract_range a rg cfg sched last f = (g, res) ->
    (res = Ok tt -> forall p nd, visited a cfg d0 p nd ->
       (match fst nd with KLink t => utf8 t = true | _ => True end) /\
       (chosen cfg p nd = true -> fits a (x_policy cfg) f (out ++ p) nd)) /\
    ((forall k, no_failure (sched k)) -> no_failure last -> res <> Diverge ->
       (forall p nd, visited a cfg d0 p nd -> 
          (match fst nd with KLink t => utf8 t = true | _ => True end) /\
          (chosen cfg p nd = true -> fits a (x_policy cfg) f (out ++ p) nd)) -> res = Ok tt).
  Proof.
    intros Hrun. pose proof (plain_handled a d0 Hnames) as Hh.
    destruct (extract_runs a cfg Hwf rg d0 f Hrg Hh) as (items & Hitems & Hsorted & Hex).
    destruct (base_made f (x_base cfg) out Hout) as (f0 & Ec & M & Hshape). rewrite Ec in Hex.
    pose proof (made_tidy _ _ _ M Htidy) as T0.
    assert (Hoff : forall p, p <> [] -> unchanged f f0 (out ++ p)).
    { intros p Hp. split; [apply (md_other _ _ _ M); right|rewrite (md_data _ _ _ M), (md_mtime _ _ _ M); auto].
      intros [t E]. apply (f_equal (@length _)) in E. rewrite !app_length in E. destruct p; [easy|]. cbn in E. lia. }
    assert (Hoff' : forall p, p <> [] -> unchanged f0 f (out ++ p)).
    { intros p Hp. destruct (Hoff p Hp) as [A1 A2]. split; [now rewrite A1|]. intros i Hi. rewrite A1 in Hi. destruct (A2 i Hi) as [-> ->]. auto. }
    assert (Hdt : h_dirtime f0 = h_dirtime f) by apply (md_dirtime _ _ _ M).
    assert (Hord : forall p nd, In (p, nd) items -> p <> [] /\ Forall ordinary p).
    { intros p nd Hin. apply Hitems in Hin as (Hp & (i & Hs) & _). split; auto.
      specialize (Hnames i p (stored_apath _ _ _ _ Hs) Hp). eapply Forall_impl; [|exact Hnames]. now intros n [Ho _]. }
    assert (Hanc : forall p nd q, In (p, nd) items -> q <> [] -> below q p ->
      exists mt, In (q, (KDir, mt)) items /\ should_extract cfg (join q) true = true).
    { intros p nd q Hin Hq Hb. apply Hitems in Hin. pose proof Hin as (_ & _ & Hv).
      destruct (visited_dir a cfg d0 Hwf Hh p nd q Hin Hq Hb) as [mt Hm]. exists mt. split; [now apply Hitems|auto]. }
    assert (Hnol : forall p nd t m, In (p, nd) items -> h_names f0 (out ++ p) = Some (HLink t m) -> exists t', fst nd = KLink t').
    { intros p nd t m Hin Hn. apply Hitems in Hin as (Hp & (i & Hs) & _). rewrite (proj1 (Hoff p Hp)) in Hn. eapply Hnl; eauto. }
    assert (HS0 : state a cfg out f0 [] f0 []) by (apply state_start; auto; apply (md_up _ _ _ M)).
    destruct (fold_run a cfg out Hshape f0 items Hsorted Hord Hanc Hnol items [] f0 [] eq_refl HS0)
      as (done & rest & f1 & log & r & E1 & E2 & HS & Hr & Hsucc).
    rewrite E1 in Hex. destruct (s_log _ _ _ _ _ _ _ HS) as [Hnd Hlog].
    specialize (Hex Hnd sched last g res Hrun). destruct Hex as (_ & _ & _ & _ & Hok & _ & Hnof).
    split.
    - intros Er p nd Hv. destruct (Hok Er) as [-> _]. apply Hitems in Hv as Hin. pose proof Hv as (Hp & _).
      destruct (fold_needs a cfg out Hshape f0 items Hsorted Hord Hanc Hnol items [] f0 [] f1 log eq_refl HS0 E1 p nd Hin) as [N1 N2].
      split; [exact N1|]. intros Hc. eapply fits_from; [apply Hoff'; exact Hp|symmetry; exact Hdt|exact (N2 Hc)].
    - intros Hf1 Hf2 Hnd' Hall. destruct (Hnof Hf1 Hf2 Hnd') as [-> _]. apply Hsucc.
      + intros p nd Hin. apply Hitems in Hin. apply (Hall p nd Hin).
      + intros p nd Hin Hc. apply Hitems in Hin as Hv. pose proof Hv as (Hp & _).
        eapply fits_from; [apply Hoff; exact Hp|exact Hdt|]. now apply (Hall p nd Hv).
  Qed.
End Exact.
