(** One entry extracted on a destination without symbolic links, then a whole run. *)
From Verif Require Export HostProofs.

Record stepped (f g : hostfs) (q : path) (o : option (N * bytes)) : Prop := {
  st_names : forall q', q' <> q -> h_names g q' = h_names f q';
  st_dir : h_names f q = Some HDir -> h_names g q = Some HDir;
  st_inodes : forall i, (forall d, o <> Some (i, d)) -> h_data g i = h_data f i /\ h_mtime g i = h_mtime f i;
  st_open : match o with
            | None => h_next g = h_next f /\ (forall i, h_names g q = Some (HFile i) -> h_names f q = Some (HFile i))
            | Some (i, d) =>
                h_names g q = Some (HFile i) /\ h_data g i = d /\
                ((h_names f q = None /\ i = h_next f /\ h_next g = h_next f + 1) \/
                 (h_names f q = Some (HFile i) /\ h_next g = h_next f))
            end;
  st_dirtime : h_dirtime g = h_dirtime f;
  st_now : h_now g = h_now f }.

Lemma stepped_same f q : stepped f f q None.
Proof. constructor; auto. Qed.

Lemma stepped_name f q v : (forall i, v <> HFile i) -> h_names f q <> Some HDir -> stepped f (set_name f q (Some v)) q None.
Proof.
  intros Hv Hd. constructor; cbn; auto.
  - intros q' Hq. now rewrite path_eqb'_neq.
  - congruence.
  - split; auto. rewrite path_eqb'_refl. intros i E. injection E as ->. now destruct (Hv i).
Qed.

Section Step.
  Variables (a : archive) (cfg : config) (out : path).
  Hypothesis Hshape : shaped (x_base cfg) out.

  Definition chosen (p : path) (nd : node) : bool := should_extract cfg (join p) (is_dir_node nd).

  Lemma one_step f d n nd : dirs_up f (out ++ d) -> Forall ordinary d -> ordinary n ->
    (forall t m, h_names f (out ++ d ++ [n]) = Some (HLink t m) -> exists t', fst nd = KLink t') ->
    let q := out ++ d ++ [n] in
    exists g o r, xone a cfg f (d ++ [n]) nd = (g, o, r) /\
      stepped f g q o /\
      (r = Ok tt -> if chosen (d ++ [n]) nd then placed a (x_policy cfg) f g q nd else unchanged f g q) /\
      (r <> Ok tt -> g = f /\ o = None) /\
      (o <> None -> chosen (d ++ [n]) nd = true) /\
      ((match fst nd with KLink t => utf8 t = true | _ => True end) ->
       (chosen (d ++ [n]) nd = true -> fits a (x_policy cfg) f q nd) -> r = Ok tt).
  Proof.
    intros Hd Ho Hn Hl q.
    assert (HL : forall fl, (fl = true -> forall t, fst nd <> KLink t) ->
      look f fl (abs_path cfg (join (d ++ [n]))) = match h_names f q with None => Missing q | Some x => At q x end).
    { intros fl Hfl. apply look_final; auto. intros t m E. destruct fl; auto. destruct (Hl t m E) as [t' E']. now destruct (Hfl eq_refl t'). }
    fold q in Hl.
    assert (Hun : unchanged f f q) by (split; auto).
    unfold xone, chosen, is_dir_node. destruct nd as [[|size addr|t] mt]; cbn [fst snd is_dir_kind].
    - (* directory *)
      destruct (should_extract cfg (join (d ++ [n])) true) eqn:Es.
      2: { exists f, None, (Ok tt). split; [reflexivity|]. split; [apply stepped_same|]. split; [auto|]. split; [easy|]; split; [auto; try easy|auto]. }
      assert (Hcd : create_dir_all f (abs_path cfg (join (d ++ [n]))) =
        match h_names f q with
        | None => (set_name f q (Some HDir), None)
        | Some HDir => (f, None)
        | Some _ => (f, Some IoExists)
        end).
      { unfold create_dir_all. remember (abs_path cfg (join (d ++ [n]))) as ap.
        assert (Hsnd : snd ap <> []).
        { subst ap. unfold abs_path. cbn [snd]. assert (Hg : Forall good (d ++ [n])).
          { apply Forall_app. split; [|constructor; [now apply ordinary_good|constructor]]. eapply Forall_impl; [|exact Ho]. apply ordinary_good. }
          rewrite iter_pieces, pieces_join by exact Hg. destruct (snd (x_base cfg)); destruct d; easy. }
        destruct ap as [s comps]. cbn [fst snd] in *.
        destruct comps as [|c comps _] using rev_ind; [easy|]. rewrite rev_app_distr. change (rev [c] ++ rev comps) with (c :: rev comps).
        cbn [create_dir_all_rev]. assert (Er : rev (c :: rev comps) = comps ++ [c]) by (cbn [rev]; now rewrite rev_involutive). rewrite Er.
        unfold mkdir at 1. rewrite HL by easy. destruct (h_names f q) as [[|i|t m]|] eqn:Eq; auto.
        - unfold is_dir_path. now rewrite HL by easy.
        - unfold is_dir_path. now rewrite HL by easy.
        - now destruct (Hl t m eq_refl). }
      rewrite Hcd. destruct (h_names f q) as [[|i|t m]|] eqn:Eq.
      + exists f, None, (Ok tt). split; auto. split; [apply stepped_same|]. split; [now intros _|]. split; [easy|]; split; [auto; try easy|auto].
      + exists f, None, (Err (EIo IoExists)). split; auto. split; [apply stepped_same|]. split; [easy|]. split; [auto|]. split; [easy|]. intros _ H. specialize (H eq_refl). destruct H; cbn in H; congruence.
      + now destruct (Hl t m eq_refl).
      + eexists _, None, (Ok tt). split; auto. split; [apply stepped_name; [easy|congruence]|]. split; [|split; [easy|]; split; [auto; try easy|auto]].
        intros _. unfold placed. cbn. now rewrite path_eqb'_refl.
    - (* file *)
      destruct (should_extract cfg (join (d ++ [n])) false) eqn:Es.
      2: { exists f, None, (Ok tt). split; [reflexivity|]. split; [apply stepped_same|]. split; [auto|]. split; [easy|]; split; [auto; try easy|auto]. }
      unfold placed, fits. cbn [fst snd].
      destruct (a_fetch a addr) as [data| | |] eqn:Ef.
      2: { exists f, None, (Ok tt). split; [reflexivity|]. split; [apply stepped_same|]. split; [auto|]. split; [easy|]; split; [auto; try easy|auto]. }
      2,3: exists f, None, Panic; split; auto; split; [apply stepped_same|]; split; [easy|]; split; [auto|]; split; [easy|]; intros _ H; now destruct (H eq_refl).
      set (m := m_mtime mt).
      assert (Htr : forall i, h_names f q = Some (HFile i) ->
        stepped f (set_data (touch (set_data f i []) i) i data) q (Some (i, data)) /\ has_file (set_data (touch (set_data f i []) i) i data) q data).
      { intros i Ei. split.
        - constructor; cbn; auto.
          + intros k Hk. destruct (N.eqb_spec k i) as [->|]; auto. now destruct (Hk data).
          + rewrite N.eqb_refl. auto.
        - exists i. cbn. now rewrite N.eqb_refl. }
      assert (Hot : open_target cfg (join (d ++ [n])) m f =
        match h_names f q with
        | None => (touch (set_data (bump (set_name f q (Some (HFile (h_next f))))) (h_next f) []) (h_next f), Ok (Some (h_next f)))
        | Some x =>
            let trunc := match x with
                         | HFile i => (touch (set_data f i []) i, Ok (Some i))
                         | _ => (f, Err (EIo IoIsDir))
                         end in
            match x_policy cfg with
            | Skip | Warn => (f, Ok None)
            | Newer =>
                match entry_time m with
                | Ok t' => if (match time_of f q with Some t => (t <=? t')%Z | None => false end) then trunc else (f, Ok None)
                | _ => (f, Panic)
                end
            | Overwrite => trunc
            | Error => (f, Err (EFileExists (join (d ++ [n]))))
            end
        end).
      { unfold open_target, open_new, open_trunc, modified, time_of. rewrite !HL by easy.
        destruct (h_names f q) as [[|i|t mm]|] eqn:Eq; try reflexivity; try now destruct (Hl t mm eq_refl). }
      rewrite Hot. clear Hot. unfold by_policy, replaceable, time_of. unfold entry_time, not_older.
      destruct (h_names f q) as [x|] eqn:Eq.
      + assert (Hx : exists tm, match x with HDir => Some (h_dirtime f q) | HFile i => Some (h_mtime f i) | HLink _ mm => Some mm end = Some tm) by (destruct x; eauto).
        destruct Hx as [tm Etm]. rewrite Etm. cbn zeta.
        destruct (x_policy cfg).
        1,2: exists f, None, (Ok tt); split; auto; split; [apply stepped_same|]; split; [auto|]; split; [easy|]; split; [auto; try easy|auto].
        * destruct (N.ltb_spec m (2^63)) as [Hm|Hm].
          2: { exists f, None, Panic. split; auto. split; [apply stepped_same|]. split; [easy|]. split; [auto|]. split; [easy|]. intros _ H. destruct (H eq_refl). fold m in H0. lia. }
          destruct (Z.leb_spec tm (1000000000 * Z.of_N m)) as [Ht|Ht].
          -- destruct x as [|i|t mm].
             ++ exists f, None, (Err (EIo IoIsDir)). split; auto. split; [apply stepped_same|]. split; [easy|]. split; [auto|]. split; [easy|].
                intros _ H. destruct (H eq_refl) as [_ H']. destruct (H' _ eq_refl Ht) as [i E]. discriminate E.
             ++ destruct (Htr i eq_refl) as [T1 T2]. eexists _, _, (Ok tt). split; [reflexivity|]. split; [exact T1|]. split; [|split; [easy|]; split; [auto; try easy|auto]].
                intros _. split; auto. fold m. lia.
             ++ now destruct (Hl t mm eq_refl).
          -- exists f, None, (Ok tt). split; auto. split; [apply stepped_same|]. split; [|split; [easy|]; split; [auto; try easy|auto]]. intros _. fold m. split; auto. lia.
        * destruct x as [|i|t mm].
          -- exists f, None, (Err (EIo IoIsDir)). split; auto. split; [apply stepped_same|]. split; [easy|]. split; [auto|]. split; [easy|]. intros _ H. destruct (H eq_refl) as [i E]. discriminate E.
          -- destruct (Htr i eq_refl) as [T1 T2]. eexists _, _, (Ok tt). split; [reflexivity|]. split; [exact T1|]. split; [auto|split; [easy|]; split; [auto; try easy|auto]].
          -- now destruct (Hl t mm eq_refl).
        * eexists f, None, (Err _). split; auto. split; [apply stepped_same|]. split; [easy|]. split; [auto|]. split; [easy|]. intros _ H. now destruct (H eq_refl).
      + eexists _, _, (Ok tt). split; [reflexivity|]. split; [|split; [|split; [easy|]; split; [auto; try easy|auto]]].
        * constructor; cbn; auto.
          -- intros q' Hq. now rewrite path_eqb'_neq.
          -- congruence.
          -- intros k Hk. destruct (N.eqb_spec k (h_next f)) as [->|]; auto. now destruct (Hk data).
          -- rewrite path_eqb'_refl, N.eqb_refl. repeat split; auto.
        * intros _. exists (h_next f). cbn. now rewrite path_eqb'_refl, N.eqb_refl.
    - (* link *)
      destruct (utf8 t) eqn:Eu.
      2: { exists f, None, (Err EUtf8). split; auto. split; [apply stepped_same|]. split; [easy|]. split; [auto|]. split; [easy|]. congruence. }
      destruct (should_extract cfg (join (d ++ [n])) false) eqn:Es.
      2: { exists f, None, (Ok tt). split; [reflexivity|]. split; [apply stepped_same|]. split; [auto|]. split; [easy|]; split; [auto; try easy|auto]. }
      unfold placed, fits. cbn [fst snd]. set (m := m_mtime mt).
      destruct t as [|c t'].
      { unfold make_link, symlink. exists f, None, (Err (EIo IoNotFound)). split; auto. split; [apply stepped_same|]. split; [easy|]. split; [auto|]. split; [easy|]. intros _ H. now destruct (H eq_refl). }
      set (t := c :: t') in *.
      assert (Hset : forall x, h_names f q = Some x -> x <> HDir -> forall v, set_name (set_name f q None) q (Some v) = set_name (set_name f q None) q (Some v)) by reflexivity.
      assert (Hrm : forall x, h_names f q = Some x -> x <> HDir ->
         look (set_name f q None) false (abs_path cfg (join (d ++ [n]))) = Missing q).
      { intros x Ex Hx. rewrite look_final with (out := out); auto.
        - fold q. cbn [h_names set_name]. now rewrite path_eqb'_refl.
        - intros q' u Eq' Hq'. cbn [h_names set_name]. rewrite path_eqb'_neq; [now apply (Hd q' u)|].
          intros ->. subst q. apply (f_equal (@length _)) in Eq'. rewrite !app_length in Eq'. cbn in Eq'. lia. }
      set (redone := set_name (set_name f q None) q (Some (HLink t (h_now f)))).
      assert (Hre : forall x, h_names f q = Some x -> x <> HDir -> stepped f redone q None /\ has_link redone q t).
      { intros x Ex Hx. subst redone. split.
        - constructor; cbn; auto.
          + intros q' Hq. now rewrite !path_eqb'_neq by auto.
          + congruence.
          + split; auto. now rewrite path_eqb'_refl.
        - exists (h_now f). cbn. now rewrite path_eqb'_refl. }
      assert (Hml : make_link cfg (join (d ++ [n])) t m f =
        match h_names f q with
        | None => (set_name f q (Some (HLink t (h_now f))), Ok tt)
        | Some x =>
            let redo := match x with HDir => (f, Err (EIo IoIsDir)) | _ => (redone, Ok tt) end in
            match x_policy cfg with
            | Skip | Warn => (f, Ok tt)
            | Newer =>
                match entry_time m with
                | Ok t' => if (match time_of f q with Some t => (t <=? t')%Z | None => false end) then redo else (f, Ok tt)
                | _ => (f, Panic)
                end
            | Overwrite => redo
            | Error => (f, Err (ELinkExists (join (d ++ [n]))))
            end
        end).
      { unfold make_link, remove_file, modified, time_of. unfold t at 1 3. unfold symlink. fold t. rewrite !HL by easy.
        destruct (h_names f q) as [[|i|t2 mm]|] eqn:Eq; try reflexivity.
        - unfold symlink. rewrite (Hrm (HFile i)) by easy. reflexivity.
        - unfold symlink. rewrite (Hrm (HLink t2 mm)) by easy. reflexivity. }
      rewrite Hml. clear Hml. unfold by_policy, replaceable, time_of. unfold entry_time, not_older.
      destruct (h_names f q) as [x|] eqn:Eq.
      + assert (Hx : exists tm, match x with HDir => Some (h_dirtime f q) | HFile i => Some (h_mtime f i) | HLink _ mm => Some mm end = Some tm) by (destruct x; eauto).
        destruct Hx as [tm Etm]. rewrite Etm. cbn zeta.
        destruct (x_policy cfg).
        1,2: exists f, None, (Ok tt); split; auto; split; [apply stepped_same|]; split; [auto|]; split; [easy|]; split; [auto; try easy|auto].
        * destruct (N.ltb_spec m (2^63)) as [Hm|Hm].
          2: { exists f, None, Panic. split; auto. split; [apply stepped_same|]. split; [easy|]. split; [auto|]. split; [easy|]. intros _ H. destruct (H eq_refl) as [_ [H0 _]]. fold m in H0. lia. }
          destruct (Z.leb_spec tm (1000000000 * Z.of_N m)) as [Ht|Ht].
          -- destruct x as [|i|t2 mm].
             ++ exists f, None, (Err (EIo IoIsDir)). split; auto. split; [apply stepped_same|]. split; [easy|]. split; [auto|]. split; [easy|].
                intros _ H. destruct (H eq_refl) as [_ [_ H']]. now destruct (H' _ eq_refl Ht).
             ++ destruct (Hre _ eq_refl ltac:(easy)) as [T1 T2]. eexists _, _, (Ok tt). split; [reflexivity|]. split; [exact T1|]. split; [|split; [easy|]; split; [auto; try easy|auto]].
                intros _. split; auto. fold m. lia.
             ++ destruct (Hre _ eq_refl ltac:(easy)) as [T1 T2]. eexists _, _, (Ok tt). split; [reflexivity|]. split; [exact T1|]. split; [|split; [easy|]; split; [auto; try easy|auto]].
                intros _. split; auto. fold m. lia.
          -- exists f, None, (Ok tt). split; auto. split; [apply stepped_same|]. split; [|split; [easy|]; split; [auto; try easy|auto]]. intros _. fold m. split; auto. lia.
        * destruct x as [|i|t2 mm].
          -- exists f, None, (Err (EIo IoIsDir)). split; auto. split; [apply stepped_same|]. split; [easy|]. split; [auto|]. split; [easy|]. intros _ H. now destruct (H eq_refl) as [_ H'].
          -- destruct (Hre _ eq_refl ltac:(easy)) as [T1 T2]. eexists _, _, (Ok tt). split; [reflexivity|]. split; [exact T1|]. split; [auto|split; [easy|]; split; [auto; try easy|auto]].
          -- destruct (Hre _ eq_refl ltac:(easy)) as [T1 T2]. eexists _, _, (Ok tt). split; [reflexivity|]. split; [exact T1|]. split; [auto|split; [easy|]; split; [auto; try easy|auto]].
        * eexists f, None, (Err _). split; auto. split; [apply stepped_same|]. split; [easy|]. split; [auto|]. split; [easy|]. intros _ H. now destruct (H eq_refl).
      + eexists _, _, (Ok tt). split; [reflexivity|]. split; [|split; [|split; [easy|]; split; [auto; try easy|auto]]].
        * apply stepped_name; [easy|congruence].
        * intros _. exists (h_now f). cbn. now rewrite path_eqb'_refl.
  Qed.
End Step.
