(** One more extraction in a directory that is in use. *)
From Verif Require Export StampFacts PropCli2.

Definition kind_there (f : hostfs) (q : path) (nd : node) : Prop :=
  match fst nd with
  | KDir => h_names f q = Some HDir
  | KFile _ _ => exists i, h_names f q = Some (HFile i)
  | KLink _ => exists t m, h_names f q = Some (HLink t m)
  end.
Section Again.
  Variables (l : list entry) (fetch : caddr -> fetched) (a : archive) (f : hostfs) (cfg : config) (out : path).
  Hypothesis Hr : ready l fetch a.
  Hypothesis Htidy : tidy f.
  Hypothesis Hout : outdir f (x_base cfg) out.
  Hypothesis Hkinds : forall p nd, p <> [] -> has l p nd -> h_names f (out ++ p) <> None -> kind_there f (out ++ p) nd.

  Lemma again_setting : setting l fetch a (a_root a) [] f (x_base cfg) out.
  Proof.
    destruct Hr as [R1 R2 R3 R4 R5]. constructor; auto.
    - now left.
    - intros i p Hp Hne. apply (ReadFacts.apath_has l fetch a) in Hp as [nd Hh]; auto. apply Forall_forall. intros n Hn. eapply R3; eauto.
    - intros i p nd t m Hne Hst Hl. assert (Hh : has l p nd) by (apply (archive_has l fetch a); eauto).
      specialize (Hkinds p nd Hne Hh). rewrite Hl in Hkinds. unfold kind_there in Hkinds. rewrite Hl in Hkinds.
      destruct (fst nd) as [|size addr|t']; [discriminate Hkinds; discriminate|destruct Hkinds as [i' E]; [discriminate|discriminate E]|eauto].
  Qed.

  Variables (sched : nat -> turns) (last : turns) (g : hostfs) (res : res unit).
  Hypothesis Hpl : plain_list (x_files cfg).
  Hypothesis Hrun : extract_range a (a_root a) cfg sched last f = (g, res).

  Lemma again_tidy : tidy g /\ outdir g (x_base cfg) out.
  Proof.
    destruct (session_run l fetch a _ [] out f cfg again_setting sched last g res Hrun) as (Hup & _ & _ & _ & _ & Ht & _). split; [exact Ht|].
    destruct Hout as (O1 & O2 & O3 & O4). split; [exact O1|]. split; [exact O2|]. split.
    - intros q x t E. apply (Hup (q ++ [x]) (t ++ filter not_dot (snd (x_base cfg)))); [|now destruct q].
      rewrite O2, E, <- !app_assoc. reflexivity.
    - intros q t E Hq. right. eapply Hup; eauto.
  Qed.
  Lemma again_bystanders p : p <> [] -> (forall nd, has l p nd -> ~ selected (x_files cfg) (x_recurse cfg) p (is_dir_node nd)) -> unchanged f g (out ++ p).
  Proof.
    intros Hp Hno. destruct (C32_bystanders l fetch a _ [] f cfg out sched last g res (out ++ p) again_setting Hpl Hrun) as [H|(_ & _ & t & E)]; auto.
    - intros p' nd Hp' Hh Hs E. apply app_inv_head in E. subst p'. now apply (Hno nd).
    - exfalso. apply (f_equal (@length _)) in E. rewrite !app_length in E. destruct p; [easy|cbn in E; lia].
  Qed.
  Lemma again_placed : res = Ok tt -> forall p nd, p <> [] -> has l p nd -> selected (x_files cfg) (x_recurse cfg) p (is_dir_node nd) ->
    placed a (x_policy cfg) f g (out ++ p) nd.
  Proof. intros E p nd Hp Hh Hs. rewrite E in Hrun. exact (C30_selected_extracted l fetch a (a_root a) [] f cfg out sched last g p nd again_setting Hpl Hrun Hp Hh Hs). Qed.
  Lemma again_ok : goes_on (x_policy cfg) l -> quiet sched last -> res <> Diverge -> res = Ok tt.
  Proof.
    intros Hg Hq Hd. eapply (C32_goes_on l fetch a _ [] f cfg out); eauto; [apply again_setting| |].
    - intros p t mt _ Hh. eapply rd_targets; eauto.
    - intros p nd Hp Hh _. cbn [app] in Hh. unfold fits.
      assert (Hrep : forall fine : hnode -> Prop, (forall n, h_names f (out ++ p) = Some n -> fine n) -> replaceable (x_policy cfg) f (out ++ p) (m_mtime (snd nd)) fine).
      { intros fine Hfine. unfold replaceable. destruct (h_names f (out ++ p)) as [n|] eqn:E; auto. unfold goes_on in Hg.
        destruct (x_policy cfg); auto. split; [eapply Hg; eauto|]. intros t _ _. auto. }
      pose proof (Hkinds p nd Hp Hh) as Hk. unfold kind_there in Hk. destruct (fst nd) as [|size addr|t] eqn:Ek.
      + destruct (h_names f (out ++ p)) eqn:E; auto. right. apply Hk. discriminate.
      + destruct nd as [k mt]. cbn [fst snd] in *. subst k. destruct (rd_bytes _ _ _ Hr p size addr mt Hh) as [data Hd'].
        rewrite <- (session_fetch l fetch a _ [] out f cfg again_setting) in Hd'. rewrite Hd'. apply Hrep. intros n E. rewrite E in Hk.
        destruct Hk as [i Ei]; [discriminate|]. injection Ei as ->. eauto.
      + destruct nd as [k mt]. cbn [fst snd] in *. subst k. destruct (rd_targets _ _ _ Hr p t mt Hh) as [_ Ht]. split; [exact Ht|].
        apply Hrep. intros n E. rewrite E in Hk. destruct Hk as (t' & m' & Ei); [discriminate|]. injection Ei as ->. discriminate.
  Qed.
End Again.

Lemma at_time_tidy f t : tidy f -> tidy (later f t).
Proof. intros [A B C D]. constructor; auto. Qed.
Lemma at_time_outdir f t base out : outdir f base out -> outdir (later f t) base out.
Proof. intros H. exact H. Qed.

Lemma shown_unchanged fetch f g q nd : unchanged f g q -> is_shown fetch f q nd -> is_shown fetch g q nd.
Proof.
  intros [U1 U2] H. unfold is_shown in *. destruct (fst nd) as [|size addr|t].
  - now rewrite U1.
  - destruct H as (data & Hd & i & E & D). exists data. split; [exact Hd|]. exists i. rewrite U1. split; [exact E|]. destruct (U2 i E) as [-> _]. exact D.
  - destruct H as [m E]. exists m. now rewrite U1.
Qed.
Lemma shown_kind fetch f q nd : is_shown fetch f q nd -> kind_there f q nd.
Proof.
  unfold is_shown, kind_there. destruct (fst nd) as [|size addr|t]; auto.
  - intros (data & _ & i & E & _). eauto.
  - intros [m E]. eauto.
Qed.
Lemma time_some f q : h_names f q <> None -> exists t, time_of f q = Some t.
Proof. unfold time_of. destruct (h_names f q) as [[|i|t m]|]; [eauto|eauto|eauto|easy]. Qed.

Section Part.
  Variables (l : list entry) (fetch : caddr -> fetched) (a : archive) (cfg : config) (out : path).
  Hypothesis Hr : ready l fetch a.
  Hypothesis Hpl : plain_list (x_files cfg).

  Lemma asked_dec p nd : p <> [] -> has l p nd ->
    asked (x_files cfg) (x_recurse cfg) p nd \/ ~ asked (x_files cfg) (x_recurse cfg) p nd.
  Proof.
    intros Hp Hh. assert (Hd : handled p).
    { apply (archive_has l fetch a) in Hh as [i (r & _ & Hap & _)]; [|apply (rd_small _ _ _ Hr)|apply (rd_built _ _ _ Hr)].
      apply (plain_handled a []) with (i := i); [|exact Hap].
      intros j q Hq Hne. apply (ReadFacts.apath_has l fetch a) in Hq as [nd' Hh']; [|apply (rd_small _ _ _ Hr)|apply (rd_built _ _ _ Hr)].
      apply Forall_forall. intros n Hn. eapply rd_names; eauto. }
    unfold asked. rewrite <- (is_selected cfg p _ Hpl Hp Hd). destruct (should_extract cfg (join p) _); [now left|now right].
  Qed.
  Lemma has_dec p : (exists nd, has l p nd) \/ forall nd, ~ has l p nd.
  Proof.
    destruct (archive_ok l fetch a (rd_small _ _ _ Hr) (rd_built _ _ _ Hr)) as (m & Hm & _). destruct (m p) as [nd|] eqn:E.
    - left. exists nd. now apply Hm.
    - right. intros nd H. apply Hm in H. congruence.
  Qed.

  Variables (f g : hostfs) (sel : path -> node -> Prop) (sched : nat -> turns) (last : turns) (res : res unit).
  Hypothesis Htidy : tidy f.
  Hypothesis Hout : outdir f (x_base cfg) out.
  Hypothesis Hpart : holds_part l fetch f out sel.
  Hypothesis Hrun : extract_range a (a_root a) cfg sched last f = (g, res).

  Lemma part_kinds p nd : p <> [] -> has l p nd -> h_names f (out ++ p) <> None -> kind_there f (out ++ p) nd.
  Proof.
    intros Hp Hh Hn. destruct (Hpart p Hp) as [H1 H2]. destruct (H2 Hn) as (nd' & Hh' & Hs).
    rewrite (has_fun _ _ _ _ Hh Hh') in *. apply (shown_kind fetch). auto.
  Qed.
  Lemma part_step : res = Ok tt -> holds_part l fetch g out (fun p nd => sel p nd \/ asked (x_files cfg) (x_recurse cfg) p nd).
  Proof.
    intros Hok p Hp. pose proof (again_bystanders l fetch a f cfg out Hr Htidy Hout part_kinds sched last g res Hpl Hrun p Hp) as Hby.
    pose proof (again_placed l fetch a f cfg out Hr Htidy Hout part_kinds sched last g res Hpl Hrun Hok) as Hplc.
    destruct (Hpart p Hp) as [H1 H2].
    assert (Hother : forall nd, has l p nd -> ~ asked (x_files cfg) (x_recurse cfg) p nd -> unchanged f g (out ++ p)).
    { intros nd Hh Hn. apply Hby. intros nd' Hh' Hs. apply Hn. rewrite (has_fun _ _ _ _ Hh Hh'). unfold asked. destruct nd' as [[| |] mt]; exact Hs. }
    split.
    - intros nd Hh Hs. destruct (asked_dec p nd Hp Hh) as [Ha|Ha].
      2: { destruct Hs as [Hs|Hs]; [|easy]. apply (shown_unchanged fetch f g); [eapply Hother; eauto|auto]. }
      assert (Hpc : placed a (x_policy cfg) f g (out ++ p) nd) by (apply Hplc; auto; destruct nd as [[| |] mt]; exact Ha).
      assert (Hpol : forall P : Prop, by_policy (x_policy cfg) f g (out ++ p) (m_mtime (snd nd)) P -> (P -> is_shown fetch g (out ++ p) nd) -> is_shown fetch g (out ++ p) nd).
      { intros P Hb Hi. unfold by_policy in Hb. destruct (time_of f (out ++ p)) as [t|] eqn:Et; [|auto].
        assert (Hsh : is_shown fetch f (out ++ p) nd).
        { destruct H2 as (nd' & Hh' & Hs'); [intros E; unfold time_of in Et; rewrite E in Et; discriminate Et|].
          rewrite (has_fun _ _ _ _ Hh Hh') in *. auto. }
        destruct (x_policy cfg); try easy; try (now apply (shown_unchanged fetch f g)); auto.
        destruct Hb as [B1 B2]. destruct (Z_le_dec t (1000000000 * Z.of_N (m_mtime (snd nd)))) as [Hle|Hle]; [auto|].
        now apply (shown_unchanged fetch f g); auto. }
      unfold placed in Hpc. rewrite (session_fetch l fetch a _ [] out f cfg (again_setting l fetch a f cfg out Hr Htidy Hout part_kinds)) in Hpc.
      destruct nd as [[|size addr|t] mt]; cbn [fst] in *.
      + exact Hpc.
      + destruct (rd_bytes _ _ _ Hr p size addr mt Hh) as [data Hd]. rewrite Hd in Hpc. apply (Hpol _ Hpc). intros Hf. exists data. auto.
      + apply (Hpol _ Hpc). auto.
    - intros Hn. destruct (has_dec p) as [[nd Hh]|Hno].
      + exists nd. split; [exact Hh|]. destruct (asked_dec p nd Hp Hh) as [Ha|Ha]; [now right|]. left.
        destruct (Hother nd Hh Ha) as [U _]. rewrite U in Hn. destruct (H2 Hn) as (nd' & Hh' & Hs). now rewrite (has_fun _ _ _ _ Hh Hh').
      + exfalso. destruct Hby as [U _]; [intros nd Hh; now apply Hno in Hh|]. rewrite U in Hn. destruct (H2 Hn) as (nd' & Hh' & _). now apply Hno in Hh'.
  Qed.
End Part.
