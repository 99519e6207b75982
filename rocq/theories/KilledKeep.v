(** Killed extractions with a policy that never replaces, on any table of records. *)
From Verif Require Export KilledProofs AnyKeep.

Section KilledKeep.
  Variables (a : archive) (cfg : config) (sched : nat -> turns) (f : hostfs).
  Hypothesis Hpol : preserving (x_policy cfg).

  Lemma half_link_kept cur t m g : half_link cfg cur t m g = g.
  Proof.
    unfold half_link. destruct (symlink g t (abs_path cfg cur)) as [f1 [e|]]; [|reflexivity].
    destruct e; try reflexivity. destruct Hpol as [->|[->| ->]]; reflexivity.
  Qed.
  Lemma killed_adding n j : preserves (killed_extractor a cfg sched n j) (adding f).
  Proof.
    constructor.
    - intros c Hc. cbn [on_start killed_extractor]. destruct (x_tick c =? n)%nat; [|now apply start_adding]. cbn [fst].
      apply with_fs_adding; [now apply tick_adding|apply create_dir_all_kept].
    - auto.
    - intros c nm Hc. cbn [on_enter killed_extractor]. destruct (x_tick c =? n)%nat; [|now apply enter_adding]. cbn [fst].
      pose proof (tick_adding f sched c Hc) as Ht. destruct (should_extract _ _ _); auto. apply with_fs_adding; auto. apply create_dir_all_kept.
    - intros c d Hc. now apply with_cur_adding.
    - intros c x Hc. cbn [on_file killed_extractor]. destruct (x_tick c =? n)%nat; [now apply tick_adding|now apply file_adding].
    - intros c [[nm t] mt] Hc. cbn [on_link killed_extractor]. destruct (x_tick c =? n)%nat; [|now apply link_adding]. cbn [fst].
      pose proof (tick_adding f sched c Hc) as Ht. destruct (should_extract _ _ _); auto. destruct j; auto. apply with_fs_adding; auto.
      rewrite half_link_kept by auto. apply kept_refl.
  Qed.
End KilledKeep.

Lemma any_killed_kept a rg cfg sched last n j f : preserving (x_policy cfg) -> kept f (killed_run a rg cfg sched last n j f).
Proof.
  intros Hp. unfold killed_run. apply run_turns_adding.
  exact (run_from_range_preserves x_builder a _ _ (killed_adding a cfg sched f Hp n j) (walk_fuel a) rg _ (adding_start f)).
Qed.
