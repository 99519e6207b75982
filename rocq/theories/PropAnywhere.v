(** C77, continued: a created archive, mounted or read from Python, wherever its bytes are found. *)
From Verif Require Export PropMain PyOpen PropMountCmd.

Lemma shown_at parse w s d a : shows_file w s d -> parse d = Ok a -> archive_at parse w s a.
Proof. intros (q & i & H & <-) Hp. exists q, i. auto. Qed.

(** Mounted by [arx mount] (in the foreground or not, on a given directory or one it makes), the mount
    shows exactly the inputs and the directories above them. *)
Theorem C77_mount : forall parse w o w' inputs d w2 s env md fg m g h st p out, made_from parse w o w' inputs d -> shows_file w2 s d -> presentable w' inputs ->
  mr_mounted (mount_cmd parse w2 env s md None fg) = Some (m, g) ->
  resolves (at_archive m) (at_range m) h st p out -> p <> [] ->
  match out with
  | Refused _ => (forall q n, ~ source_at w' inputs p q n) /\ ~ made_above inputs p
  | Reached ino k =>
      (made_above inputs p -> k = FtDir) /\
      ((exists q n, source_at w' inputs p q n) \/ made_above inputs p) /\
      forall q n, source_at w' inputs p q n ->
      (exists t, snd (Fuse.step (at_archive m) (at_range m) st (Fuse.Getattr ino)) = Ok (Fuse.RAttr t) /\ Fuse.at_kind t = k /\
         Fuse.at_uid t = FsAdder.at_uid (w_attr w' q) mod 2^32 /\ Fuse.at_gid t = FsAdder.at_gid (w_attr w' q) mod 2^32 /\
         Z.of_N (Fuse.at_mtime t) = FsAdder.at_mtime (w_attr w' q) /\
         forall j, N.testbit (Fuse.at_perm t) j = N.testbit (FsAdder.at_mode (w_attr w' q)) j && (j <? 16) && negb ((j =? 1) || (j =? 4) || (j =? 7))) /\
      match n with
      | HDir => k = FtDir
      | HLink t _ => k = FtLink /\ snd (Fuse.step (at_archive m) (at_range m) st (Fuse.Readlink ino)) = Ok (Fuse.RData t)
      | HFile i => k = FtFile /\ snd (Fuse.step (at_archive m) (at_range m) st (Fuse.Open ino)) = Ok Fuse.ROpened /\
          (releases ino h < SpecFuse.opens ino h -> forall sizes, (length (h_data (w_fs w') i) <= list_sum (map N.to_nat sizes))%nat ->
             reading (at_archive m) (at_range m) st ino 0 sizes = Ok (h_data (w_fs w') i))
      end
  end.
Proof.
  intros parse w o w' inputs d w2 s env md fg m g h st p out (a & Ha & Hc) Hs Hpr Hm.
  pose proof (C68_mounted _ _ _ _ _ _ _ _ _ Hm) as ((q & i & H1 & H2) & _ & H3 & _).
  assert (E : at_archive m = a). { destruct Hs as (q' & i' & H1' & H2'). assert (i' = i) as -> by congruence. rewrite H2' in H2. congruence. }
  rewrite H3, E. exact (C64_mount w o w' inputs a h st p out Hc Hpr).
Qed.
Print Assumptions C77_mount.

(** It is mounted when a directory is given and the path of the archive is UTF-8. *)
Theorem C77_mounts : forall parse w o w' inputs d w2 s env dir fg, made_from parse w o w' inputs d -> shows_file w2 s d ->
  utf8 (abs_string w2 s) = true -> (fg = true \/ en_daemon env = true) ->
  exists m, mr_mounted (mount_cmd parse w2 env s (Some dir) None fg) = Some (m, w_fs w2) /\ In RO (at_options m).
Proof.
  intros parse w o w' inputs d w2 s env dir fg (a & Ha & Hc) Hs Hu Hfg.
  destruct (created_session _ _ _ _ _ Hc) as (l & contents & Hsm & Har & _).
  destruct (C68_accepts parse w2 env s dir None [] fg l _ a Hsm Har (shown_at _ _ _ _ _ Hs Ha) eq_refl Hu Hfg) as (m & Hm & _).
  exists m. split; [exact Hm|]. apply (C68_mounted _ _ _ _ _ _ _ _ _ Hm).
Qed.
Print Assumptions C77_mounts.

(** A Python program that opens it finds exactly them. *)
Theorem C77_python : forall parse w o w' inputs d w2 s, made_from parse w o w' inputs d -> shows_file w2 s d ->
  exists a, py_open parse w2 s = Ok a /\
  forall x p, stands_for x p -> p <> [] ->
  (forall q n, source_at w' inputs p q n -> exists e, py_get_entry a x = Ok e /\
     match n with
     | HDir => py_is_dir e = true
     | HLink t _ => py_is_link e = true /\ py_get_target e = Ok t
     | HFile i => py_is_file e = true /\ exists st, py_get_content a e = Ok st /\
         forall ns, N.of_nat (length (h_data (w_fs w') i)) <= fold_right N.add 0 ns -> concat (snd (reads st ns)) = h_data (w_fs w') i
     end) /\
  ((forall q n, ~ source_at w' inputs p q n) -> ~ made_above inputs p -> raises (py_get_entry a x)).
Proof.
  intros parse w o w' inputs d w2 s (a & Ha & Hc) Hs. exists a. unfold py_open. rewrite (PropMain.opened parse _ _ _ Hs), Ha. split; [reflexivity|].
  intros x p. exact (C64_python w o w' inputs a x p Hc).
Qed.
Print Assumptions C77_python.

(** Its [extract] into an empty directory gives the inputs back when it returns without an exception. *)
Theorem C77_python_extract : forall parse w o w' inputs d w2 s a dir out sched last g r, made_from parse w o w' inputs d -> shows_file w2 s d ->
  py_open parse w2 s = Ok a ->
  tidy (w_fs w2) -> outdir (w_fs w2) (if is_abs dir then [] else w_cwd w2, pieces dir) out -> (forall p, p <> [] -> h_names (w_fs w2) (out ++ p) = None) ->
  py_extract w2 a dir sched last = (g, r) ->
  (quiet sched last -> r <> Diverge -> r = Ok tt) /\
  (r = Ok tt ->
   (forall p q n, source_at w' inputs p q n -> p <> [] ->
      match n with
      | HDir => h_names g (out ++ p) = Some HDir
      | HFile i => has_file g (out ++ p) (h_data (w_fs w') i)
      | HLink t _ => has_link g (out ++ p) t
      end) /\
   (forall p, made_above inputs p -> h_names g (out ++ p) = Some HDir) /\
   (forall p, p <> [] -> h_names g (out ++ p) <> None -> (exists q n, source_at w' inputs p q n) \/ made_above inputs p)) /\
  (forall q, ~ below out q ->
     unchanged (w_fs w2) g q \/ (h_names (w_fs w2) q = None /\ h_names g q = Some HDir /\ exists t, out = q ++ t)).
Proof.
  intros parse w o w' inputs d w2 s a dir out sched last g r (a' & Ha & Hc) Hs Ho Ht Hout Hempty Hrun.
  unfold py_open in Ho. rewrite (PropMain.opened parse _ _ _ Hs), Ha in Ho. injection Ho as ->.
  exact (C64_extract w o w' inputs a w2 (Some dir) out true Warn sched last g r Hc Ht Hout Hempty Hrun).
Qed.
Print Assumptions C77_python_extract.

(** What is no archive is an exception for a Python program. *)
Theorem C77_python_refuses : forall parse w s, (forall d, shows_file w s d -> exists err, parse d = Err err) -> raises (py_open parse w s).
Proof.
  intros parse w s H. unfold py_open, open_archive. destruct (look_str w true s) as [q n|q|e] eqn:El; [|eexists; reflexivity..].
  destruct n as [|i|t m]; [eexists; reflexivity| |eexists; reflexivity].
  destruct (H (h_data (w_fs w) i)) as (e & ->); [exists q, i; auto|eexists; reflexivity].
Qed.
Print Assumptions C77_python_refuses.

(** The copy of [C77_meets_hypotheses], mounted on "d" in the background, and opened by a Python program. *)
Example C77_anywhere_meets_hypotheses : exists a, let parse := fun _ : bytes => Ok a in
  made_from parse src_world o_two src_world two_inputs (b "out.arx!") /\ shows_file w_copy (b "l/copy") (b "out.arx!") /\ presentable src_world two_inputs /\
  utf8 (abs_string w_copy (b "l/copy")) = true /\ en_daemon (mc_env (Ok tt)) = true /\
  (exists m g, mr_mounted (mount_cmd parse w_copy (mc_env (Ok tt)) (b "l/copy") (Some (b "d")) None false) = Some (m, g) /\ at_archive m = a) /\
  py_open parse w_copy (b "l/copy") = Ok a /\
  (exists e st, py_get_entry a (b "ln/./a/f.txt") = Ok e /\ py_get_content a e = Ok st /\ concat (snd (reads st [2; 7])) = b "hello") /\
  source_at src_world two_inputs [b "ln"; b "a"; b "f.txt"] [b "h"; b "src"; b "a"; b "f.txt"] (HFile 0).
Proof.
  destruct C64_meets_hypotheses as (a & Hc & Hp & _). exists a. intros parse.
  assert (Hs : shows_file w_copy (b "l/copy") (b "out.arx!")) by (exists [b "t"; b "d"; b "copy"], 0; split; vm_compute; reflexivity).
  assert (Hm : made_from parse src_world o_two src_world two_inputs (b "out.arx!")) by (exists a; split; [reflexivity|exact Hc]).
  assert (Hsrc : source_at src_world two_inputs [b "ln"; b "a"; b "f.txt"] [b "h"; b "src"; b "a"; b "f.txt"] (HFile 0)).
  { exists (mkInput (b "./ln/") src_root HDir [b "ln"] 2), [b "a"; b "f.txt"]. split; [right; now left|]. repeat split. }
  split; [exact Hm|]. split; [exact Hs|]. split; [exact Hp|]. split; [vm_compute; reflexivity|]. split; [reflexivity|]. split; [|split; [|split; [|exact Hsrc]]].
  - assert (Hu : utf8 (abs_string w_copy (b "l/copy")) = true) by (vm_compute; reflexivity).
    destruct (C77_mounts parse _ _ _ _ _ w_copy (b "l/copy") (mc_env (Ok tt)) (b "d") false Hm Hs Hu (or_intror eq_refl)) as (m & Em & _).
    exists m, (w_fs w_copy). split; [exact Em|]. pose proof (C68_mounted _ _ _ _ _ _ _ _ _ Em) as ((q & i & _ & H) & _). now injection H as <-.
  - unfold py_open. rewrite (PropMain.opened parse _ _ _ Hs). reflexivity.
  - destruct (C77_python parse _ _ _ _ _ w_copy (b "l/copy") Hm Hs) as (a' & Ea & H).
    unfold py_open in Ea. rewrite (PropMain.opened parse _ _ _ Hs) in Ea. injection Ea as <-.
    destruct (H (b "ln/./a/f.txt") [b "ln"; b "a"; b "f.txt"]) as [H1 _]; [|discriminate|].
    { split; [vm_compute; reflexivity|vm_compute; reflexivity]. }
    destruct (H1 _ _ Hsrc) as (e & E1 & _ & st & E2 & E3). exists e, st. split; [exact E1|]. split; [exact E2|]. apply E3. vm_compute. discriminate.
Qed.
