(** Histories of runs of all the tools (C104). *)
From Verif Require Export SpecMain ConvertHost SpecPyHost.

(** Not an extraction that may replace what is there. *)
Definition sparing (inv : invocation) : Prop :=
  match inv with IExtract _ _ _ _ _ _ pol => pol = Skip \/ pol = Warn \/ pol = Error | _ => True end.
(** The run ended, and was not an extraction. *)
Definition neat (inv : invocation) (e : option ending) : bool :=
  match inv, e with IExtract _ _ _ _ _ _ _, _ => false | _, Some _ => true | _, None => false end.

(** What a run may put, and where: complete files of the archive it creates, beside or at its output. *)
Definition arx_puts (J : jbk) (w : world) (inv : invocation) (q : path) (d : bytes) : Prop :=
  match inv with
  | ICreate o => exists fuel can_open dir n m k a, out_place w (o_out o) = Some (dir, n) /\
      create fuel w can_open o = ([Opened m; Written a], Ok tt) /\ In k (jb_names J m n) /\ q = dir ++ [k] /\ complete J m n k a d
  | _ => False
  end.
Definition converter_puts (J : jbk) (A : surroundings) (w : world) (P : program) (q : path) (d : bytes) : Prop :=
  exists out can_open dir n m y k a, program_out P = Some out /\ out_place w out = Some (dir, n) /\
    program_main A w P can_open = ([COpened out m y; CWritten out a], Ok tt) /\ In k (jb_names J m n) /\ q = dir ++ [k] /\ complete J m n k a d.
(** A [Creator] whose output, as given, is [s]: where that leads at some moment of its life, from some
    current directory. *)
Definition creator_place (J : jbk) (fuel : nat) (s : bytes) (dir : path) (n : bytes) (f : hostfs) (q : path) : Prop :=
  exists x w dir', py_quiet J fuel s dir n f x /\ w_fs w = ph_fs x /\ out_place w s = Some (dir', n) /\ q = dir' ++ [n].
Definition creator_puts (J : jbk) (fuel : nat) (s : bytes) (dir : path) (n : bytes) (f : hostfs) (calls : list pycall) (q : path) (d : bytes) : Prop :=
  creator_place J fuel s dir n f q /\ py_whole J fuel n calls d.

(** One run, finished or killed at any system call: what it may put, whether it is [neat], the host it
    leaves.  A [Creator] (any life of one), [Arx.extract]. *)
Inductive tool_run (parse : bytes -> res archive) (J : jbk) (f : hostfs) : (path -> bytes -> Prop) -> bool -> hostfs -> Prop :=
| with_arx w dv inv g x e : w_fs w = f -> sparing inv -> arx_run parse J w dv inv g x e ->
    tool_run parse J f (arx_puts J w inv) (neat inv e) g
| with_converter A w can_open P g x : w_fs w = f -> convert_run J A w can_open P x g ->
    tool_run parse J f (converter_puts J A w P) (match x with Some _ => true | None => false end) g
| with_creator fuel w s dir n x : w_fs w = f -> out_place w s = Some (dir, n) -> py_quiet J fuel s dir n f x ->
    tool_run parse J f (creator_puts J fuel s dir n f (ph_calls x)) (match ph_stage x with Closed _ => true | _ => false end) (ph_fs x)
| with_py_extract w a dir sched last g r : w_fs w = f -> py_extract w a dir sched last = (g, r) ->
    tool_run parse J f (fun _ _ => False) false g
| with_py_extract_killed w a dir sched last n j : w_fs w = f ->
    tool_run parse J f (fun _ _ => False) false
      (killed_run a (a_root a) (mkConfig [] ((if is_abs dir then [] else w_cwd w), pieces dir) true Warn) sched last n j f).

(** Runs one after the other, at any times; nothing else changes the files in between. *)
Inductive tool_runs (parse : bytes -> res archive) (J : jbk) (f : hostfs) : (path -> bytes -> Prop) -> bool -> hostfs -> Prop :=
| tools_none : tool_runs parse J f (fun _ _ => False) true f
| tools_more W c g t V c' h : tool_runs parse J f W c g -> tool_run parse J (at_time t g) V c' h ->
    tool_runs parse J f (fun q d => W q d \/ V q d) (c && c') h.
