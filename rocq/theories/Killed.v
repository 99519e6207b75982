(** Model of an extraction whose process is killed, /repo/libarx/src/tools.rs: the same system calls
    up to some point, then none.  The program has no cleanup, no temporary names and no handler for
    signals (there is none in tools.rs), so what was done stays as it is. *)
From Verif Require Export Extract.

(** [create_dir_all] makes the missing directories from the top down: stopped after some of them, it
    has done the same as for a prefix of the path. *)
Definition part (j : nat) (p : opath) : opath := (fst p, firstn j (snd p)).

(** [on_link], tools.rs lines 323-350, stopped between [remove_file] and the second [symlink]. *)
Definition half_link (cfg : config) (cur target : bytes) (mtime : N) (f : hostfs) : hostfs :=
  let p := abs_path cfg cur in
  match symlink f target p with
  | (_, Some IoExists) =>
      match x_policy cfg with
      | Newer =>
          match modified f false p with
          | Ok t => match entry_time mtime with
                    | Ok t' => if (t <=? t')%Z then fst (remove_file f p) else f
                    | _ => f
                    end
          | _ => f
          end
      | Overwrite => fst (remove_file f p)
      | Skip | Warn | Error => f
      end
  | _ => f
  end.

(** [impl Operator for Extractor], tools.rs lines 183-357, for a process killed during its [n]-th
    callback ([on_exit] makes no system call and is not counted).  [j]: how far it came in that
    callback.  [on_file] changes the file system by a single call, which creates or truncates the file;
    stopped after it, the state is that of a process killed at the next callback. *)
Definition killed_extractor (a : archive) (cfg : config) (sched : nat -> turns) (n j : nat)
  : operator ctx (bytes * caddr * N) (bytes * bytes * N) bytes :=
  let x := extractor a cfg sched in
  mkOp
    (fun c => if (x_tick c =? n)%nat
              then let c := tick sched c in
                   (with_fs c (fst (create_dir_all (x_fs c) (part j (x_base cfg)))), Err (EIo IoOther))
              else on_start x c)
    (on_stop x)
    (fun c nm => if (x_tick c =? n)%nat
                 then let c := tick sched c in
                      let cur := push (x_cur c) nm in
                      (if should_extract cfg cur true
                       then with_fs c (fst (create_dir_all (x_fs c) (part j (abs_path cfg cur)))) else c,
                       Err (EIo IoOther))
                 else on_enter x c nm)
    (on_exit x)
    (fun c e => if (x_tick c =? n)%nat then (tick sched c, Err (EIo IoOther)) else on_file x c e)
    (fun c l => if (x_tick c =? n)%nat
                then let c := tick sched c in
                     let '(nm, target, mtime) := l in
                     let cur := push (x_cur c) nm in
                     (if should_extract cfg cur false
                      then match j with O => c | S _ => with_fs c (half_link cfg cur target mtime (x_fs c)) end else c,
                      Err (EIo IoOther))
                else on_link x c l).

(** [extract_arx_range], tools.rs lines 370-420, killed: the writers got the turns of [sched] and [last]
    and are then gone, whatever they had left.  With a large [n] the walk had completed. *)
Definition killed_run (a : archive) (rg : range) (cfg : config) (sched : nat -> turns) (last : turns) (n j : nat)
  (f : hostfs) : hostfs :=
  x_fs (run_turns last
    (fst (run_from_range x_builder a (killed_extractor a cfg sched n j) (walk_fuel a) rg (mkCtx [] f [] false 0)))).

(** The clock of the host between two runs (environment). *)
Definition at_time (t : Z) (f : hostfs) : hostfs :=
  mkHost (h_names f) (h_data f) (h_mtime f) (h_next f) (h_dirtime f) t.
