(** Model of extraction, /repo/libarx/src/tools.rs. *)
From Verif Require Export Reader HostFs.

(** The builders, lines 17-113: names and link targets must be UTF-8. *)
Definition of_utf8 (s : bytes) : res bytes := if utf8 s then Ok s else Err EUtf8.
Definition x_builder : builder (bytes * caddr * N) (bytes * bytes * N) bytes :=
  mkBuilder
    (fun _ r => let? p := of_utf8 (r_name r) in
       match r_payload r with RFile c _ => Ok (p, c, r_mtime r) | _ => Panic end)
    (fun _ r => let? p := of_utf8 (r_name r) in
       match r_payload r with RLink t => let? t := of_utf8 t in Ok (p, t, r_mtime r) | _ => Panic end)
    (fun _ r => of_utf8 (r_name r)).

(** lines 115-124 *)
Inductive overwrite := Skip | Warn | Newer | Overwrite | Error.

(** [Extractor], lines 126-138: the files asked for (a hash set of paths), the base directory. *)
Record config := mkConfig {
  x_files : list bytes; x_base : opath; x_recurse : bool; x_policy : overwrite }.

(** [HashSet<PathBuf>::contains] on a path: component-wise equality. *)
Definition contains (files : list bytes) (p : bytes) : bool := existsb (path_eqb p) files.

(** The loop over [parent()] (lines 153-159 and 165-172): does an ancestor satisfy [test]?  The fuel
    (length of the path) is never exhausted. *)
Fixpoint any_parent (fuel : nat) (test : bytes -> bool) (p : bytes) : bool :=
  match fuel with
  | O => false
  | S k => match parent p with
           | Some q => if test q then true else any_parent k test q
           | None => false
           end
  end.

(** [should_extract], lines 141-177 *)
Definition should_extract (cfg : config) (cur : bytes) (is_dir : bool) : bool :=
  match x_files cfg with
  | [] => true
  | files =>
      contains files cur
      || (x_recurse cfg && any_parent (S (length cur)) (contains files) cur)
      || (is_dir && existsb (fun f => any_parent (S (length f)) (path_eqb cur) f) files)
  end.

(** [abs_path], lines 178-180 ([RelativePath::to_path] appends the components). *)
Definition abs_path (cfg : config) (cur : bytes) : opath :=
  (fst (x_base cfg), snd (x_base cfg) ++ path_iter cur).

(** A spawned writer (lines 277-297): the open file, the content, the bytes written so far. *)
Record task := mkTask { t_ino : N; t_data : bytes; t_off : nat; t_done : bool }.

(** One turn of the loop of lines 283-292.  The system accepts [k] of the at most 4096 bytes offered
    (at least one); [None]: the write fails, which ends the task (lines 294-297). *)
Definition write_turn (f : hostfs) (t : task) (outcome : option nat) : hostfs * task * bool :=
  if t_done t then (f, t, false)
  else
    match outcome with
    | None => (f, mkTask (t_ino t) (t_data t) (t_off t) true, true)
    | Some k =>
        let sub := Nat.min (length (t_data t) - t_off t) (4 * 1024) in
        let k := Nat.min sub (Nat.max 1 k) in
        let f' := set_data f (t_ino t) (pwrite (h_data f (t_ino t)) (t_off t) (firstn k (skipn (t_off t) (t_data t)))) in
        let off := (t_off t + k)%nat in
        (f', mkTask (t_ino t) (t_data t) off (off =? length (t_data t))%nat, false)
    end.

(** The walk's context: current path, file system, tasks; [x_failed] is [!extract_ok]; [x_tick]
    counts the callbacks. *)
Record ctx := mkCtx { x_cur : bytes; x_fs : hostfs; x_tasks : list task; x_failed : bool; x_tick : nat }.

Fixpoint replace_nth {A} (n : nat) (x : A) (l : list A) : list A :=
  match n, l with
  | O, _ :: r => x :: r
  | S k, y :: r => y :: replace_nth k x r
  | _, [] => []
  end.

(** A scheduler: before each callback of the walk, the turns the writer tasks take meanwhile, each
    with the answer of the system.  Simplification: turns happen between callbacks, not between the
    system calls of one callback (which do not read file contents). *)
Notation turns := (list (nat * option nat)) (only parsing).
Definition one_turn (c : ctx) (x : nat * option nat) : ctx :=
  match nth_error (x_tasks c) (fst x) with
  | None => c
  | Some t =>
      let '(f, t', bad) := write_turn (x_fs c) t (snd x) in
      mkCtx (x_cur c) f (replace_nth (fst x) t' (x_tasks c)) (x_failed c || bad) (x_tick c)
  end.
Definition run_turns (l : turns) (c : ctx) : ctx := fold_left one_turn l c.

Definition tick (sched : nat -> turns) (c : ctx) : ctx :=
  let c := run_turns (sched (x_tick c)) c in
  mkCtx (x_cur c) (x_fs c) (x_tasks c) (x_failed c) (S (x_tick c)).

Definition with_fs (c : ctx) (f : hostfs) : ctx := mkCtx (x_cur c) f (x_tasks c) (x_failed c) (x_tick c).
Definition with_cur (c : ctx) (p : bytes) : ctx := mkCtx p (x_fs c) (x_tasks c) (x_failed c) (x_tick c).
(** Lift an [io::Result<()>] followed by [?]. *)
Definition io (c : ctx) (x : hostfs * option ioerr) : ctx * res unit :=
  (with_fs c (fst x), match snd x with None => Ok tt | Some e => Err (EIo e) end).

(** [SystemTime::UNIX_EPOCH + Duration::from_secs(mtime)], in nanoseconds; panics on overflow. *)
Definition entry_time (mtime : N) : res Z := if mtime <? 2^63 then Ok (1000000000 * Z.of_N mtime)%Z else Panic.

(** The file to write to, lines 233-275: [None] when the existing file is kept. *)
Definition open_target (cfg : config) (cur : bytes) (mtime : N) (f : hostfs) : hostfs * res (option N) :=
  let p := abs_path cfg cur in
  let trunc := match open_trunc f p with
               | (f', inl i) => (f', Ok (Some i))
               | (f', Datatypes.inr e) => (f', Err (EIo e))
               end in
  match open_new f p with
  | (f', inl i) => (f', Ok (Some i))
  | (f', Datatypes.inr IoExists) =>
      match x_policy cfg with
      | Skip | Warn => (f, Ok None)
      | Newer =>
          match modified f true p with
          | Ok t => match entry_time mtime with
                    | Ok t' => if (t <=? t')%Z then trunc else (f, Ok None)
                    | _ => (f, Panic)
                    end
          | Err e => (f, Err e)
          | Panic => (f, Panic)
          | Diverge => (f, Diverge)
          end
      | Overwrite => trunc
      | Error => (f, Err (EFileExists cur))
      end
  | (f', Datatypes.inr e) => (f', Err (EIo e))
  end.

(** [on_file], lines 215-314; a failing [get_bytes] is unwrapped. *)
Definition x_on_file (a : archive) (cfg : config) (sched : nat -> turns) (c : ctx) (e : bytes * caddr * N) : ctx * res unit :=
  let '(nm, addr, mtime) := e in
  let c := tick sched c in
  let cur := push (x_cur c) nm in
  if should_extract cfg cur false then
    match a_fetch a addr with
    | Found data =>
        match open_target cfg cur mtime (x_fs c) with
        | (f, Ok (Some i)) =>
            (mkCtx (x_cur c) f (x_tasks c ++ [mkTask i data 0 false]) (x_failed c) (x_tick c), Ok tt)
        | (f, Ok None) => (with_fs c f, Ok tt)
        | (f, Err e) => (with_fs c f, Err e)
        | (f, Panic) => (with_fs c f, Panic)
        | (f, Diverge) => (with_fs c f, Diverge)
        end
    | MissingPack => (c, Ok tt)
    | NoContent | FetchErr => (c, Panic)
    end
  else (c, Ok tt).

(** [on_link], lines 315-357. *)
Definition make_link (cfg : config) (cur target : bytes) (mtime : N) (f : hostfs) : hostfs * res unit :=
  let p := abs_path cfg cur in
  let ret (x : hostfs * option ioerr) : hostfs * res unit :=
    (fst x, match snd x with None => Ok tt | Some e => Err (EIo e) end) in
  let redo := match remove_file f p with
              | (f1, None) => ret (symlink f1 target p)
              | (f1, Some e) => (f1, Err (EIo e))
              end in
  match symlink f target p with
  | (f', None) => (f', Ok tt)
  | (f', Some IoExists) =>
      match x_policy cfg with
      | Skip | Warn => (f, Ok tt)
      | Newer =>
          match modified f false p with
          | Ok t => match entry_time mtime with
                    | Ok t' => if (t <=? t')%Z then redo else (f, Ok tt)
                    | _ => (f, Panic)
                    end
          | Err e => (f, Err e)
          | Panic => (f, Panic)
          | Diverge => (f, Diverge)
          end
      | Overwrite => redo
      | Error => (f, Err (ELinkExists cur))
      end
  | (f', Some e) => (f', Err (EIo e))
  end.
Definition x_on_link (cfg : config) (sched : nat -> turns) (c : ctx) (l : bytes * bytes * N) : ctx * res unit :=
  let '(nm, target, mtime) := l in
  let c := tick sched c in
  let cur := push (x_cur c) nm in
  if should_extract cfg cur false then
    let (f, r) := make_link cfg cur target mtime (x_fs c) in (with_fs c f, r)
  else (c, Ok tt).

(** [impl Operator for Extractor], lines 183-357. *)
Definition extractor (a : archive) (cfg : config) (sched : nat -> turns)
  : operator ctx (bytes * caddr * N) (bytes * bytes * N) bytes :=
  mkOp
    (fun c => let c := tick sched c in io c (create_dir_all (x_fs c) (x_base cfg)))      (* 187-190 *)
    (fun c => (c, Ok tt))                                                                (* 192-194 *)
    (fun c nm =>                                                                         (* 196-212 *)
       let c := tick sched c in
       let cur := push (x_cur c) nm in
       let c := with_cur c cur in
       if should_extract cfg cur true then
         andthen (io c (create_dir_all (x_fs c) (abs_path cfg cur))) (fun c _ => (c, Ok true))
       else (c, Ok false))
    (fun c _ => (with_cur c (pop (x_cur c)), Ok tt))                                     (* 213-220 *)
    (x_on_file a cfg sched)
    (x_on_link cfg sched).

(** [extract_arx_range] and [extract_arx], lines 370-432.  The scope waits for every task: [last] is
    the end of the schedule, [Diverge] if it does not complete the tasks. *)
Definition extract_range (a : archive) (rg : range) (cfg : config) (sched : nat -> turns) (last : turns) (f : hostfs)
  : hostfs * res unit :=
  let (c, r) := run_from_range x_builder a (extractor a cfg sched) (walk_fuel a) rg (mkCtx [] f [] false 0) in
  let c := run_turns last c in
  (x_fs c,
   if forallb t_done (x_tasks c) then
     match r with
     | Ok _ => if x_failed c then Err ESomeErrors else Ok tt
     | r => r
     end
   else Diverge).
Definition extract_arx (a : archive) := extract_range a (a_root a).
