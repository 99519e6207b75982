(** Extraction at the level of system calls: /repo/libarx/src/tools.rs with the writers and other
    processes acting before each system call, and a bound on the number of open files.  Extract.v is the
    same code with writers acting before each callback only (see C79). *)
From Verif Require Export Extract.

(** What may happen between two system calls of the walk: one turn of the writer [k] with the answer of
    the system (as in Extract.v), or another process changes the file system. *)
Inductive fevent := Turn (k : nat) (o : option nat) | Env (g : hostfs -> hostfs).

(** What the extraction itself did (ghost): a call other than a successful open, the open of the file [i]
    for writing, a write to it; with the file system just before and after. *)
Inductive act := Called (f f' : hostfs) | Opened (f f' : hostfs) (i : N) | Wrote (f f' : hostfs) (i : N).

Record fctx := mkFctx {
  fx_cur : bytes; fx_fs : hostfs; fx_tasks : list task; fx_failed : bool;
  fx_calls : nat;             (* how many system calls the walk made *)
  fx_acts : list act }.
Definition fine_start (f : hostfs) : fctx := mkFctx [] f [] false 0 [].
Definition did (c : fctx) (f : hostfs) (x : act) : fctx :=
  mkFctx (fx_cur c) f (fx_tasks c) (fx_failed c) (fx_calls c) (fx_acts c ++ [x]).
Definition at_path (c : fctx) (p : bytes) : fctx :=
  mkFctx p (fx_fs c) (fx_tasks c) (fx_failed c) (fx_calls c) (fx_acts c).

(** A turn of a writer: lines 283-297. *)
Definition happen (c : fctx) (e : fevent) : fctx :=
  match e with
  | Env g => mkFctx (fx_cur c) (g (fx_fs c)) (fx_tasks c) (fx_failed c) (fx_calls c) (fx_acts c)
  | Turn k o =>
      match nth_error (fx_tasks c) k with
      | None => c
      | Some t =>
          let '(f, t', bad) := write_turn (fx_fs c) t o in
          mkFctx (fx_cur c) f (replace_nth k t' (fx_tasks c)) (fx_failed c || bad) (fx_calls c)
            (fx_acts c ++ [Wrote (fx_fs c) f (t_ino t)])
      end
  end.

(** The events before the next system call. *)
Definition gap (sched : nat -> list fevent) (c : fctx) : fctx :=
  let c := fold_left happen (sched (fx_calls c)) c in
  mkFctx (fx_cur c) (fx_fs c) (fx_tasks c) (fx_failed c) (S (fx_calls c)) (fx_acts c).
(** A system call. *)
Definition sys {A} (sched : nat -> list fevent) (call : hostfs -> hostfs * A) (c : fctx) : fctx * A :=
  let c := gap sched c in
  let (f, r) := call (fx_fs c) in (did c f (Called (fx_fs c) f), r).
(** One that gives a descriptor: it fails (EMFILE, nothing done) when the writers that are not done
    already hold [lim] files. *)
Definition sys_open (lim : option nat) (sched : nat -> list fevent) (call : hostfs -> hostfs * (N + ioerr)) (c : fctx)
  : fctx * (N + ioerr) :=
  let c := gap sched c in
  let full := match lim with
              | None => false
              | Some n => (n <=? length (filter (fun t => negb (t_done t)) (fx_tasks c)))%nat
              end in
  if full then (c, Datatypes.inr IoOther)
  else match call (fx_fs c) with
       | (f, inl i) => (did c f (Opened (fx_fs c) f i), inl i)
       | (f, Datatypes.inr e) => (did c f (Called (fx_fs c) f), Datatypes.inr e)
       end.

(** [std::fs::create_dir_all]: mkdir, the parents if it says ENOENT, mkdir again; on another error,
    stat. *)
Definition is_dir_call (start : path) (comps : list bytes) (f : hostfs) : hostfs * bool := (f, is_dir_path f (start, comps)).
Definition mkdir_call (start : path) (comps : list bytes) (f : hostfs) : hostfs * option ioerr := mkdir f (start, comps).
Fixpoint fine_dir_rev (sched : nat -> list fevent) (c : fctx) (start : path) (rev_comps : list bytes) : fctx * option ioerr :=
  match rev_comps with
  | [] => (c, None)
  | _ :: parent =>
      match sys sched (mkdir_call start (rev rev_comps)) c with
      | (c1, None) => (c1, None)
      | (c1, Some IoNotFound) =>
          match fine_dir_rev sched c1 start parent with
          | (c2, None) =>
              match sys sched (mkdir_call start (rev rev_comps)) c2 with
              | (c3, None) => (c3, None)
              | (c3, Some e) => let (c4, d) := sys sched (is_dir_call start (rev rev_comps)) c3 in
                                if d : bool then (c4, None) else (c4, Some e)
              end
          | (c2, Some e) => (c2, Some e)
          end
      | (c1, Some e) => let (c2, d) := sys sched (is_dir_call start (rev rev_comps)) c1 in
                        if d : bool then (c2, None) else (c2, Some e)
      end
  end.
Definition fine_dir (sched : nat -> list fevent) (p : opath) (c : fctx) : fctx * res unit :=
  let (c, e) := fine_dir_rev sched c (fst p) (rev (snd p)) in
  (c, match e with None => Ok tt | Some e => Err (EIo e) end).

(** The file to write to, lines 233-275. *)
Definition stat_call (follow : bool) (p : opath) (f : hostfs) : hostfs * res Z := (f, modified f follow p).
Definition fine_target (lim : option nat) (sched : nat -> list fevent) (cfg : config) (cur : bytes) (mtime : N) (c : fctx)
  : fctx * res (option N) :=
  let p := abs_path cfg cur in
  let trunc c := match sys_open lim sched (fun f => open_trunc f p) c with
                 | (c, inl i) => (c, Ok (Some i))
                 | (c, Datatypes.inr e) => (c, Err (EIo e))
                 end in
  match sys_open lim sched (fun f => open_new f p) c with
  | (c, inl i) => (c, Ok (Some i))
  | (c, Datatypes.inr IoExists) =>
      match x_policy cfg with
      | Skip | Warn => (c, Ok None)
      | Newer =>
          andthen (sys sched (stat_call true p) c) (fun c t =>
            match entry_time mtime with
            | Ok t' => if (t <=? t')%Z then trunc c else (c, Ok None)
            | _ => (c, Panic)
            end)
      | Overwrite => trunc c
      | Error => (c, Err (EFileExists cur))
      end
  | (c, Datatypes.inr e) => (c, Err (EIo e))
  end.

(** [on_file], lines 215-314. *)
Definition fine_on_file (lim : option nat) (sched : nat -> list fevent) (a : archive) (cfg : config) (c : fctx) (e : bytes * caddr * N)
  : fctx * res unit :=
  let '(nm, addr, mtime) := e in
  let cur := push (fx_cur c) nm in
  if should_extract cfg cur false then
    match a_fetch a addr with
    | Found data =>
        andthen (fine_target lim sched cfg cur mtime c) (fun c o =>
          match o with
          | Some i => (mkFctx (fx_cur c) (fx_fs c) (fx_tasks c ++ [mkTask i data 0 false]) (fx_failed c) (fx_calls c) (fx_acts c), Ok tt)
          | None => (c, Ok tt)
          end)
    | MissingPack => (c, Ok tt)
    | NoContent | FetchErr => (c, Panic)
    end
  else (c, Ok tt).

(** [on_link], lines 315-357. *)
Definition fine_link (sched : nat -> list fevent) (cfg : config) (cur target : bytes) (mtime : N) (c : fctx) : fctx * res unit :=
  let p := abs_path cfg cur in
  let ret (x : fctx * option ioerr) : fctx * res unit :=
    (fst x, match snd x with None => Ok tt | Some e => Err (EIo e) end) in
  let redo c := match sys sched (fun f => remove_file f p) c with
                | (c, None) => ret (sys sched (fun f => symlink f target p) c)
                | (c, Some e) => (c, Err (EIo e))
                end in
  match sys sched (fun f => symlink f target p) c with
  | (c, None) => (c, Ok tt)
  | (c, Some IoExists) =>
      match x_policy cfg with
      | Skip | Warn => (c, Ok tt)
      | Newer =>
          andthen (sys sched (stat_call false p) c) (fun c t =>
            match entry_time mtime with
            | Ok t' => if (t <=? t')%Z then redo c else (c, Ok tt)
            | _ => (c, Panic)
            end)
      | Overwrite => redo c
      | Error => (c, Err (ELinkExists cur))
      end
  | (c, Some e) => (c, Err (EIo e))
  end.
Definition fine_on_link (sched : nat -> list fevent) (cfg : config) (c : fctx) (l : bytes * bytes * N) : fctx * res unit :=
  let '(nm, target, mtime) := l in
  let cur := push (fx_cur c) nm in
  if should_extract cfg cur false then fine_link sched cfg cur target mtime c else (c, Ok tt).

(** [impl Operator for Extractor], lines 183-357. *)
Definition fine_extractor (lim : option nat) (a : archive) (cfg : config) (sched : nat -> list fevent)
  : operator fctx (bytes * caddr * N) (bytes * bytes * N) bytes :=
  mkOp
    (fine_dir sched (x_base cfg))                                                        (* 187-190 *)
    (fun c => (c, Ok tt))                                                                (* 192-194 *)
    (fun c nm =>                                                                         (* 196-212 *)
       let cur := push (fx_cur c) nm in
       let c := at_path c cur in
       if should_extract cfg cur true then
         andthen (fine_dir sched (abs_path cfg cur) c) (fun c _ => (c, Ok true))
       else (c, Ok false))
    (fun c _ => (at_path c (pop (fx_cur c)), Ok tt))                                     (* 213-220 *)
    (fine_on_file lim sched a cfg)
    (fine_on_link sched cfg).

(** [extract_arx_range], lines 370-420; [last]: what happens while the scope waits for the writers. *)
Definition fine_extract (lim : option nat) (a : archive) (rg : range) (cfg : config) (sched : nat -> list fevent) (last : list fevent)
  (f : hostfs) : fctx * res unit :=
  let (c, r) := run_from_range x_builder a (fine_extractor lim a cfg sched) (walk_fuel a) rg (fine_start f) in
  let c := fold_left happen last c in
  (c,
   if forallb t_done (fx_tasks c) then
     match r with
     | Ok _ => if fx_failed c then Err ESomeErrors else Ok tt
     | r => r
     end
   else Diverge).
