(** Model of the Python bindings: /repo/python/src/{arx,creator,entry,iterator,stream}.rs.
    pyo3 (trusted): an [Err] is raised as an exception, a panic as a [PanicException]; both can be caught
    and leave the object usable, with the fields as they were at that point. *)
From Verif Require Export Cli.

(** ** Creator, creator.rs *)
Record pycreator := mkPy { py_started : bool; py_creator : option creator }.

(** Method calls.  [PyExit exc]: [exc] tells if the block was left by an exception.  A call of [add] sees
    the host as it is at that moment. *)
Inductive pycall :=
| PyEnter
| PyExit (exc : bool)
| PyAdd (w : world) (path : bytes) (recursive : bool).

(** [Creator::new], lines 25-40; [can_open]: does [SimpleCreator::new] work? *)
Definition py_new (can_open : bool) : res pycreator :=
  if can_open then Ok (mkPy false (Some creator_empty)) else Err (EOther (b "RuntimeError")).

(** [__enter__], lines 42-51. *)
Definition py_enter (st : pycreator) : pycreator * res unit :=
  match py_creator st with
  | None => (st, Err (EOther (b "Creator already finalized")))
  | Some _ => if py_started st then (st, Err (EOther (b "Creator already started")))
              else (mkPy true (py_creator st), Ok tt)
  end.

(** [__exit__], lines 53-69: the archive written, if any. *)
Definition py_exit (st : pycreator) (exc : bool) : pycreator * option archive * res unit :=
  if py_started st then
    match py_creator st with
    | None => (mkPy false None, None, Err (EOther (b "Creator already finalized")))
    | Some c => match finalize c with
                | Some a => (mkPy false None, Some a, Ok tt)
                | None => (mkPy false None, None, Err (EOther (b "jbk")))
                end
    end
  else (st, None, Err (EOther (b "Creator not started."))).

(** [add], lines 73-89: the prefix is "". *)
Definition py_add (fuel : nat) (st : pycreator) (w : world) (path : bytes) (recursive : bool) : pycreator * res unit :=
  match py_creator st with
  | None => (st, Err (EOther (b "Creator already finalized")))
  | Some c =>
      if py_started st then
        let (c', r) := add_from_path fuel w [] path recursive c in (mkPy (py_started st) (Some c'), r)
      else (st, Err (EOther (b "add method must be used inside a context manager")))
  end.

Definition py_step (fuel : nat) (st : pycreator) (k : pycall) : pycreator * option archive * res unit :=
  match k with
  | PyEnter => let (st', r) := py_enter st in (st', None, r)
  | PyExit exc => py_exit st exc
  | PyAdd w p rc => let (st', r) := py_add fuel st w p rc in (st', None, r)
  end.

(** A program: calls one after the other, whatever they answer.  The archives written at the output
    path, in order, and the answers. *)
Fixpoint py_run (fuel : nat) (st : pycreator) (h : list pycall) : pycreator * list archive * list (res unit) :=
  match h with
  | [] => (st, [], [])
  | k :: r =>
      let '(st1, x, o) := py_step fuel st k in
      let '(st2, l, os) := py_run fuel st1 r in
      (st2, match x with Some a => a :: l | None => l end, o :: os)
  end.

(** ** Arx, arx.rs *)
(** [get_entry], lines 77-94. *)
Definition py_get_entry (a : archive) (s : bytes) : res full_entry :=
  let? p := from_path s in
  match get_entry full_builder a p with
  | Err _ => Err (EOther (b "Cannot get entry"))
  | x => x
  end.

(** ** Stream, stream.rs: the bytes of a content and the position (jbk's [ByteStream], trusted). *)
Record stream := mkStream { sm_data : bytes; sm_pos : N }.
Definition stream_size (s : stream) : N := N.of_nat (length (sm_data s)).
Definition stream_left (s : stream) : N := stream_size s - sm_pos s.
Definition stream_tell (s : stream) : N := sm_pos s.
(** [read], lines 13-25; [read_exact] of at most what is left. *)
Definition stream_read (s : stream) (n : N) : stream * bytes :=
  let k := N.min n (stream_left s) in
  (mkStream (sm_data s) (sm_pos s + k), firstn (N.to_nat k) (skipn (N.to_nat (sm_pos s)) (sm_data s))).

(** [get_content_rust], arx.rs 50-63; an error of jbk is unwrapped. *)
Definition py_content (a : archive) (addr : caddr) : res stream :=
  match a_fetch a addr with
  | Found data => Ok (mkStream data 0)
  | MissingPack => Err (EOther (b "Cannot found pack"))
  | NoContent | FetchErr => Panic
  end.

(** [extract], arx.rs 106-117: everything, [Overwrite::Warn]. *)
Definition py_extract (w : world) (a : archive) (dir : bytes) (sched : nat -> turns) (last : turns) : hostfs * res unit :=
  extract_arx a (mkConfig [] ((if is_abs dir then [] else w_cwd w), pieces dir) true Warn) sched last (w_fs w).

(** ** Entry, entry.rs *)
Definition e_common (e : full_entry) : common :=
  match e with GFile (c, _, _) => c | GLink (c, _) => c | GDir _ (c, _) => c end.
Definition py_idx (e : full_entry) : N := c_idx (e_common e). (* lines 47-53 *)
(** [path], lines 57-63 ([__repr__], 30-41, does the same) *)
Definition py_path (e : full_entry) : res bytes :=
  let p := c_path (e_common e) in if utf8 p then Ok p else Panic.
(** [parent], lines 67-84 *)
Definition py_parent (a : archive) (e : full_entry) : res (option full_entry) :=
  match c_parent (e_common e) with
  | None => Ok None
  | Some i => let? e' := get_entry_at_idx full_builder a i in Ok (Some e')
  end.
Definition py_owner (e : full_entry) : N := c_owner (e_common e). (* lines 88-94 *)
Definition py_group (e : full_entry) : N := c_group (e_common e). (* lines 98-104 *)
Definition py_rights (e : full_entry) : N := c_rights (e_common e). (* lines 108-114 *)
Definition py_mtime (e : full_entry) : N := c_mtime (e_common e). (* lines 118-124 *)
Definition py_is_file (e : full_entry) : bool := match e with GFile _ => true | _ => false end. (* lines 127-129 *)
Definition py_is_link (e : full_entry) : bool := match e with GLink _ => true | _ => false end. (* lines 132-134 *)
Definition py_is_dir (e : full_entry) : bool := match e with GDir _ _ => true | _ => false end. (* lines 137-139 *)
Definition type_error {A} : res A := Err (EOther (b "TypeError")).
Definition py_content_address (e : full_entry) : res caddr := (* lines 144-149 *)
  match e with GFile (_, addr, _) => Ok addr | _ => type_error end.
Definition py_get_content (a : archive) (e : full_entry) : res stream := (* lines 154-159 *)
  match e with GFile (_, addr, _) => py_content a addr | _ => type_error end.
Definition py_get_target (e : full_entry) : res bytes := (* lines 164-169 *)
  match e with GLink (_, t) => Ok t | _ => type_error end.
Definition py_first_child (e : full_entry) : res N := (* lines 174-179 *)
  match e with GDir r _ => Ok (fst r) | _ => type_error end.
Definition py_nb_children (e : full_entry) : res N := (* lines 184-189 *)
  match e with GDir r _ => Ok (snd r) | _ => type_error end.
Definition py_eq (x y : full_entry) : bool := py_idx x =? py_idx y. (* lines 205-207 *)

(** ** EntryIter, iterator.rs: start and end. *)
Notation entry_iter := (N * N)%type (only parsing).
Definition py_iter (a : archive) : entry_iter := (fst (a_root a), fst (a_root a) + snd (a_root a)). (* 25-31; arx.rs 101-104 *)
Definition py_iter_entry (e : full_entry) : res entry_iter := (* 18-24; entry.rs 194-203 *)
  match e with GDir r _ => Ok (fst r, fst r + snd r) | _ => type_error end.
(** [__next__], lines 39-51; an error does not move the iterator. *)
Definition py_next (a : archive) (it : entry_iter) : entry_iter * res (option full_entry) :=
  if fst it =? snd it then (it, Ok None)
  else match get_entry_at_idx full_builder a (fst it) with
       | Ok e => ((fst it + 1, snd it), Ok (Some e))
       | Err x => (it, Err x)
       | Panic => (it, Panic)
       | Diverge => (it, Diverge)
       end.
(** The answers of [k] calls of [__next__]. *)
Fixpoint py_nexts (a : archive) (k : nat) (it : entry_iter) : list (res (option full_entry)) :=
  match k with
  | O => []
  | S k => let (it', r) := py_next a it in r :: py_nexts a k it'
  end.
