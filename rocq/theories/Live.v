(** Adding files while the host changes: /repo/libarx/src/create/fs_adder.rs with one host for each
    system call.  FsAdder.v is the same code on a host that does not change (see C78). *)
From Verif Require Export FsAdder.

(** The host at each system call of the creation, and when a file opened by the call [t] has been read:
    a small one at once (line 75), a larger one when jbk needs it (line 78).  Simplification: the bytes
    read are those of one moment. *)
Record history := mkHistory { hs_at : nat -> world; hs_read : nat -> nat }.

(** [PathBuf] of a canonical path *)
Definition path_string (q : path) : bytes := sep :: join q.

(** [DetectedEntryKind], lines 20-26: the size of a file, and the path that will be opened or read. *)
Inductive live_kind := VDir | VFile (size : N) (s : bytes) | VLink (s : bytes) | VOther.

(** Lines 50-58, from the metadata of the moment [w]. *)
Definition live_kind_at (w : world) (q : path) (n : hnode) (s : bytes) : live_kind :=
  match n with
  | HDir => VDir
  | HFile i => if at_special (w_attr w q) then VOther else VFile (N.of_nat (length (h_data (w_fs w) i))) s
  | HLink _ _ => VLink s
  end.

(** [detect_kind], lines 37-61: up to three system calls.  The first component is the number of the next
    one. *)
Definition live_detect (H : history) (t : nat) (s : bytes) (follow : bool) : nat * res (live_kind * meta) :=
  let w := hs_at H t in
  match looked_up (look_str w false s) with
  | Ok (q, n) =>
      match n, follow with
      | HLink _ _, true =>
          match looked_up (look_str (hs_at H (S t)) true s) with
          | Ok (q1, _) =>
              let w2 := hs_at H (S (S t)) in
              (S (S (S t)),
               let? y := looked_up (look_str w2 false (path_string q1)) in
               Ok (live_kind_at w2 (fst y) (snd y) (path_string q1), meta_at w2 (fst y)))
          | Err e => (S (S t), Err e)
          | Panic => (S (S t), Panic)
          | Diverge => (S (S t), Diverge)
          end
      | _, _ => (S t, Ok (live_kind_at w q n s, meta_at w q))
      end
  | Err e => (S t, Err e)
  | Panic => (S t, Panic)
  | Diverge => (S t, Diverge)
  end.

(** [std::fs::read] or [InputFile::open] (lines 74-79): links are followed.  Simplification: opening
    something else than a regular file fails (a pipe put there in between would block). *)
Definition live_read (H : history) (t : nat) (s : bytes) : res bytes :=
  let w := hs_at H t in
  let? x := looked_up (look_str w true s) in
  match snd x with
  | HFile i => if at_special (w_attr w (fst x)) || negb (at_readable (w_attr w (fst x))) then Err (EIo IoOther)
               else Ok (h_data (w_fs (hs_at H (hs_read H t))) i)
  | HDir => Err (EIo IoIsDir)
  | HLink _ _ => Err (EIo IoLoop)
  end.
(** [std::fs::read_link], line 83; what is not a link is refused (EINVAL). *)
Definition live_read_link (H : history) (t : nat) (s : bytes) : res bytes :=
  let? x := looked_up (look_str (hs_at H t) false s) in
  match snd x with HLink target _ => Ok target | _ => Err (EIo IoOther) end.

(** [FsEntry::new_from_path], lines 63-109: the size is the one of the metadata (line 81). *)
Definition live_new (H : history) (t : nat) (s arx_path : bytes) (l : list bytes) (follow : bool) : nat * res (list bytes * entry) :=
  let (t, r) := live_detect H t s follow in
  match r with
  | Ok (VDir, m) => (t, Ok (l, mkEntry arx_path (Ok (Some KDir)) m))
  | Ok (VFile size s, m) =>
      (S t,
       let? data := live_read H t s in
       let (l', addr) := add_content l data in
       Ok (l', mkEntry arx_path (Ok (Some (KFile size addr))) m))
  | Ok (VLink s, m) => (S t, let? target := live_read_link H t s in Ok (l, mkEntry arx_path (Ok (Some (KLink target))) m))
  | Ok (VOther, m) => (t, Ok (l, mkEntry arx_path (Ok None) m))
  | Err e => (t, Err e)
  | Panic => (t, Panic)
  | Diverge => (t, Diverge)
  end.

(** [FsAdder::add_entry_from_path], lines 209-246. *)
Definition live_add (H : history) (t : nat) (pre : bytes) (s : bytes) (follow : bool) (c : creator) : nat * creator * res unit :=
  match from_path s with
  | Ok p =>
      match strip_prefix p pre with
      | None => (t, c, Err ENotInPrefix)
      | Some arx_path =>
          if nonempty arx_path then
            match live_new H t s arx_path (cr_contents c) follow with
            | (t, Ok (l, e)) => let (st, r) := add_entry (cr_entries c) e in (t, mkCreator st l, r)
            | (t, Err x) => (t, c, Err x)
            | (t, Panic) => (t, c, Panic)
            | (t, Diverge) => (t, c, Diverge)
            end
          else (t, c, Ok tt)
      end
  | Err x => (t, c, Err x)
  | Panic => (t, c, Panic)
  | Diverge => (t, c, Diverge)
  end.

(** The paths that the inputs, the walk or the file list gave, each with its [follow_symlink] (lines
    164-207): the walk (another thread) looks at the host as well, so that they can be any paths. *)
Fixpoint live_each (H : history) (t : nat) (pre : bytes) (l : list (bytes * bool)) (c : creator) : nat * creator * res unit :=
  match l with
  | [] => (t, c, Ok tt)
  | (s, follow) :: r =>
      match live_add H t pre s follow c with
      | (t, c, Ok _) => live_each H t pre r c
      | (t, c, x) => (t, c, x)
      end
  end.
