(** Model of /repo/libarx/src/create/fs_adder.rs and of the content side of
    /repo/libarx/src/create/creator.rs: adding files of the host to an archive. *)
From Verif Require Export HostFs Layout.

(** What [Metadata] answers about a physical path besides its type: owner, group, mode, time of last
    modification in seconds; is it something else than a directory, a file or a link (a socket, a
    device...); does opening and reading it work? *)
Record attr := mkAttr {
  at_uid : N; at_gid : N; at_mode : N; at_mtime : Z; at_special : bool; at_readable : bool }.

(** The host while files are added.  [w_list]: the names in a directory in the order the OS lists
    them, [None] when it cannot be read.  Simplification: the host does not change meanwhile. *)
Record world := mkWorld {
  w_fs : hostfs;
  w_attr : path -> attr;
  w_list : path -> option (list bytes);
  w_cwd : path }.

(** A path string given to a system call (a trailing separator requires a directory, as a final "."
    does). *)
Definition opath_of (w : world) (s : bytes) : opath :=
  (if is_abs s then [] else w_cwd w, pieces s ++ (if ends_with_sep s then [b "."] else [])).
(** The empty path never exists. *)
Definition look_str (w : world) (follow : bool) (s : bytes) : looked :=
  match s with [] => Bad IoNotFound | _ => look (w_fs w) follow (opath_of w s) end.

(** [Path::join] of one name *)
Definition path_join (s n : bytes) : bytes :=
  if nonempty s && negb (ends_with_sep s) then s ++ sep :: n else s ++ n.

(** [DetectedEntryKind], lines 20-26; a file is given with its content, a link with its target. *)
Inductive detected := DDir | DFile (data : bytes) | DLink (target : bytes) | DOther.

(** The type found at a physical path. *)
Definition kind_at (w : world) (q : path) (n : hnode) : detected :=
  match n with
  | HDir => DDir
  | HFile i => if at_special (w_attr w q) then DOther else DFile (h_data (w_fs w) i)
  | HLink t _ => DLink t
  end.
Definition looked_up (l : looked) : res (path * hnode) :=
  match l with At q n => Ok (q, n) | Missing _ => Err (EIo IoNotFound) | Bad e => Err (EIo e) end.

(** [detect_kind], lines 37-61: [symlink_metadata], and for a link to follow [canonicalize] then
    [symlink_metadata] again.  The physical path is returned for the attributes. *)
Definition detect_kind (w : world) (s : bytes) (follow : bool) : res (detected * path) :=
  let? x := looked_up (look_str w false s) in
  match x with
  | (q, HLink t m) =>
      if follow then let? y := looked_up (look_str w true s) in Ok (kind_at w (fst y) (snd y), fst y)
      else Ok (DLink t, q)
  | (q, n) => Ok (kind_at w q n, q)
  end.

(** A creator: the entry store and the contents given so far (/repo/libarx/src/create/creator.rs
    9-12).  Simplification: contents are held as bytes; compression, clusters and packs are jbk's. *)
Record creator := mkCreator { cr_entries : cstate; cr_contents : list bytes }.
Definition creator_empty : creator := mkCreator creator_new [].

(** [CachedContentAdder::add_content] (jbk, trusted): a content already given gets its old address
    (jbk compares blake3 digests), another one a new address in the content pack 1. *)
Fixpoint find_content (l : list bytes) (data : bytes) (k : N) : option N :=
  match l with
  | [] => None
  | x :: r => if bytes_eqb x data then Some k else find_content r data (k + 1)
  end.
Definition add_content (l : list bytes) (data : bytes) : list bytes * caddr :=
  match find_content l data 0 with
  | Some k => (l, mkAddr 1 k)
  | None => (l ++ [data], mkAddr 1 (N.of_nat (length l)))
  end.
(** What reading the finished archive gives. *)
Definition fetch_of (l : list bytes) (x : caddr) : fetched :=
  if ca_pack x =? 1 then match at_ l (ca_content x) with Some d => Found d | None => NoContent end
  else NoContent.

(** [SimpleCreator::finalize], /repo/libarx/src/create/creator.rs 40-44. *)
Definition finalize (c : creator) : option archive := write_archive (cr_entries c) (fetch_of (cr_contents c)).

(** uid, gid, mode and mtime (lines 90-104, unix); [attr.mtime() as u64]. *)
Definition meta_at (w : world) (q : path) : meta :=
  let a := w_attr w q in mkMeta (at_uid a) (at_gid a) (at_mode a) (as_u64 (at_mtime a)).

(** [FsEntry::new_from_path], lines 63-109, and the [EntryTrait] of the result, lines 111-142.
    Small files are read at once, larger ones are given as an open file (lines 74-79): the content
    is the same. *)
Definition new_from_path (w : world) (s : bytes) (arx_path : bytes) (l : list bytes) (follow : bool)
  : res (list bytes * entry) :=
  let? x := detect_kind w s follow in
  let (k, q) := x in
  match k with
  | DDir => Ok (l, mkEntry arx_path (Ok (Some KDir)) (meta_at w q))
  | DFile data =>
      if at_readable (w_attr w q) then
        let (l', addr) := add_content l data in
        Ok (l', mkEntry arx_path (Ok (Some (KFile (N.of_nat (length data)) addr))) (meta_at w q))
      else Err (EIo IoOther)
  | DLink t => Ok (l, mkEntry arx_path (Ok (Some (KLink t))) (meta_at w q))
  | DOther => Ok (l, mkEntry arx_path (Ok None) (meta_at w q))
  end.

(** [FsAdder::add_entry_from_path], lines 209-246; [pre] is [self.strip_prefix]. *)
Definition add_entry_from_path (w : world) (pre : bytes) (s : bytes) (follow : bool) (c : creator)
  : creator * res unit :=
  match from_path s with
  | Ok p =>
      match strip_prefix p pre with
      | None => (c, Err ENotInPrefix)
      | Some arx_path =>
          if nonempty arx_path then
            match new_from_path w s arx_path (cr_contents c) follow with
            | Ok (l, e) => let (st, r) := add_entry (cr_entries c) e in (mkCreator st l, r)
            | Err x => (c, Err x)
            | Panic => (c, Panic)
            | Diverge => (c, Diverge)
            end
          else (c, Ok tt)
      end
  | Err x => (c, Err x)
  | Panic => (c, Panic)
  | Diverge => (c, Diverge)
  end.

(** A list of paths, each with its [follow_symlink]; stops at the first failure. *)
Fixpoint add_each (w : world) (pre : bytes) (l : list (bytes * bool)) (c : creator) : creator * res unit :=
  match l with
  | [] => (c, Ok tt)
  | (s, follow) :: r =>
      match add_entry_from_path w pre s follow c with
      | (c1, Ok _) => add_each w pre r c1
      | (c1, x) => (c1, x)
      end
  end.

(** [FsAdder::add_from_list], lines 199-207. *)
Definition add_from_list (w : world) (pre : bytes) (paths : list bytes) (follow : bool) (c : creator)
  : creator * res unit := add_each w pre (map (fun s => (s, follow)) paths) c.

(** walkdir 2.5.0 (trusted), with the options of lines 176-181: the entries in the order they are
    yielded, [WFail] for an error. *)
Inductive witem := WEntry (s : bytes) | WFail.

Definition read_dir (w : world) (s : bytes) : option (path * list bytes) :=
  match look_str w true s with
  | At q HDir => match w_list w q with Some l => Some (q, l) | None => None end
  | _ => None
  end.

Definition opt_concat {A B} (f : A -> option (list B)) : list A -> option (list B) :=
  fix go l := match l with
              | [] => Some []
              | x :: r => match f x, go r with Some y, Some z => Some (y ++ z) | _, _ => None end
              end.

(** The contents of the directory [s]: each name, followed by its own contents if it is a directory
    (not a link to one). [None]: the fuel (the depth) is exhausted. *)
Fixpoint walk_in (fuel : nat) (w : world) (s : bytes) : option (list witem) :=
  match fuel with
  | O => None
  | S k =>
      match read_dir w s with
      | None => Some [WFail]
      | Some (q, names) =>
          opt_concat (fun n =>
            match h_names (w_fs w) (q ++ [n]) with
            | Some HDir => match walk_in k w (path_join s n) with Some l => Some (WEntry (path_join s n) :: l) | None => None end
            | _ => Some [WEntry (path_join s n)]
            end) names
      end
  end.

(** The walk of [s] itself; a link given as root is followed to see if it is a directory.
    [recurse = false] is [max_depth(0)]. *)
Definition walk (fuel : nat) (w : world) (s : bytes) (recurse : bool) : option (list witem) :=
  let enter := if recurse then match walk_in fuel w s with Some l => Some (WEntry s :: l) | None => None end
               else Some [WEntry s] in
  match look_str w false s with
  | At _ HDir => enter
  | At _ (HFile _) => Some [WEntry s]
  | At _ (HLink _ _) =>
      match look_str w true s with
      | At _ HDir => enter
      | At _ _ => Some [WEntry s]
      | _ => Some [WFail]
      end
  | _ => Some [WFail]
  end.

(** [entry.path() == path], line 192 *)
Definition ocomp_eqb (x y : option comp) : bool :=
  match x, y with Some a, Some c => comp_eqb a c | None, None => true | _, _ => false end.
Definition std_path_eqb (x y : bytes) : bool := list_eqb ocomp_eqb (std_components x) (std_components y).

(** [FsAdder::add_from_path_with_filter], lines 164-197, as two threads.  The producer stops at the
    first error ([entry.unwrap()], line 183, panics in its thread, which drops [tx]); [send] fails
    once the receiver is gone (line 184).  The consumer stops at the first failure, or when the
    queue is empty and [tx] is gone. *)
Inductive producer := Walking (todo : list witem) | Stopped.
Inductive consumer := Receiving | Returned (r : res unit).
Record threads := mkThreads { t_prod : producer; t_queue : list bytes; t_cons : consumer; t_creator : creator }.

Inductive step (w : world) (pre root : bytes) : threads -> threads -> Prop :=
| step_send s r q c : step w pre root (mkThreads (Walking (WEntry s :: r)) q Receiving c) (mkThreads (Walking r) (q ++ [s]) Receiving c)
| step_send_gone s r q x c : step w pre root (mkThreads (Walking (WEntry s :: r)) q (Returned x) c) (mkThreads Stopped q (Returned x) c)
| step_walk_error r q x c : step w pre root (mkThreads (Walking (WFail :: r)) q x c) (mkThreads Stopped q x c)
| step_walk_end q x c : step w pre root (mkThreads (Walking []) q x c) (mkThreads Stopped q x c)
| step_receive p s q c c' : add_entry_from_path w pre s (std_path_eqb s root) c = (c', Ok tt) ->
    step w pre root (mkThreads p (s :: q) Receiving c) (mkThreads p q Receiving c')
| step_receive_fails p s q c c' x : add_entry_from_path w pre s (std_path_eqb s root) c = (c', x) -> x <> Ok tt ->
    step w pre root (mkThreads p (s :: q) Receiving c) (mkThreads p q (Returned x) c')
| step_channel_closed c : step w pre root (mkThreads Stopped [] Receiving c) (mkThreads Stopped [] (Returned (Ok tt)) c).

(** The same as a function (C41 proves that every execution agrees with it). *)
Fixpoint before_fail (l : list witem) : list bytes :=
  match l with WEntry s :: r => s :: before_fail r | _ => [] end.
Definition add_from_path (fuel : nat) (w : world) (pre s : bytes) (recurse : bool) (c : creator)
  : creator * res unit :=
  match walk fuel w s recurse with
  | None => (c, Diverge)
  | Some l => add_each w pre (map (fun p => (p, std_path_eqb p s)) (before_fail l)) c
  end.
