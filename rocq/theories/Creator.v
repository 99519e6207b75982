(** Model of /repo/libarx/src/create/entry_store_creator.rs: the tree of [DirEntry] caches and the
    entry store they fill. *)
From Verif Require Export RelPath Api.

(** A slot is the position of an entry in the jbk [EntryStore]'s vector, i.e. the identity of its
    [Vow]/[Bound] index.  [jbk::Bound<EntryIdx>] (line 15) is a shared reference to the final index
    of that entry: the model keeps the slot and looks the index up in the layout. *)
Notation slot := nat (only parsing).

(** A [DirEntry] (lines 25-28) is identified by its [idx] field: [None] is the root (lines 31-36),
    [Some s] the directory stored in slot [s] (lines 37-42). *)
Notation dirref := (option nat) (only parsing).

Definition dirref_eqb (x y : dirref) : bool :=
  match x, y with
  | None, None => true
  | Some i, Some j => Nat.eqb i j
  | _, _ => false
  end.

(** [DirOrFile] (lines 17-20). *)
Inductive child := CDir (s : slot) | CFile (s : slot).
Definition child_slot (c : child) : slot := match c with CDir s => s | CFile s => s end.

(** One entry of the jbk entry store: its values map (lines 103-124, 153-166, 181-188, 208-209,
    226). The [Parent], [FirstChild], [NbChildren] values are closures there; [se_parent] is what
    the [Parent] closure captures; the other two capture the children cache of the slot. *)
Record sentry := mkSentry {
  se_name : bytes; se_parent : dirref; se_kind : kind; se_meta : meta }.

(** [DirCache] (line 14) is a HashMap; here an association list with unique keys. *)
Notation dcache := (list (bytes * child)) (only parsing).

(** [EntryStoreCreator] (lines 243-247): the entry store and all the [children] caches.  The caches
    are shared ([Arc<RwLock<_>>], line 27) between the [DirEntry] and the closures of its entry, so
    they are kept in one heap indexed by [dirref]. *)
Record cstate := mkCstate { cs_store : list sentry; cs_heap : dirref -> dcache }.

(** lines 250-300 *)
Definition creator_new : cstate := mkCstate [] (fun _ => []).

(** HashMap::get *)
Fixpoint assoc {A} (k : bytes) (l : list (bytes * A)) : option A :=
  match l with
  | [] => None
  | (k', v) :: r => if bytes_eqb k' k then Some v else assoc k r
  end.

(** [entry_store.add_entry] then [children.insert] (lines 132-134, 195-202, 215-219, 232-236):
    the new slot is the old length of the store. Only used on names absent from the cache. *)
Definition add_child (st : cstate) (d : dirref) (mk : slot -> child) (e : sentry) : cstate :=
  let s := length (cs_store st) in
  mkCstate (cs_store st ++ [e])
           (fun d' => if dirref_eqb d' d then (se_name e, mk s) :: cs_heap st d' else cs_heap st d').

(** Metadata of implicit directories, lines 112-115. *)
Definition default_dir_meta : meta := mkMeta 1000 1000 493 0. (* 0o755 = 493 *)

(** [DirEntry::ensure_dir], lines 95-137. *)
Definition ensure_dir (st : cstate) (d : dirref) (n : bytes) : cstate :=
  match assoc n (cs_heap st d) with
  | Some _ => st
  | None => add_child st d CDir (mkSentry n d KDir default_dir_meta)
  end.

(** [DirEntry::add_entry], lines 139-240. *)
Definition add_entry_in (st : cstate) (d : dirref) (e : entry) : cstate * res unit :=
  match e_kind e with
  | Err x => (st, Err x)
  | Panic => (st, Panic)
  | Diverge => (st, Diverge)
  | Ok None => (st, Ok tt)
  | Ok (Some k) =>
      match file_name (e_path e) with
      | None => (st, Panic)
      | Some n =>
          let values := mkSentry n d k (e_meta e) in
          match k with
          | KDir =>
              match assoc n (cs_heap st d) with
              | Some (CDir _) => (st, Ok tt)
              | Some (CFile _) => (st, Err EDirClash)
              | None => (add_child st d CDir values, Ok tt)
              end
          | KFile _ _ =>
              match assoc n (cs_heap st d) with
              | Some _ => (st, Err EFileClash)
              | None => (add_child st d CFile values, Ok tt)
              end
          | KLink _ =>
              match assoc n (cs_heap st d) with
              | Some _ => (st, Err ELinkClash)
              | None => (add_child st d CFile values, Ok tt)
              end
          end
      end
  end.

(** [DirEntry::add], lines 75-93.  The [try_write().unwrap()] on the RwLocks cannot fail: each
    [DirEntry] has its own lock and no guard on a lock is alive when that lock is taken again. *)
Fixpoint add (st : cstate) (d : dirref) (comps : list comp) (e : entry) : cstate * res unit :=
  match comps with
  | [] => add_entry_in st d e
  | c :: r =>
      let st1 := ensure_dir st d (as_str c) in
      match assoc (as_str c) (cs_heap st1 d) with
      | Some (CDir s) => add st1 (Some s) r e
      | Some (CFile _) => (st1, Err EParentNotDir)
      | None => (st1, Panic) (* the unwrap() of line 85 *)
      end
  end.

(** [EntryStoreCreator::add_entry], lines 306-319, and [SimpleCreator::add_entry]
    (/repo/libarx/src/create/creator.rs 50-52). *)
Definition add_entry (st : cstate) (e : entry) : cstate * res unit :=
  match parent (e_path e) with
  | None => add st None [] e
  | Some p => add st None (components p) e
  end.

(** A history of calls.  A panic unwinds through held lock guards, which poisons the locks: the
    creator is lost, so the history stops there. *)
Fixpoint run_adds (st : cstate) (l : list entry) : cstate * list (res unit) :=
  match l with
  | [] => (st, [])
  | e :: r =>
      match add_entry st e with
      | (st1, Ok u) => let (st2, outs) := run_adds st1 r in (st2, Ok u :: outs)
      | (st1, Err x) => let (st2, outs) := run_adds st1 r in (st2, Err x :: outs)
      | (st1, o) => (st1, [o])
      end
  end.
