(** Model of the reading side: /repo/libarx/src/arx.rs, common/*.rs, entry.rs, walk.rs. *)
From Verif Require Export RelPath Archive.

(** [jbk::EntryRange]: offset and count. *)
Notation range := (N * N)%type (only parsing).

(** [EntryStore::get_entry_reader] (jbk): out of bounds is a panic. *)
Definition rec_at (a : archive) (i : N) : res rec :=
  match at_ (a_recs a) i with Some r => Ok r | None => Panic end.

(** [Entry] (/repo/libarx/src/common/entry.rs 13-17). *)
Inductive gentry (F L D : Type) :=
| GFile (f : F)
| GLink (l : L)
| GDir (r : range) (d : D).
Arguments GFile {F L D} f. Arguments GLink {F L D} l. Arguments GDir {F L D} r d.

(** [FullBuilderTrait] (/repo/libarx/src/common/builder.rs 22-81): how the three variants are built
    from an index and a record. *)
Record builder (F L D : Type) := mkBuilder {
  b_file : N -> rec -> res F;
  b_link : N -> rec -> res L;
  b_dir : N -> rec -> res D }.
Arguments mkBuilder {F L D}. Arguments b_file {F L D}. Arguments b_link {F L D}. Arguments b_dir {F L D}.

(** [RealBuilder::create_entry] (/repo/libarx/src/common/builder.rs 107-136). *)
Definition create_entry {F L D} (B : builder F L D) (a : archive) (i : N) : res (gentry F L D) :=
  let? r := rec_at a i in
  match r_payload r with
  | RFile _ _ => let? f := b_file B i r in Ok (GFile f)
  | RLink _ => let? l := b_link B i r in Ok (GLink l)
  | RDir first nb => let? d := b_dir B i r in Ok (GDir (as_u32 first, as_u32 nb) d)
  | RBad _ => Err EBadVariant
  end.

(** [CommonPart] (/repo/libarx/src/entry.rs 6-14) *)
Record common := mkCommon {
  c_idx : N; c_path : bytes; c_parent : option N;
  c_owner : N; c_group : N; c_rights : N; c_mtime : N }.

(** [CommonBuilder::create_entry] (/repo/libarx/src/entry.rs 122-141); [parent as u32 - 1] panics
    on underflow (debug build). *)
Definition create_common (i : N) (r : rec) : res common :=
  let? p := (if r_parent r =? 0 then Ok None
             else if as_u32 (r_parent r) =? 0 then Panic
             else Ok (Some (as_u32 (r_parent r) - 1))) in
  Ok (mkCommon i (r_name r) p (as_u32 (r_owner r)) (as_u32 (r_group r)) (as_u8 (r_rights r)) (r_mtime r)).

Definition file_entry := (common * caddr * N)%type.   (* FileEntry, entry.rs 41-61 *)
Definition link_entry := (common * bytes)%type.       (* Link, entry.rs 63-79 *)
Definition dir_entry := (common * range)%type.        (* Dir, entry.rs 81-97 *)

(** [FullBuilder] (/repo/libarx/src/entry.rs 99-231).  A file builder is only called on a file
    record and so on; the other cases are unreachable in [create_entry]. *)
Definition full_builder : builder file_entry link_entry dir_entry :=
  mkBuilder
    (fun i r => let? c := create_common i r in
       match r_payload r with RFile addr size => Ok (c, addr, size) | _ => Panic end)
    (fun i r => let? c := create_common i r in
       match r_payload r with RLink t => Ok (c, t) | _ => Panic end)
    (fun i r => let? c := create_common i r in
       match r_payload r with RDir first nb => Ok (c, (as_u32 first, as_u32 nb)) | _ => Panic end).

Notation full_entry := (gentry file_entry link_entry dir_entry) (only parsing).

(** [EntryCompare::compare_entry] (/repo/libarx/src/common/mod.rs 47-59). *)
Definition compare_entry (a : archive) (n : bytes) (i : N) : res comparison :=
  let? r := rec_at a i in Ok (bytes_cmp (r_name r) n).

(** [Range::find] with an ordered comparator (jbk): binary search on relative positions.  The fuel
    is the number of binary digits of the size, which is never exhausted. *)
Fixpoint bsearch (cmp : N -> res comparison) (fuel : nat) (left right : N) : res (option N) :=
  if left <? right then
    match fuel with
    | O => Diverge
    | S k =>
        let mid := left + (right - left) / 2 in
        let? c := cmp mid in
        match c with
        | Lt => bsearch cmp k (mid + 1) right
        | Gt => bsearch cmp k left mid
        | Eq => Ok (Some mid)
        end
    end
  else Ok None.

Definition range_find (a : archive) (r : range) (n : bytes) : res (option N) :=
  bsearch (fun k => compare_entry a n (fst r + k)) (S (N.size_nat (snd r))) 0 (snd r).

(** [Range::get_entry] (jbk): the relative index must be in the range. *)
Definition range_get {F L D} (B : builder F L D) (a : archive) (r : range) (k : N) : res (gentry F L D) :=
  if k <? snd r then create_entry B a (fst r + k) else Err EBadIndex.

(** [Arx::get_entry] (/repo/libarx/src/arx.rs 47-78), the loop over the components. *)
Fixpoint get_entry_in {F L D} (B : builder F L D) (a : archive) (r : range) (comps : list bytes)
  : res (gentry F L D) :=
  match comps with
  | [] => Panic (* unreachable!(), line 77 *)
  | c :: rest =>
      let? found := range_find a r c in
      match found with
      | None => Err ENotFound
      | Some k =>
          let? e := range_get B a r k in
          match rest with
          | [] => Ok e
          | _ :: _ =>
              match e with
              | GDir r' _ => get_entry_in B a r' rest
              | _ => Err ENotFound
              end
          end
      end
  end.

Definition get_entry {F L D} (B : builder F L D) (a : archive) (p : bytes) : res (gentry F L D) :=
  get_entry_in B a (a_root a) (path_iter p).

(** [Arx::get_entry_at_idx] (/repo/libarx/src/arx.rs 80-86). *)
Definition get_entry_at_idx {F L D} (B : builder F L D) (a : archive) (i : N) := create_entry B a i.

(** [Operator] (/repo/libarx/src/walk.rs 5-28): each callback updates the context and may fail. *)
Record operator (C F L D : Type) := mkOp {
  on_start : C -> C * res unit;
  on_stop : C -> C * res unit;
  on_enter : C -> D -> C * res bool;
  on_exit : C -> D -> C * res unit;
  on_file : C -> F -> C * res unit;
  on_link : C -> L -> C * res unit }.
Arguments mkOp {C F L D}. Arguments on_start {C F L D}. Arguments on_stop {C F L D}.
Arguments on_enter {C F L D}. Arguments on_exit {C F L D}. Arguments on_file {C F L D}. Arguments on_link {C F L D}.

(** [f(..)?; k] on a context. *)
Definition andthen {C A B} (x : C * res A) (k : C -> A -> C * res B) : C * res B :=
  match x with
  | (c, Ok v) => k c v
  | (c, Err e) => (c, Err e)
  | (c, Panic) => (c, Panic)
  | (c, Diverge) => (c, Diverge)
  end.

(** [Walker::_run] (/repo/libarx/src/walk.rs 66-89) with [ReadEntry] (common/mod.rs 61-94): iterate
    from [cur] to [stop], recursing in directories.  [fuel] bounds the recursion depth; [Diverge]
    when exhausted. *)
Fixpoint run_range {C F L D} (B : builder F L D) (a : archive) (op : operator C F L D)
    (fuel : nat) (cur stop : N) (c : C) : C * res unit :=
  match fuel with
  | O => (c, Diverge)
  | S k =>
      if cur =? stop then (c, Ok tt)
      else
        andthen (c, create_entry B a cur) (fun c e =>
          match e with
          | GFile f => andthen (on_file op c f) (fun c _ => run_range B a op k (cur + 1) stop c)
          | GLink l => andthen (on_link op c l) (fun c _ => run_range B a op k (cur + 1) stop c)
          | GDir r d =>
              andthen (on_enter op c d) (fun c enter =>
                andthen (if enter : bool then run_range B a op k (fst r) (fst r + snd r) c else (c, Ok tt))
                  (fun c _ =>
                     andthen (on_exit op c d) (fun c _ => run_range B a op k (cur + 1) stop c)))
          end)
  end.

(** [Walker::run_from_range] and [Walker::run] (/repo/libarx/src/walk.rs 40-64).  The fuel given
    here is enough for every archive the creator writes (ReaderProofs). *)
Definition run_from_range {C F L D} (B : builder F L D) (a : archive) (op : operator C F L D)
    (fuel : nat) (r : range) (c : C) : C * res unit :=
  andthen (on_start op c) (fun c _ =>
    andthen (run_range B a op fuel (fst r) (fst r + snd r) c) (fun c _ => on_stop op c)).

Definition walk_fuel (a : archive) : nat := S (length (a_recs a)).

Definition run {C F L D} (B : builder F L D) (a : archive) (op : operator C F L D) (c : C) :=
  run_from_range B a op (walk_fuel a) (a_root a) c.
