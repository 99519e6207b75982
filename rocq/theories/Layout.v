(** Model of what [finalize] writes: jbk sorts the entry store on (Parent, Name)
    (/repo/libarx/src/create/entry_store_creator.rs 288), resolves the deferred values and writes
    the records; arx adds the two indexes (lines 322-344). *)
From Verif Require Export Creator Archive.

(** [set_entry_idx] of jbk: the index of an entry is its position in the store's vector.  An [order]
    lists the slots in their current position. *)
Fixpoint index_of (ord : list slot) (s : slot) : N :=
  match ord with
  | [] => 0
  | x :: r => if Nat.eqb x s then 0 else 1 + index_of r s
  end.

(** [as_parent_idx_generator], lines 65-73: evaluated each time the value is read. *)
Definition parent_value (ord : list slot) (d : dirref) : N :=
  match d with
  | None => 0
  | Some s => index_of ord s + 1
  end.

Definition dummy_sentry : sentry := mkSentry [] None KDir default_dir_meta.
Definition sentry_of (store : list sentry) (s : slot) : sentry := nth s store dummy_sentry.

(** The sort key of an entry under the current indices (schema sort keys, line 288). *)
Definition key (store : list sentry) (ord : list slot) (s : slot) : N * bytes :=
  let e := sentry_of store s in (parent_value ord (se_parent e), se_name e).

Definition key_cmp (x y : N * bytes) : comparison :=
  match N.compare (fst x) (fst y) with
  | Eq => bytes_cmp (snd x) (snd y)
  | c => c
  end.
Definition key_leb (x y : N * bytes) : bool := match key_cmp x y with Gt => false | _ => true end.

(** [is_sorted_by] *)
Fixpoint sorted_byb {A} (leb : A -> A -> bool) (l : list A) : bool :=
  match l with
  | [] => true
  | x :: r => match r with [] => true | y :: _ => leb x y && sorted_byb leb r end
  end.

(** A sort; which algorithm is used does not matter (proved in LayoutProofs). *)
Fixpoint insert_by {A} (leb : A -> A -> bool) (x : A) (l : list A) : list A :=
  match l with
  | [] => [x]
  | y :: r => if leb x y then x :: l else y :: insert_by leb x r
  end.
Fixpoint sort_by {A} (leb : A -> A -> bool) (l : list A) : list A :=
  match l with [] => [] | x :: r => insert_by leb x (sort_by leb r) end.

Definition slot_leb (store : list sentry) (ord : list slot) (s t : slot) : bool :=
  key_leb (key store ord s) (key store ord t).

(** The finalisation loop of jbk's EntryStore (contract of the dependency, trusted): indices are
    set by position; while the entries are not sorted under the current indices, they are sorted
    under them and the indices are set again.  [fuel] bounds the number of rounds. *)
Fixpoint sort_loop (store : list sentry) (fuel : nat) (ord : list slot) : option (list slot) :=
  if sorted_byb (slot_leb store ord) ord then Some ord
  else match fuel with
       | O => None
       | S k => sort_loop store k (sort_by (slot_leb store ord) ord)
       end.

Definition layout_of (store : list sentry) : option (list slot) :=
  sort_loop store (length store) (seq 0 (length store)).

(** [first_entry_generator], lines 44-58. *)
Definition min_list (l : list N) : N :=
  match l with [] => 0 | x :: r => fold_left N.min r x end.
Definition first_child (st : cstate) (ord : list slot) (s : slot) : N :=
  min_list (map (fun c => index_of ord (child_slot (snd c))) (cs_heap st (Some s))).

(** [entry_count_generator], lines 60-63. *)
Definition nb_children (st : cstate) (d : dirref) : N := N.of_nat (length (cs_heap st d)).

(** The record written for a slot (values of lines 103-124 and 153-231). *)
Definition record_of (st : cstate) (ord : list slot) (s : slot) : rec :=
  let e := sentry_of (cs_store st) s in
  let m := se_meta e in
  mkRec (se_name e) (parent_value ord (se_parent e)) (m_uid m) (m_gid m) (m_mode m) (m_mtime m)
    (match se_kind e with
     | KFile size addr => RFile addr size
     | KDir => RDir (first_child st ord s) (nb_children st (Some s))
     | KLink t => RLink t
     end).

(** [finalize], lines 322-344: "arx_root" is the range of offset 0 and count [entry_count()] (line
    303, [as u32]), "arx_entries" the one of offset 0 and count [len() as u32] (lines 323-330). *)
Definition write_archive (st : cstate) (fetch : caddr -> fetched) : option archive :=
  match layout_of (cs_store st) with
  | None => None
  | Some ord =>
      Some (mkArchive (map (record_of st ord) ord) (0, as_u32 (nb_children st None))
              (0, as_u32 (N.of_nat (length (cs_store st)))) fetch)
  end.
