(** What a table of entries means to a reader, independently of the reading code. *)
From Verif Require Export Archive SpecTree SpecOrder.

(** Entry [i] has path [p]: follow the parent fields up to the root. *)
Inductive apath (a : archive) : N -> path -> Prop :=
| apath_top i r : at_ (a_recs a) i = Some r -> r_parent r = 0 -> apath a i [r_name r]
| apath_sub i r j p : at_ (a_recs a) i = Some r -> r_parent r = j + 1 -> apath a j p ->
    apath a i (p ++ [r_name r]).

Definition meta_of_rec (r : rec) : meta := mkMeta (r_owner r) (r_group r) (r_rights r) (r_mtime r).

(** What a record describes. *)
Definition node_of_rec (r : rec) : option node :=
  match r_payload r with
  | RFile addr size => Some (KFile size addr, meta_of_rec r)
  | RDir _ _ => Some (KDir, meta_of_rec r)
  | RLink t => Some (KLink t, meta_of_rec r)
  | RBad _ => None
  end.

(** The archive stores [nd] under path [p], at index [i]. *)
Definition astored (a : archive) (i : N) (p : path) (nd : node) : Prop :=
  exists r, at_ (a_recs a) i = Some r /\ apath a i p /\ node_of_rec r = Some nd.

(** (parent, name) order of records. *)
Definition rec_lt (x y : rec) : Prop :=
  r_parent x < r_parent y \/ (r_parent x = r_parent y /\ bytes_cmp (r_name x) (r_name y) = Lt).

(** A well-formed table. *)
Record wf (a : archive) : Prop := {
  wf_size : N.of_nat (length (a_recs a)) < 2^32;
  (* the parent field is 0 or one plus the index of an earlier directory *)
  wf_parent : forall i r, at_ (a_recs a) i = Some r ->
    r_parent r = 0 \/
    exists j rj first nb, r_parent r = j + 1 /\ j < i /\ at_ (a_recs a) j = Some rj /\ r_payload rj = RDir first nb;
  (* strictly sorted *)
  wf_sorted : forall i j ri rj, i < j -> at_ (a_recs a) i = Some ri -> at_ (a_recs a) j = Some rj -> rec_lt ri rj;
  (* the children of a directory are exactly its range *)
  wf_dir : forall i r first nb, at_ (a_recs a) i = Some r -> r_payload r = RDir first nb ->
    first + nb <= N.of_nat (length (a_recs a)) /\
    forall k, first <= k < first + nb <-> (exists rk, at_ (a_recs a) k = Some rk /\ r_parent rk = i + 1);
  (* the root index is exactly the entries without parent *)
  wf_root : fst (a_root a) + snd (a_root a) <= N.of_nat (length (a_recs a)) /\
    forall k, fst (a_root a) <= k < fst (a_root a) + snd (a_root a) <->
              (exists rk, at_ (a_recs a) k = Some rk /\ r_parent rk = 0);
  wf_variant : forall i r v, at_ (a_recs a) i = Some r -> r_payload r <> RBad v;
  (* the other index covers the whole table *)
  wf_entries : a_entries a = (0, N.of_nat (length (a_recs a)))
}.

(** The archive holds exactly the map [m], each path once. *)
Definition aholds (a : archive) (m : pmap) : Prop :=
  (forall p nd, (exists i, astored a i p nd) <-> m p = Some nd) /\
  (forall i, i < N.of_nat (length (a_recs a)) -> exists p, apath a i p) /\
  (forall i p q, apath a i p -> apath a i q -> p = q) /\
  (forall i j p, apath a i p -> apath a j p -> i = j).
