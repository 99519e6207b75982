(** Extracting again in a directory that holds an extraction. *)
From Verif Require Export SpecExtract Cli.

(** The same file system at another time. *)
Definition later (f : hostfs) (t : Z) : hostfs := mkHost (h_names f) (h_data f) (h_mtime f) (h_next f) (h_dirtime f) t.

(** An archive as [arx create] makes them from ordinary trees: built by the additions [l], with contents [fetch];
    ordinary names; every file has its bytes; targets are not empty. *)
Record ready (l : list entry) (fetch : caddr -> fetched) (a : archive) : Prop := {
  rd_small : small l;
  rd_built : archive_of l fetch a;
  rd_names : forall p nd n, has l p nd -> In n p -> ordinary n /\ utf8 n = true;
  rd_bytes : forall p size addr mt, has l p (KFile size addr, mt) -> exists data, fetch addr = Found data;
  rd_targets : forall p t mt, has l p (KLink t, mt) -> utf8 t = true /\ t <> [] }.

(** [g] has at [q] what the node [nd] is, with its bytes or target. *)
Definition is_shown (fetch : caddr -> fetched) (g : hostfs) (q : path) (nd : node) : Prop :=
  match fst nd with
  | KDir => h_names g q = Some HDir
  | KFile _ addr => exists data, fetch addr = Found data /\ has_file g q data
  | KLink t => has_link g q t
  end.
Definition same_kind (x y : node) : Prop :=
  match fst x, fst y with
  | KDir, KDir | KFile _ _, KFile _ _ | KLink _, KLink _ => True
  | _, _ => False
  end.

(** Below [out], [g] has exactly the entries of the archive that [sel] describes. *)
Definition holds_part (l : list entry) (fetch : caddr -> fetched) (g : hostfs) (out : path) (sel : path -> node -> Prop) : Prop :=
  forall p, p <> [] ->
    (forall nd, has l p nd -> sel p nd -> is_shown fetch g (out ++ p) nd) /\
    (h_names g (out ++ p) <> None -> exists nd, has l p nd /\ sel p nd).

(** [in_parts a od rc w parts w']: [arx extract -C od] run once for each list of paths, successfully, at
    any times, with any policies. *)
Inductive in_parts (a : archive) (od : option bytes) (rc : bool) : world -> list (list bytes) -> world -> Prop :=
| parts_none w : in_parts a od rc w [] w
| parts_more w files parts w1 w2 pol sched last g t :
    extract_cmd w a od files None None rc pol sched last = (g, Ok tt) ->
    w_fs w1 = later g t -> w_cwd w1 = w_cwd w -> in_parts a od rc w1 parts w2 ->
    in_parts a od rc w (files :: parts) w2.

(** The selection of a list of paths. *)
Definition asked (files : list bytes) (rc : bool) (p : path) (nd : node) : Prop :=
  selected files rc p (match fst nd with KDir => true | _ => false end).

(** The policies that do not stop at an existing file; "newer" aborts on times of 2^63 s and more. *)
Definition goes_on (pol : overwrite) (l : list entry) : Prop :=
  match pol with Error => False | Newer => forall p nd, has l p nd -> m_mtime (snd nd) < 2^63 | _ => True end.
