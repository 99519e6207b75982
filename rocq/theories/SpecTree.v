(** Specification of the creator: a map from paths to nodes.  Independent of the model. *)
From Verif Require Export Api RelPath.

(** The abstract archive: what is stored under each (non-root) path. *)
Definition pmap := path -> option node.
Definition empty_map : pmap := fun _ => None.

Fixpoint path_beq (p q : path) : bool :=
  match p, q with
  | [], [] => true
  | a :: p', c :: q' => if list_eq_dec N.eq_dec a c then path_beq p' q' else false
  | _, _ => false
  end.

Fixpoint is_prefix (q p : path) : bool :=
  match q, p with
  | [], _ => true
  | a :: q', c :: p' => if list_eq_dec N.eq_dec a c then is_prefix q' p' else false
  | _ :: _, [] => false
  end.

(** All non-empty prefixes of a path. *)
Fixpoint prefixes (p : path) : list path :=
  match p with
  | [] => []
  | n :: r => [n] :: map (cons n) (prefixes r)
  end.

(** A directory that nobody described: owner 1000, group 1000, 0o755, mtime 0. *)
Definition implicit_dir : node := (KDir, mkMeta 1000 1000 493 0).

(** Some ancestor is stored as something else than a directory. *)
Definition blocked (m : pmap) (dir : path) : bool :=
  existsb (fun q => match m q with Some n => negb (is_dir_node n) | None => false end) (prefixes dir).

(** The map completed with the missing directories on the way to [dir]. *)
Definition with_dirs (m : pmap) (dir : path) : pmap := fun q =>
  match m q with
  | Some n => Some n
  | None => if (match q with [] => false | _ => is_prefix q dir end) then Some implicit_dir else None
  end.

Definition update (m : pmap) (p : path) (n : node) : pmap :=
  fun q => if path_beq q p then Some n else m q.

(** Adding an entry whose path consists of the directory [dir] and the final name [last]
    ([None] when the path has no final name). *)
Definition spec_add (m : pmap) (dir : path) (last : option name) (k : res (option kind)) (mt : meta)
  : pmap * res unit :=
  if blocked m dir then (m, Err EParentNotDir)
  else
    let m1 := with_dirs m dir in
    match k, last with
    | Err x, _ => (m1, Err x)
    | Panic, _ => (m1, Panic)
    | Diverge, _ => (m1, Diverge)
    | Ok None, _ => (m1, Ok tt)
    | Ok (Some _), None => (m1, Panic)
    | Ok (Some k), Some n =>
        let p := dir ++ [n] in
        match m p, k with
        | None, _ => (update m1 p (k, mt), Ok tt)
        | Some old, KDir => if is_dir_node old then (m, Ok tt) else (m, Err EDirClash)
        | Some _, KFile _ _ => (m, Err EFileClash)
        | Some _, KLink _ => (m, Err ELinkClash)
        end
    end.

(** A path string names the directory made of its components but the last, and its last component.
    Empty components and trailing "." do not count; a path that is empty or ends in ".." has no
    last name. *)
Definition dir_of (s : bytes) : path := removelast (drop_dots (pieces s)).
Definition last_of (s : bytes) : option name :=
  match rev (drop_dots (pieces s)) with
  | n :: _ => if bytes_eqb n (b "..") then None else Some n
  | [] => None
  end.

Definition spec_add_entry (m : pmap) (e : entry) : pmap * res unit :=
  spec_add m (dir_of (e_path e)) (last_of (e_path e)) (e_kind e) (e_meta e).

(** A history of calls; it stops at the first panic. *)
Fixpoint spec_adds (m : pmap) (l : list entry) : pmap * list (res unit) :=
  match l with
  | [] => (m, [])
  | e :: r =>
      match spec_add_entry m e with
      | (m1, Ok u) => let (m2, outs) := spec_adds m1 r in (m2, Ok u :: outs)
      | (m1, Err x) => let (m2, outs) := spec_adds m1 r in (m2, Err x :: outs)
      | (m1, o) => (m1, [o])
      end
  end.
