(** Model of the operations of the [relative_path] crate (1.9.3, pinned in /repo/Cargo.lock)
    that arx uses ([arx::Path] = RelativePath, [arx::PathBuf] = RelativePathBuf,
    /repo/libarx/src/common/mod.rs 16-17).  The crate is a dependency, not part of /repo: these
    definitions are read off its documented behaviour and belong to the trusted base. *)
From Verif Require Export Base.

(** The separator '/' . *)
Definition sep : byte := 47.
Definition is_sep (c : byte) : bool := c =? sep.

(** Split on '/', keeping empty pieces. *)
Fixpoint split_sep (s : bytes) : list bytes :=
  match s with
  | [] => [[]]
  | c :: r =>
      if is_sep c then [] :: split_sep r
      else match split_sep r with
           | h :: t => (c :: h) :: t
           | [] => [[c]]
           end
  end.

Definition nonempty (s : bytes) : bool := match s with [] => false | _ => true end.

(** The pieces of a path string: repeated separators count as one. *)
Definition pieces (s : bytes) : list bytes := filter nonempty (split_sep s).

(** relative_path::Component *)
Inductive comp := CurDir | ParentDir | Normal (n : bytes).

Definition classify (p : bytes) : comp :=
  if bytes_eqb p (b ".") then CurDir
  else if bytes_eqb p (b "..") then ParentDir
  else Normal p.

(** Component::as_str *)
Definition as_str (c : comp) : bytes :=
  match c with CurDir => b "." | ParentDir => b ".." | Normal n => n end.

Definition comp_eqb (x y : comp) : bool := bytes_eqb (as_str x) (as_str y).

(** RelativePath::components *)
Definition components (s : bytes) : list comp := map classify (pieces s).

(** RelativePath::iter: components as strings *)
Definition path_iter (s : bytes) : list bytes := map as_str (components s).

Fixpoint list_eqb {A} (eqb : A -> A -> bool) (x y : list A) : bool :=
  match x, y with
  | [], [] => true
  | a :: x', c :: y' => eqb a c && list_eqb eqb x' y'
  | _, _ => false
  end.

(** [impl PartialEq for RelativePath] (and [Hash]): component-wise. *)
Definition path_eqb (x y : bytes) : bool := list_eqb comp_eqb (components x) (components y).

Fixpoint take_while (f : byte -> bool) (s : bytes) : bytes :=
  match s with [] => [] | c :: r => if f c then c :: take_while f r else [] end.
Fixpoint drop_while (f : byte -> bool) (s : bytes) : bytes :=
  match s with [] => [] | c :: r => if f c then drop_while f r else s end.

Definition trim_start (s : bytes) : bytes := drop_while is_sep s.
Definition trim_end (s : bytes) : bytes := rev (drop_while is_sep (rev s)).

(** Components::next_back: last component and remaining path. *)
Definition next_back (s : bytes) : option comp * bytes :=
  let r := rev (trim_end s) in
  let slice := rev (take_while (fun c => negb (is_sep c)) r) in
  let rest := trim_end (rev (drop_while (fun c => negb (is_sep c)) r)) in
  (if nonempty slice then Some (classify slice) else None, rest).

(** Components::next: first component and remaining path. *)
Definition next_front (s : bytes) : option comp * bytes :=
  let r := trim_start s in
  let slice := take_while (fun c => negb (is_sep c)) r in
  let rest := trim_start (drop_while (fun c => negb (is_sep c)) r) in
  (if nonempty slice then Some (classify slice) else None, rest).

(** RelativePath::parent: [None] on the empty path, otherwise the trailing '.' components and one
    more component are dropped.  The fuel (the length of the path) is never exhausted: each turn
    removes at least one byte. *)
Fixpoint parent_loop (fuel : nat) (s : bytes) : bytes :=
  match fuel with
  | O => s
  | S k => match next_back s with
           | (Some CurDir, rest) => parent_loop k rest
           | (_, rest) => rest
           end
  end.
Definition parent (s : bytes) : option bytes :=
  match s with [] => None | _ => Some (parent_loop (length s) s) end.

(** RelativePath::file_name *)
Fixpoint file_name_loop (fuel : nat) (s : bytes) : option bytes :=
  match fuel with
  | O => None
  | S k => match next_back s with
           | (Some CurDir, rest) => file_name_loop k rest
           | (Some (Normal n), _) => Some n
           | (_, _) => None
           end
  end.
Definition file_name (s : bytes) : option bytes := file_name_loop (length s) s.

Definition ends_with_sep (s : bytes) : bool :=
  match rev s with c :: _ => is_sep c | [] => false end.

(** RelativePathBuf::push *)
Definition push (s other : bytes) : bytes :=
  let other' := match other with c :: r => if is_sep c then r else other | [] => [] end in
  (if nonempty s && negb (ends_with_sep s) then s ++ [sep] else s) ++ other'.

(** RelativePathBuf::pop (truncate to the length of the parent, no-op if there is none) *)
Definition pop (s : bytes) : bytes :=
  match parent s with Some p => p | None => s end.

(** RelativePath::strip_prefix: structural on the components of the prefix. *)
Fixpoint strip_components (s : bytes) (base : list comp) : option bytes :=
  match base with
  | [] => Some s
  | y :: base' => match next_front s with
                  | (Some x, rest) => if comp_eqb x y then strip_components rest base' else None
                  | (None, _) => None
                  end
  end.
Definition strip_prefix (s base : bytes) : option bytes := strip_components s (components base).

(** Join of names with '/'. *)
Fixpoint join (l : list bytes) : bytes :=
  match l with
  | [] => []
  | [x] => x
  | x :: r => x ++ sep :: join r
  end.

(** RelativePathBuf::from_path on unix: absolute paths are refused, '.' components are dropped,
    each remaining component must be UTF-8. *)
Definition from_path (s : bytes) : res bytes :=
  match s with
  | c :: _ => if is_sep c then Err ENonRelative else
      let l := filter (fun p => negb (bytes_eqb p (b "."))) (pieces s) in
      if forallb utf8 l then Ok (join l) else Err ENonUtf8
  | [] => Ok []
  end.

(** [std::path::Path::components] on unix; [None] is RootDir.  "." is dropped except at the start of
    a relative path. *)
Definition not_dot (p : bytes) : bool := negb (bytes_eqb p (b ".")).
Definition is_abs (s : bytes) : bool := match s with c :: _ => is_sep c | [] => false end.
Definition std_components (s : bytes) : list (option comp) :=
  if is_abs s then None :: map (fun p => Some (classify p)) (filter not_dot (pieces s))
  else match pieces s with
       | p :: r => Some (classify p) :: map (fun p => Some (classify p)) (filter not_dot r)
       | [] => []
       end.

(** RelativePath::from_path (the borrowed version): UTF-8, then the std components are compared one
    by one with the relative components, as far as both go. *)
Fixpoint zip_check (x : list (option comp)) (y : list comp) : res unit :=
  match x, y with
  | None :: _, _ :: _ => Err ENonRelative
  | Some c :: x', d :: y' => if comp_eqb c d then zip_check x' y' else Err EBadSeparator
  | _, _ => Ok tt
  end.
Definition ref_from_path (s : bytes) : res bytes :=
  if utf8 s then let? _ := zip_check (std_components s) (components s) in Ok s else Err ENonUtf8.

(** A list of pieces without its trailing "." (only used in specifications). *)
Fixpoint drop_trailing_dots_rev (l : list bytes) : list bytes :=
  match l with
  | p :: r => if bytes_eqb p (b ".") then drop_trailing_dots_rev r else l
  | [] => []
  end.
Definition drop_dots (l : list bytes) : list bytes := rev (drop_trailing_dots_rev (rev l)).
