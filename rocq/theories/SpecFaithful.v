(** What a successful [arx create] must have archived, on any host. *)
From Verif Require Export SpecCreated.

(** The directory [d] met from the input [s] is read at the physical path [q]: a directory, or the
    input itself when it is a link to one. *)
Definition enters (w : world) (s d : bytes) (q : path) : Prop :=
  (d = s /\ look_str w true d = At q HDir) \/ look_str w false d = At q HDir.

(** The paths that adding the input [s] goes through: [s] itself and, with recursion, each name listed
    in a directory among them. *)
Inductive walked (w : world) (recurse : bool) (s : bytes) : bytes -> Prop :=
| vis_self : walked w recurse s s
| vis_below d q names n : recurse = true -> walked w recurse s d -> enters w s d q ->
    w_list w q = Some names -> In n names -> walked w recurse s (path_join d n).

(** The lines of a text: each ends with "\n" or "\r\n", the last one may have no end. *)
Inductive text_lines : bytes -> list bytes -> Prop :=
| lines_none : text_lines [] []
| lines_lf x s l : ~ In 10 x -> (forall y, x <> y ++ [13]) -> text_lines s l -> text_lines (x ++ 10 :: s) (x :: l)
| lines_crlf x s l : ~ In 10 x -> text_lines s l -> text_lines (x ++ 13 :: 10 :: s) (x :: l)
| lines_last x : ~ In 10 x -> x <> [] -> text_lines x [x].

(** The lines of the file given by --file-list, which is UTF-8. *)
Definition lines_of (w : world) (o : create_opts) (files : option (list bytes)) : Prop :=
  match o_file_list o with
  | None => files = None
  | Some fl => exists q i l, look_str w true fl = At q (HFile i) /\ text_lines (h_data (w_fs w) i) l /\ Forall (fun x => utf8 x = true) l /\ files = Some l
  end.

(** The creation goes through the path [s]; is a link there followed?  With a list, its lines, as told
    by --follow-symlink; otherwise the inputs, followed, and what is below them, not followed. *)
Definition taken (w : world) (o : create_opts) (files : option (list bytes)) (s : bytes) (follow : bool) : Prop :=
  match files with
  | Some l => In s l /\ follow = o_follow o
  | None => exists x, In x (o_infiles o) /\ walked w (o_recurse o) x s /\ (follow = true <-> s = x)
  end.

(** [nd] has the kind, the content or target, the owner, the group, the mode and the time of what is
    at the path [s]. *)
Definition copied (w : world) (follow : bool) (s : bytes) (contents : list bytes) (nd : node) : Prop :=
  exists q n, look_str w follow s = At q n /\ mirrors_as w q n contents nd.

(** Everything stored comes from a path gone through (its archive path being the path without the
    prefix), or is a directory above one. *)
Definition only_from (w : world) (pre : bytes) (from : bytes -> bool -> Prop) (l : list entry) (contents : list bytes) : Prop :=
  forall p nd, has l p nd ->
    (exists s follow, from s follow /\ stands_for s (pieces pre ++ p) /\ copied w follow s contents nd) \/
    (nd = (KDir, mkMeta 1000 1000 493 0) /\ p <> [] /\
     exists s follow t, from s follow /\ t <> [] /\ stands_for s (pieces pre ++ p ++ t)).

(** Everything gone through is inside the prefix and, unless it is the prefix itself, exists and is
    stored: a directory as a directory, a regular file and a link with all they have.  Sockets,
    devices and pipes are left out. *)
Definition all_of (w : world) (pre : bytes) (from : bytes -> bool -> Prop) (l : list entry) (contents : list bytes) : Prop :=
  forall s follow, from s follow -> exists p, stands_for s (pieces pre ++ p) /\ (p <> [] ->
    exists q n, look_str w follow s = At q n /\
      match n with
      | HDir => exists mt, has l p (KDir, mt)
      | HFile _ => at_special (w_attr w q) = true \/
          (at_readable (w_attr w q) = true /\ exists nd, has l p nd /\ mirrors_as w q n contents nd)
      | HLink _ _ => exists nd, has l p nd /\ mirrors_as w q n contents nd
      end).
