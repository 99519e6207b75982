(** A list of paths such as [find] prints, given to [arx create] with --file-list. *)
From Verif Require Export SpecCreated SpecList.

(** The line that [find ARG] prints for what is at [q] below ARG: ARG, a "/" unless ARG ends with one,
    and the names separated by "/". *)
Definition ends_in_slash (s : bytes) : Prop := exists t, s = t ++ [47].
Inductive prints (s : bytes) : path -> bytes -> Prop :=
| pr_self : prints s [] s
| pr_slash q : q <> [] -> ends_in_slash s -> prints s q (s ++ join q)
| pr_below q : q <> [] -> ~ ends_in_slash s -> prints s q (s ++ 47 :: join q).

(** A list of things found below the inputs: nothing twice, and a directory before what it contains. *)
Definition found_list (w : world) (inputs : list input) (items : list (input * path)) : Prop :=
  NoDup items /\
  (forall x q, In (x, q) items -> In x inputs /\ exists n, at_input w x q n) /\
  (forall l1 x q n l2, items = l1 ++ (x, q ++ [n]) :: l2 -> In (x, q) l1).
(** ... of everything there is. *)
Definition found_all (w : world) (inputs : list input) (items : list (input * path)) : Prop :=
  found_list w inputs items /\ forall x q n, In x inputs -> at_input w x q n -> In (x, q) items.

(** The file has one line for each, and the lines can be told apart: no newline, no carriage return at
    the end of a line. *)
Definition holds_lines (w : world) (fl : bytes) (items : list (input * path)) : Prop :=
  exists q i lines, look_str w true fl = At q (HFile i) /\ at_readable (w_attr w q) = true /\
    Forall2 (fun xq s => prints (in_arg (fst xq)) (snd xq) s) items lines /\
    (forall s, In s lines -> ~ In 10 s /\ forall t, s <> t ++ [13]) /\
    h_data (w_fs w) i = text lines.

(** The session [l] holds exactly the things listed, each under its path with its metadata and
    content, and the missing directories above the inputs. *)
Definition archives_items (w : world) (items : list (input * path)) (l : list entry) (contents : list bytes) : Prop :=
  (forall x q n, In (x, q) items -> at_input w x q n -> in_path x ++ q <> [] ->
     exists nd, has l (in_path x ++ q) nd /\ mirrors_as w (in_root x ++ q) n contents nd) /\
  (forall p nd, has l p nd ->
     (exists x q n, In (x, q) items /\ p = in_path x ++ q /\ at_input w x q n /\ mirrors_as w (in_root x ++ q) n contents nd) \/
     (nd = (KDir, mkMeta 1000 1000 493 0) /\ p <> [] /\ exists x q y t, In (x, q) items /\ in_path x = p ++ y :: t)).
