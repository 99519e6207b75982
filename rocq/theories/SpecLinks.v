(** Where paths lead inside of a directory tree. *)
From Verif Require Export SpecAdd.

(** Following the components [comps] from the directory [cur] of the tree at [root] stays in that tree: it does
    not go up from [root] and meets no absolute link.  At most [k] links are followed. *)
Inductive stays_in (f : hostfs) (root : path) : nat -> path -> list bytes -> Prop :=
| stay_end k cur : stays_in f root k cur []
| stay_dot k cur r : stays_in f root k cur r -> stays_in f root k cur (b "." :: r)
| stay_up k cur x r : stays_in f root k cur r -> stays_in f root k (cur ++ [x]) (b ".." :: r)
| stay_none k cur c r : c <> b "." -> c <> b ".." -> h_names f (root ++ cur ++ [c]) = None -> stays_in f root k cur (c :: r)
| stay_file k cur c r i : c <> b "." -> c <> b ".." -> h_names f (root ++ cur ++ [c]) = Some (HFile i) -> stays_in f root k cur (c :: r)
| stay_dir k cur c r : c <> b "." -> c <> b ".." -> h_names f (root ++ cur ++ [c]) = Some HDir ->
    stays_in f root k (cur ++ [c]) r -> stays_in f root k cur (c :: r)
| stay_link k cur c r t m : c <> b "." -> c <> b ".." -> h_names f (root ++ cur ++ [c]) = Some (HLink t m) -> is_abs t = false ->
    stays_in f root k cur (pieces t ++ r) -> stays_in f root (S k) cur (c :: r)
| stay_many cur c r t m : c <> b "." -> c <> b ".." -> h_names f (root ++ cur ++ [c]) = Some (HLink t m) ->
    stays_in f root 0 cur (c :: r).

(** What is found is the same. *)
Definition same_found (f : hostfs) (n : hnode) (g : hostfs) (n' : hnode) : Prop :=
  match n, n' with
  | HDir, HDir => True
  | HFile i, HFile j => h_data f i = h_data g j
  | HLink t _, HLink u _ => t = u
  | _, _ => False
  end.

(** Two trees answer a look up in the same way: the same place in both with the same thing there, the same
    missing name, or the same error. *)
Definition same_way (f : hostfs) (root : path) (x : looked) (g : hostfs) (out : path) (y : looked) : Prop :=
  match x with
  | At p n => exists q n', p = root ++ q /\ y = At (out ++ q) n' /\ same_found f n g n'
  | Missing p => exists q, p = root ++ q /\ y = Missing (out ++ q)
  | Bad e => y = Bad e
  end.
