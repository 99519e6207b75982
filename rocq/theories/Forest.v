(** The tree below a range of entries, and the walk on it: the reference the walker is compared to. *)
From Verif Require Export SpecReader.

(** A forest, in first-child / next-sibling form: an entry, what is below it, its next siblings. *)
Inductive forest :=
| FNil
| FCons (i : N) (r : rec) (kids rest : forest).

(** [f] is the forest of the entries from [lo] to [hi]. *)
Inductive forest_of (a : archive) : N -> N -> forest -> Prop :=
| fo_nil lo : forest_of a lo lo FNil
| fo_leaf lo hi r rest : lo < hi -> at_ (a_recs a) lo = Some r -> (forall f n, r_payload r <> RDir f n) ->
    forest_of a (lo + 1) hi rest -> forest_of a lo hi (FCons lo r FNil rest)
| fo_dir lo hi r first nb kids rest : lo < hi -> at_ (a_recs a) lo = Some r -> r_payload r = RDir first nb ->
    forest_of a first (first + nb) kids ->
    forest_of a (lo + 1) hi rest -> forest_of a lo hi (FCons lo r kids rest).

(** Depth-first walk: a directory is entered, walked, left. *)
Fixpoint walk_forest {C F L D} (B : builder F L D) (a : archive) (op : operator C F L D) (f : forest) (c : C)
  : C * res unit :=
  match f with
  | FNil => (c, Ok tt)
  | FCons i _ kids rest =>
      andthen (c, create_entry B a i) (fun c e =>
        match e with
        | GFile x => andthen (on_file op c x) (fun c _ => walk_forest B a op rest c)
        | GLink x => andthen (on_link op c x) (fun c _ => walk_forest B a op rest c)
        | GDir _ x =>
            andthen (on_enter op c x) (fun c enter =>
              andthen (if enter : bool then walk_forest B a op kids c else (c, Ok tt)) (fun c _ =>
                andthen (on_exit op c x) (fun c _ => walk_forest B a op rest c)))
        end)
  end.

(** Entries of a forest in preorder, with their paths; [d] is the path of the directory above. *)
Fixpoint flat (d : path) (f : forest) : list (N * path) :=
  match f with
  | FNil => []
  | FCons i r kids rest => (i, d ++ [r_name r]) :: flat (d ++ [r_name r]) kids ++ flat d rest
  end.
