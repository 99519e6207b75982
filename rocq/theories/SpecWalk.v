(** What a walk reports. *)
From Verif Require Export SpecReader.

Inductive event :=
| Enter (d : dir_entry)
| Exit (d : dir_entry)
| VisitFile (f : file_entry)
| VisitLink (l : link_entry).

(** An operator that records the callbacks it receives, and asks to enter the directories whose
    index satisfies [keep]. *)
Definition recorder (keep : N -> bool) : operator (list event) file_entry link_entry dir_entry :=
  mkOp (fun c => (c, Ok tt)) (fun c => (c, Ok tt))
       (fun c d => (c ++ [Enter d], Ok (keep (c_idx (fst d)))))
       (fun c d => (c ++ [Exit d], Ok tt))
       (fun c f => (c ++ [VisitFile f], Ok tt))
       (fun c l => (c ++ [VisitLink l], Ok tt)).

(** [listing a d evs]: the events are a well-bracketed listing of entries of directory [d] of the
    archive: between the Enter and the Exit of a directory there are only entries below it. *)
Inductive listing (a : archive) (keep : N -> bool) : path -> list event -> Prop :=
| l_nil d : listing a keep d []
| l_file d f i n nd rest : astored a i (d ++ [n]) nd -> shows a (GFile f) i (d ++ [n]) nd ->
    listing a keep d rest -> listing a keep d (VisitFile f :: rest)
| l_link d l i n nd rest : astored a i (d ++ [n]) nd -> shows a (GLink l) i (d ++ [n]) nd ->
    listing a keep d rest -> listing a keep d (VisitLink l :: rest)
| l_dir d x i n nd body rest : astored a i (d ++ [n]) nd -> shows a (GDir (snd x) x) i (d ++ [n]) nd ->
    listing a keep (d ++ [n]) body -> (keep i = false -> body = []) ->
    listing a keep d rest -> listing a keep d (Enter x :: body ++ Exit x :: rest).

(** The entries reported, in the order of their first event. *)
Fixpoint visits (evs : list event) : list full_entry :=
  match evs with
  | [] => []
  | Enter x :: r => GDir (snd x) x :: visits r
  | Exit _ :: r => visits r
  | VisitFile f :: r => GFile f :: visits r
  | VisitLink l :: r => GLink l :: visits r
  end.

(** The walk may reach [p]: every proper ancestor strictly below [d] is kept. *)
Definition reached (a : archive) (keep : N -> bool) (d p : path) : Prop :=
  forall q x t j, q <> [] -> p = (d ++ q) ++ x :: t -> apath a j (d ++ q) -> keep j = true.
