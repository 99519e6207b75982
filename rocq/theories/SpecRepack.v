(** Archiving a directory that holds an extraction. *)
From Verif Require Export SpecUpdate SpecCreated.

(** The owner of the extraction can read it: the OS lists the names of each directory, in any order; the
    files are regular and can be read. *)
Record can_read (w : world) (root : path) : Prop := {
  cr_lists : forall p, p = [] \/ h_names (w_fs w) (root ++ p) = Some HDir ->
    exists names, w_list w (root ++ p) = Some names /\ NoDup names /\
      forall n, In n names <-> h_names (w_fs w) (root ++ p ++ [n]) <> None;
  cr_files : forall p i, p <> [] -> h_names (w_fs w) (root ++ p) = Some (HFile i) ->
    at_special (w_attr w (root ++ p)) = false /\ at_readable (w_attr w (root ++ p)) = true }.

(** The times in the attributes are those of the file system (seconds and nanoseconds). *)
Definition true_times (w : world) : Prop := forall q t, time_of (w_fs w) q = Some t -> at_mtime (w_attr w q) = (t / 1000000000)%Z.

(** The same thing, whoever owns it and whenever it was written. *)
Definition same_thing (fetch fetch2 : caddr -> fetched) (nd nd2 : node) : Prop :=
  match fst nd with
  | KDir => fst nd2 = KDir
  | KLink t => fst nd2 = KLink t
  | KFile _ addr => exists data addr2, fetch addr = Found data /\ fst nd2 = KFile (N.of_nat (length data)) addr2 /\ fetch2 addr2 = Found data
  end.

(** The second archive holds below [P] the entries of the first that [sel] describes, and nothing else but
    the directories above. *)
Definition repacked (l : list entry) (fetch : caddr -> fetched) (sel : path -> node -> Prop) (P : path)
    (l2 : list entry) (fetch2 : caddr -> fetched) : Prop :=
  (forall q nd, has l q nd -> sel q nd -> exists nd2, has l2 (P ++ q) nd2 /\ same_thing fetch fetch2 nd nd2) /\
  (forall p nd2, has l2 p nd2 ->
     (exists q nd, p = P ++ q /\ has l q nd /\ sel q nd /\ same_thing fetch fetch2 nd nd2) \/
     (fst nd2 = KDir /\ exists t, P = p ++ t)).

(** Asked for by one of several extractions. *)
Definition one_asked (parts : list (list bytes)) (rc : bool) (p : path) (nd : node) : Prop :=
  exists files, In files parts /\ asked files rc p nd.
