(** Sessions: a creator used for a list of [add_entry] calls and then finalised. *)
From Verif Require Export Layout SpecStore SpecArchive SpecReader.

(** The creator after a history of calls (a history stops at its first panic). *)
Definition after (l : list entry) : cstate := fst (run_adds creator_new l).
Definition answers (l : list entry) : list (res unit) := snd (run_adds creator_new l).

(** What is stored after a history. *)
Definition has (l : list entry) (p : path) (nd : node) : Prop := stored (cs_store (after l)) p nd.

(** jubako numbers entries with 32 bits. *)
Definition small (l : list entry) : Prop := N.of_nat (length (cs_store (after l))) < 2^32.

(** [a] is the archive written after history [l], with contents [fetch]. *)
Definition archive_of (l : list entry) (fetch : caddr -> fetched) (a : archive) : Prop :=
  write_archive (after l) fetch = Some a.

(** Accessors common to the three kinds of entries. *)
Definition common_of (e : full_entry) : common :=
  match e with GFile (c, _, _) => c | GLink (c, _) => c | GDir _ (c, _) => c end.

(** Following [parent()] [k] times from an entry; [Some None] is the root. *)
Fixpoint climb (a : archive) (k : nat) (i : option N) : option (option N) :=
  match k with
  | O => Some i
  | S k =>
      match i with
      | None => None
      | Some j => match get_entry_at_idx full_builder a j with
                  | Ok e => climb a k (c_parent (common_of e))
                  | _ => None
                  end
      end
  end.
