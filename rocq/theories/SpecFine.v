(** What C79 and C80 say about extraction at the level of system calls. *)
From Verif Require Export Fine SpecExtract.

(** Files have inodes below [h_next]. *)
Definition numbered (f : hostfs) : Prop := forall q i, h_names f q = Some (HFile i) -> i < h_next f.
(** What other processes do, whatever it is, keeps that and does not use the number of a file twice. *)
Definition possible_env (g : hostfs -> hostfs) : Prop := forall f, numbered f -> numbered (g f) /\ h_next f <= h_next (g f).
Definition possible_events (l : list fevent) : Prop := forall g, In (Env g) l -> possible_env g.

(** Every name is still there and every file has its bytes and time. *)
Definition leaves (f f' : hostfs) : Prop :=
  (forall q n, h_names f q = Some n -> h_names f' q = Some n) /\
  (forall q i, h_names f q = Some (HFile i) -> h_data f' i = h_data f i /\ h_mtime f' i = h_mtime f i).

(** At each of its system calls the extraction leaves what exists at that moment, opens for writing only
    files that it makes with that call, and writes only to files that it has made. *)
Definition careful (acts : list act) : Prop := forall before x rest, acts = before ++ x :: rest ->
  match x with
  | Called f f' => leaves f f'
  | Opened f f' i => leaves f f' /\ (forall q, h_names f q <> Some (HFile i)) /\ exists q, h_names f q = None /\ h_names f' q = Some (HFile i)
  | Wrote f f' i => (forall q, h_names f' q = h_names f q) /\ (forall k, k <> i -> h_data f' k = h_data f k) /\
      (forall k, h_mtime f' k = h_mtime f k) /\ exists g g', In (Opened g g' i) before
  end.
