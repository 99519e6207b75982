(** Interrupted extractions: what may be found at the destination. *)
From Verif Require Export Killed SpecExtract.

(** The name [q] is free, or holds what the entry [nd] of the archive is: a directory, a link with that
    target, or a file with the beginning of that content. *)
Definition begun (fetch : caddr -> fetched) (g : hostfs) (q : path) (nd : node) : Prop :=
  match h_names g q, fst nd with
  | None, _ => True
  | Some HDir, KDir => True
  | Some (HFile i), KFile _ addr => exists data k, fetch addr = Found data /\ h_data g i = firstn k data
  | Some (HLink t _), KLink u => t = u
  | _, _ => False
  end.
Definition partly (l : list entry) (fetch : caddr -> fetched) (d : path) (g : hostfs) (out : path) : Prop :=
  forall p nd, p <> [] -> has l (d ++ p) nd -> begun fetch g (out ++ p) nd.

(** Nothing else changed, except that the output directory and those above it may have been made. *)
Definition aside (l : list entry) (d out : path) (f g : hostfs) : Prop :=
  forall q, (forall p nd, p <> [] -> has l (d ++ p) nd -> q <> out ++ p) ->
    unchanged f g q \/ (h_names f q = None /\ h_names g q = Some HDir /\ exists t, out = q ++ t).

(** Any number of runs, each killed somewhere (or having failed), with whatever policies and
    selections, at whatever times. *)
Inductive killed_runs (a : archive) (rg : range) (base : opath) (f : hostfs) : hostfs -> Prop :=
| killed_none : killed_runs a rg base f f
| killed_more g cfg sched last n j t : killed_runs a rg base f g -> x_base cfg = base ->
    killed_runs a rg base f (killed_run a rg cfg sched last n j (at_time t g)).
