(** When [tar2arx] and [zip2arx] succeed (C101). *)
From Verif Require Export SpecConvert.

(** A member of a zip that can be archived: a safe name, a time, and bytes that can be decompressed if
    it is not a directory and not stored as it is. *)
Definition zip_usable (m : zip_member) : Prop :=
  safe_name (zm_name m) /\ (exists t, zip_time m t) /\ (~ zip_directory m -> zm_stored m = false -> exists data, zm_data m = Ok data).

(** All members of the zip can be read and archived; [t] lists their paths and kinds. *)
Inductive zip_contains : list (option zip_member) -> list (path * bool) -> Prop :=
| zc_nil : zip_contains [] []
| zc_one l t m p d : zip_contains l t -> zip_usable m -> stands_for (zm_name m) p -> (d = true <-> zip_directory m) ->
    zip_contains (l ++ [Some m]) (t ++ [(p, d)]).

(** The name of the archive is given, or can be inferred from that of the tar. *)
Definition tar_named (o : tar_opts) : Prop :=
  (exists out, to_out o = Some out) \/
  (exists f, to_file o = Some f /\ f <> b "-" /\ (like_url f -> exists d n, file_in f d n)).
