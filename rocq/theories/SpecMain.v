(** What C76 and C77 say about runs of [arx]. *)
From Verif Require Export Main SpecCreateHost SpecCreated.

(** A run that is not asked to replace anything: creation of one file without [--force] (to a path that
    does not end with "/" or "/."), extraction with skip, warn or error, listing, printing. *)
Definition gentle (inv : invocation) : Prop :=
  match inv with
  | ICreate o => o_force o = false /\ create_concat (o_concat o) = Ok OneFile /\ ends_with_sep (o_out o) = false /\ (forall c, pieces (o_out o) <> c ++ [b "."])
  | IExtract _ _ _ _ _ _ pol => pol = Skip \/ pol = Warn \/ pol = Error
  | IList _ _ | IDump _ _ _ => True
  end.

(** In the world [w] the path [s] leads to a file holding [d]. *)
Definition shows_file (w : world) (s d : bytes) : Prop := exists q i, look_str w true s = At q (HFile i) /\ h_data (w_fs w) i = d.

(** The standard output takes all of [x]. *)
Definition takes (dv : device) (x : bytes) : Prop := forall n, dv_room dv = Some n -> (length x <= n)%nat.

(** jbk reads back the bytes it wrote for the output [n] of this run, and the entries fit an index of
    2^32. *)
Definition reads_back (parse : bytes -> res archive) (J : jbk) (fuel : nat) (w : world) (o : create_opts) (n : bytes) : Prop :=
  forall c a w', entered w (o_base o) w' -> fill fuel w w' o = (c, Ok tt) -> finalize c = Some a ->
    parse (jb_bytes J OneFile n c n) = Ok a /\ N.of_nat (length (a_recs a)) < 2^32.
