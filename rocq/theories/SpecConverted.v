(** What is on disk once a tar or a zip was converted and the archive extracted. *)
From Verif Require Export SpecConvert SpecExtract.

(** What a member of a tar or of a zip is. *)
Inductive thing := GotDir | GotFile (data : bytes) | GotLink (target : bytes).

Definition tar_thing (m : tar_member) (t : thing) : Prop :=
  match t with
  | GotDir => tar_directory m
  | GotLink x => tar_link m /\ tm_link m = Ok (Some x)
  | GotFile data => tar_file m /\ tm_data m = Ok data
  end.
(** The tar has [t] at the path [p]. *)
Definition tar_has (items : list (res tar_member)) (p : path) (t : thing) : Prop :=
  exists m, In (Ok m) items /\ ~ tar_extension m /\ tar_path m p /\ tar_thing m t.

Definition zip_thing (file : bytes) (m : zip_member) (t : thing) : Prop :=
  match t with
  | GotDir => zip_directory m
  | GotLink _ => False
  | GotFile data => ~ zip_directory m /\ zip_bytes file m data
  end.
Definition zip_has (file : bytes) (items : list (option zip_member)) (p : path) (t : thing) : Prop :=
  exists m, In (Some m) items /\ stands_for (zm_name m) p /\ zip_thing file m t.

(** The file system has [t] at [q]. *)
Definition on_disk (g : hostfs) (q : path) (t : thing) : Prop :=
  match t with
  | GotDir => h_names g q = Some HDir
  | GotFile data => has_file g q data
  | GotLink x => has_link g q x
  end.

(** The names [p], followed one after the other, never go above where they start. *)
Definition inside (p : path) : Prop := forall l1 l2, p = l1 ++ l2 -> (0 <= ups l1)%Z.

(** Nothing but [out], what is below it and the missing directories above it was changed. *)
Definition only_below (f g : hostfs) (out : path) : Prop :=
  forall q, ~ below out q -> unchanged f g q \/ (h_names f q = None /\ h_names g q = Some HDir /\ exists t, out = q ++ t).

(** A destination without symbolic links below it and whose files have no other names elsewhere. *)
Record plain_dest (f : hostfs) (out : path) : Prop := {
  pd_links : forall q t m, below out q -> h_names f q <> Some (HLink t m);
  pd_inside : forall p q i, h_names f p = Some (HFile i) -> h_names f q = Some (HFile i) -> below out p -> below out q;
  pd_next : forall p i, h_names f p = Some (HFile i) -> i < h_next f }.
