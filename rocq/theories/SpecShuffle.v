(** What C106 compares: two tars, or two zips, with the same members in another order. *)
From Verif Require Export SpecTools.

(** Two members that say the same, their places in the file aside. *)
Definition like_tar (m1 m2 : tar_member) : Prop :=
  tm_uid m1 = tm_uid m2 /\ tm_gid m1 = tm_gid m2 /\ tm_mode m1 = tm_mode m2 /\ tm_mtime m1 = tm_mtime m2 /\
  tm_link m1 = tm_link m2 /\ tm_data m1 = tm_data m2 /\ (tar_directory m1 <-> tar_directory m2) /\ (tar_link m1 <-> tar_link m2).
Definition like_zip (file1 : bytes) (m1 : zip_member) (file2 : bytes) (m2 : zip_member) : Prop :=
  zm_mode m1 = zm_mode m2 /\ zm_size m1 = zm_size m2 /\ (forall t, zip_time m1 t <-> zip_time m2 t) /\
  (zip_directory m1 <-> zip_directory m2) /\ (forall d, zip_bytes file1 m1 d <-> zip_bytes file2 m2 d).

(** The tar has the member [m], which is not an extension header, for the path [p]. *)
Definition tar_has_member (items : list (res tar_member)) (m : tar_member) (p : path) : Prop :=
  In (Ok m) items /\ ~ tar_extension m /\ tar_path m p.
Definition zip_has_member (items : list (option zip_member)) (m : zip_member) (p : path) : Prop :=
  In (Some m) items /\ stands_for (zm_name m) p.

(** The same paths, with members that say the same. *)
Definition same_tars (items1 items2 : list (res tar_member)) : Prop :=
  (forall p, (exists m, tar_has_member items1 m p) <-> (exists m, tar_has_member items2 m p)) /\
  (forall m1 m2 p, tar_has_member items1 m1 p -> tar_has_member items2 m2 p -> like_tar m1 m2).
Definition same_zips (file1 : bytes) (items1 : list (option zip_member)) (file2 : bytes) (items2 : list (option zip_member)) : Prop :=
  (forall p, (exists m, zip_has_member items1 m p) <-> (exists m, zip_has_member items2 m p)) /\
  (forall m1 m2 p, zip_has_member items1 m1 p -> zip_has_member items2 m2 p -> like_zip file1 m1 file2 m2).

(** A tar member and a zip member that say the same. *)
Definition like_tar_zip (m1 : tar_member) (file : bytes) (m2 : zip_member) : Prop :=
  tm_uid m1 = Ok 0 /\ tm_gid m1 = Ok 0 /\
  (exists o, tm_mode m1 = Ok o /\ (zm_mode m2 = Some o \/ (zm_mode m2 = None /\ o = 420))) /\
  (exists t, tm_mtime m1 = Ok t /\ zip_time m2 t) /\
  (tar_directory m1 <-> zip_directory m2) /\ ~ tar_link m1 /\
  (~ tar_directory m1 -> exists d, tm_data m1 = Ok d /\ zip_bytes file m2 d /\ zm_size m2 = N.of_nat (length d)).
Definition tar_and_zip (items1 : list (res tar_member)) (file : bytes) (items2 : list (option zip_member)) : Prop :=
  (forall p, (exists m, tar_has_member items1 m p) <-> (exists m, zip_has_member items2 m p)) /\
  (forall m1 m2 p, tar_has_member items1 m1 p -> zip_has_member items2 m2 p -> like_tar_zip m1 file m2).
