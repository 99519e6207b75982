(** What every way of reading an archive must show, given the things it was made of. *)
From Verif Require Export SpecConverted SpecMount SpecPython SpecList PropFuse Cli PropPython2.
From Verif Require Import Fuse.

(** There is something at [p], or below it. *)
Definition occupied (have : path -> thing -> Prop) (p : path) : Prop :=
  exists q t, have q t /\ (q = p \/ proper_prefix p q).

(** [arx list]: one line per occupied path, in the order of the paths. *)
Definition list_gives (have : path -> thing -> Prop) (a : archive) : Prop := exists ps,
  list_cmd a None = (text (map join ps), Ok tt) /\ StronglySorted path_lt ps /\
  forall p, In p ps <-> p <> [] /\ occupied have p.

(** [arx dump]: the bytes of a file, an error and no byte for any other path. *)
Definition dump_gives (have : path -> thing -> Prop) (a : archive) : Prop := forall w s output, pieces s <> [] ->
  output = None \/ output = Some (b "-") ->
  (forall data, have (pieces s) (GotFile data) -> dump w a s output = (data, Ok tt)) /\
  ((forall data, ~ have (pieces s) (GotFile data)) -> exists e, dump w a s output = ([], Err e)).

(** A mount of the archive. *)
Definition mount_gives (have : path -> thing -> Prop) (about : path -> meta -> Prop) (a : archive) : Prop := forall h s p out,
  resolves a (a_root a) h s p out -> p <> [] ->
  match out with
  | Refused _ => ~ occupied have p
  | Reached ino k =>
      occupied have p /\
      (forall q t, have q t -> proper_prefix p q -> k = FtDir) /\
      (forall t, have p t ->
         match t with
         | GotDir => k = FtDir
         | GotLink x => k = FtLink /\ snd (step a (a_root a) s (Readlink ino)) = Ok (RData x)
         | GotFile data => k = FtFile /\ snd (step a (a_root a) s (Open ino)) = Ok ROpened /\
             (releases ino h < opens ino h -> forall sizes, (length data <= list_sum (map N.to_nat sizes))%nat ->
                reading a (a_root a) s ino 0 sizes = Ok data)
         end) /\
      forall m, about p m -> exists x, snd (step a (a_root a) s (Getattr ino)) = Ok (RAttr x) /\ at_kind x = k /\
         at_uid x = m_uid m mod 2^32 /\ at_gid x = m_gid m mod 2^32 /\ at_mtime x = m_mtime m /\
         forall j, N.testbit (at_perm x) j = N.testbit (m_mode m) j && (j <? 16) && negb ((j =? 1) || (j =? 4) || (j =? 7))
  end.

(** The module for Python. *)
Definition python_gives (have : path -> thing -> Prop) (about : path -> meta -> Prop) (a : archive) : Prop := forall s p,
  stands_for s p -> p <> [] ->
  (forall t, have p t -> exists e, py_get_entry a s = Ok e /\
     match t with
     | GotDir => py_is_dir e = true
     | GotLink x => py_is_link e = true /\ py_get_target e = Ok x
     | GotFile data => py_is_file e = true /\ exists st, py_get_content a e = Ok st /\
         forall ns, N.of_nat (length data) <= fold_right N.add 0 ns -> concat (snd (reads st ns)) = data
     end) /\
  (forall m, about p m -> exists e, py_get_entry a s = Ok e /\
     py_owner e = m_uid m mod 2^32 /\ py_group e = m_gid m mod 2^32 /\ py_rights e = m_mode m mod 2^8 /\ py_mtime e = m_mtime m) /\
  (~ occupied have p -> raises (py_get_entry a s)).

(** What the tar says of the entry [p]: the member itself; for a directory, provided it comes before
    whatever is in it, and is the first with this path. *)
Definition tar_about (items : list (res tar_member)) (p : path) (mt : meta) : Prop := exists l1 m l2,
  items = l1 ++ Ok m :: l2 /\ ~ tar_extension m /\ tar_path m p /\ tar_meta m mt /\
  (tar_directory m -> forall m' q, In (Ok m') l1 -> ~ tar_extension m' -> tar_path m' q -> q <> p /\ ~ proper_prefix p q).
(** The same for a zip, which has no owner or group. *)
Definition zip_about (items : list (option zip_member)) (p : path) (mt : meta) : Prop := exists l1 m l2,
  items = l1 ++ Some m :: l2 /\ stands_for (zm_name m) p /\ m_uid mt = 0 /\ m_gid mt = 0 /\
  (zm_mode m = Some (m_mode mt) \/ (zm_mode m = None /\ m_mode mt = 420)) /\ zip_time m (m_mtime mt) /\
  (zip_directory m -> forall m' q, In (Some m') l1 -> stands_for (zm_name m') q -> q <> p /\ ~ proper_prefix p q).

(** FUSE can show the members: times that fit in 63 bits, sizes in 64. *)
Definition tar_showable (items : list (res tar_member)) : Prop := forall m, In (Ok m) items -> ~ tar_extension m ->
  (forall t, tm_mtime m = Ok t -> t < 2^63) /\
  (forall x, tm_link m = Ok (Some x) -> N.of_nat (length x) + 4095 < 2^64) /\
  (forall d, tm_data m = Ok d -> N.of_nat (length d) + 4095 < 2^64).
Definition zip_showable (items : list (option zip_member)) : Prop := forall m, In (Some m) items ->
  (forall t, zip_time m t -> t < 2^63) /\ zm_size m + 4095 < 2^64.
