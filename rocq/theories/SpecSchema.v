(** Specification of opening an archive: what a container must offer, and what its entries mean. *)
From Verif Require Export Schema SpecSession.

(** A property of this name and type. *)
Definition offers (l : list (bytes * (nat * pkind))) (n : bytes) (k : pkind) : Prop := exists i, assoc n l = Some (i, k).
(** A variant of this name with such a property. *)
Definition variant_offers (vs : list (list (bytes * (nat * pkind)))) (names : list (bytes * nat)) (v n : bytes) (k : pkind) : Prop :=
  exists x l, assoc v names = Some x /\ nth_error vs x = Some l /\ offers l n k.

(** The layouts arx can read: exactly three variants, and all properties by name. *)
Definition arx_layout (ly : layout) : Prop :=
  exists vs names, ly_variants ly = Some (vs, names) /\ length vs = 3%nat /\
    offers (ly_common ly) (b "name") TArray /\
    offers (ly_common ly) (b "parent") TUint /\
    offers (ly_common ly) (b "owner") TUint /\
    offers (ly_common ly) (b "group") TUint /\
    offers (ly_common ly) (b "rights") TUint /\
    offers (ly_common ly) (b "mtime") TUint /\
    variant_offers vs names (b "file") (b "content") TContent /\
    variant_offers vs names (b "file") (b "size") TUint /\
    variant_offers vs names (b "dir") (b "first_child") TUint /\
    variant_offers vs names (b "dir") (b "nb_children") TUint /\
    variant_offers vs names (b "link") (b "target") TArray.

(** No property has one of arx' names and another type. *)
Definition arx_type (n : bytes) (k : pkind) : Prop :=
  (n = b "name" -> k = TArray) /\ (n = b "target" -> k = TArray) /\ (n = b "content" -> k = TContent) /\
  (In n [b "parent"; b "owner"; b "group"; b "rights"; b "mtime"; b "size"; b "first_child"; b "nb_children"] -> k = TUint).
Definition arx_types (ly : layout) : Prop :=
  (forall n i k, assoc n (ly_common ly) = Some (i, k) -> arx_type n k) /\
  (forall vs names l n i k, ly_variants ly = Some (vs, names) -> In l vs -> assoc n l = Some (i, k) -> arx_type n k).

(** The index of this name and the entry store it is on. *)
Definition index_on (k : container) (name : bytes) (rg : N * N) (ly : layout) (rows : list row) : Prop :=
  exists store, assoc name (k_indexes k) = Some (store, rg) /\ nth_error (k_stores k) store = Some (ly, rows).

(** The value an entry has under a name, in the common part and in the part of its variant. *)
Definition field (ly : layout) (r : row) (n : bytes) (d : data) : Prop :=
  exists i k, assoc n (ly_common ly) = Some (i, k) /\ nth_error (rw_common r) i = Some d.
Definition variant_field (ly : layout) (r : row) (v n : bytes) (d : data) : Prop :=
  exists vs names x l i k, ly_variants ly = Some (vs, names) /\ assoc v names = Some x /\ rw_variant r = N.of_nat x /\
    nth_error vs x = Some l /\ assoc n l = Some (i, k) /\ nth_error (rw_more r) i = Some d.

(** An entry with these values under arx' names. *)
Definition means (ly : layout) (r : row) (e : rec) : Prop :=
  field ly r (b "name") (DArray (r_name e)) /\ field ly r (b "parent") (DUint (r_parent e)) /\
  field ly r (b "owner") (DUint (r_owner e)) /\ field ly r (b "group") (DUint (r_group e)) /\
  field ly r (b "rights") (DUint (r_rights e)) /\ field ly r (b "mtime") (DUint (r_mtime e)) /\
  match r_payload e with
  | RFile addr size => variant_field ly r (b "file") (b "content") (DContent addr) /\ variant_field ly r (b "file") (b "size") (DUint size)
  | RDir first nb => variant_field ly r (b "dir") (b "first_child") (DUint first) /\ variant_field ly r (b "dir") (b "nb_children") (DUint nb)
  | RLink t => variant_field ly r (b "link") (b "target") (DArray t)
  | RBad v => False
  end.

(** The variants are numbered as arx numbers them. *)
Definition arx_numbers (ly : layout) : Prop :=
  forall vs names, ly_variants ly = Some (vs, names) ->
    assoc (b "file") names = Some 0%nat /\ assoc (b "dir") names = Some 1%nat /\ assoc (b "link") names = Some 2%nat.
