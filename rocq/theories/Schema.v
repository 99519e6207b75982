(** Model of how entries are laid out and found again: the schema and the values the creator gives
    (/repo/libarx/src/create/entry_store_creator.rs), what jbk does with them (contract of the
    dependency, trusted), and how an archive is opened (/repo/libarx/src/common/properties.rs,
    /repo/libarx/src/arx.rs).
    Simplification: jbk's encoding of a value (number of bytes, prefix of arrays, value stores,
    constants moved to the layout) is not modelled: a stored value is read back as it is. *)
From Verif Require Export Layout.

(** [Property], properties.rs lines 1-14. *)
Inductive property :=
| PName | PParent | POwner | PGroup | PRights | PMtime
| PContent | PSize | PFirstChild | PNbChildren | PTarget.
Scheme Boolean Equality for property.

(** [Property::to_string], properties.rs lines 16-33. *)
Definition property_str (p : property) : bytes :=
  match p with
  | PName => b "name" | PParent => b "parent" | POwner => b "owner" | PGroup => b "group"
  | PRights => b "rights" | PMtime => b "mtime" | PContent => b "content" | PSize => b "size"
  | PFirstChild => b "first_child" | PNbChildren => b "nb_children" | PTarget => b "target"
  end.

(** [EntryType], /repo/libarx/src/common/entry_type.rs lines 1-7. *)
Inductive etype := TFile | TDir | TLink.
Scheme Boolean Equality for etype.

(** [EntryType::to_string], entry_type.rs lines 21-29. *)
Definition etype_str (t : etype) : bytes :=
  match t with TFile => b "file" | TDir => b "dir" | TLink => b "link" end.

(** [TryFrom<VariantIdx> for EntryType], entry_type.rs lines 9-19. *)
Definition etype_of_id (v : N) : option etype :=
  match v with 0 => Some TFile | 1 => Some TDir | 2 => Some TLink | _ => None end.

(** The types of properties used (jbk [schema::Property] and [layout::PropertyKind]). *)
Inductive pkind := TArray | TUint | TContent.
Scheme Boolean Equality for pkind.

(** jbk [schema::Schema]. *)
Record schema := mkSchema {
  sc_common : list (property * pkind);
  sc_variants : list (etype * list (property * pkind));
  sc_keys : list property }.

(** [entry_def], entry_store_creator.rs lines 253-289. *)
Definition entry_def : schema :=
  mkSchema
    [(PName, TArray); (PParent, TUint); (POwner, TUint); (PGroup, TUint); (PRights, TUint); (PMtime, TUint)]
    [(TFile, [(PContent, TContent); (PSize, TUint)]);
     (TDir, [(PFirstChild, TUint); (PNbChildren, TUint)]);
     (TLink, [(PTarget, TArray)])]
    [PParent; PName].

(** [jbk::Value].  [UnsignedWord] holds a closure, evaluated each time the value is needed: here a
    function of the current positions of the entries. *)
Inductive value :=
| VArray (x : bytes)
| VUnsigned (n : N)
| VWord (g : list slot -> N)
| VContent (a : caddr).

(** The values maps, entry_store_creator.rs lines 103-124 and 153-166 with the insertions of lines
    181-188, 208-209 and 226; an association list instead of a HashMap. *)
Definition values_of (st : cstate) (s : slot) : list (property * value) :=
  let e := sentry_of (cs_store st) s in
  let m := se_meta e in
  [(PName, VArray (se_name e));
   (PParent, VWord (fun ord => parent_value ord (se_parent e)));
   (POwner, VUnsigned (m_uid m));
   (PGroup, VUnsigned (m_gid m));
   (PRights, VUnsigned (m_mode m));
   (PMtime, VUnsigned (m_mtime m))] ++
  match se_kind e with
  | KDir => [(PFirstChild, VWord (fun ord => first_child st ord s));
             (PNbChildren, VWord (fun _ => nb_children st (Some s)))]
  | KFile size addr => [(PContent, VContent addr); (PSize, VUnsigned size)]
  | KLink t => [(PTarget, VArray t)]
  end.

(** The variant given to [new_from_schema], lines 128, 192, 212 and 229. *)
Definition variant_of (k : kind) : etype :=
  match k with KFile _ _ => TFile | KDir => TDir | KLink _ => TLink end.

(** jbk [BasicEntry::new_from_schema] (contract): the value of each property of the common part and
    of the variant is taken by name; a missing value or one of another type is a panic.  The variant
    is stored as its position in the schema. *)
Record bentry := mkBentry { be_variant : nat; be_common : list value; be_more : list value }.

Fixpoint lookup_prop (p : property) (l : list (property * value)) : option value :=
  match l with
  | [] => None
  | (q, v) :: r => if property_beq q p then Some v else lookup_prop p r
  end.
Definition typed (k : pkind) (v : value) : bool :=
  match k, v with
  | TArray, VArray _ | TUint, VUnsigned _ | TUint, VWord _ | TContent, VContent _ => true
  | _, _ => false
  end.
Fixpoint pick (defs : list (property * pkind)) (vals : list (property * value)) : option (list value) :=
  match defs with
  | [] => Some []
  | (p, k) :: r =>
      match lookup_prop p vals, pick r vals with
      | Some v, Some vs => if typed k v then Some (v :: vs) else None
      | _, _ => None
      end
  end.
Fixpoint variant_at {A} (t : etype) (l : list (etype * A)) : option (nat * A) :=
  match l with
  | [] => None
  | (u, x) :: r => if etype_beq u t then Some (O, x)
                   else match variant_at t r with Some (i, y) => Some (S i, y) | None => None end
  end.
Definition basic_entry (sc : schema) (t : etype) (vals : list (property * value)) : option bentry :=
  match variant_at t (sc_variants sc) with
  | None => None
  | Some (i, defs) =>
      match pick (sc_common sc) vals, pick defs vals with
      | Some c, Some m => Some (mkBentry i c m)
      | _, _ => None
      end
  end.

(** A stored value. *)
Inductive data := DArray (x : bytes) | DUint (n : N) | DContent (a : caddr).
Definition resolve (ord : list slot) (v : value) : data :=
  match v with
  | VArray x => DArray x
  | VUnsigned n => DUint n
  | VWord g => DUint (g ord)
  | VContent a => DContent a
  end.

(** jbk: entries are compared on the sort keys of the schema, in order, with their current values
    (contract).  Keys are common properties. *)
Definition data_cmp (x y : data) : comparison :=
  match x, y with
  | DArray u, DArray v => bytes_cmp u v
  | DUint u, DUint v => N.compare u v
  | _, _ => Eq
  end.
Fixpoint key_at (p : property) (defs : list (property * pkind)) (l : list value) : option value :=
  match defs, l with
  | (q, _) :: ds, v :: r => if property_beq q p then Some v else key_at p ds r
  | _, _ => None
  end.
Fixpoint keys_cmp (sc : schema) (keys : list property) (ord : list slot) (x y : bentry) : comparison :=
  match keys with
  | [] => Eq
  | p :: r =>
      match key_at p (sc_common sc) (be_common x), key_at p (sc_common sc) (be_common y) with
      | Some u, Some v => match data_cmp (resolve ord u) (resolve ord v) with
                          | Eq => keys_cmp sc r ord x y
                          | c => c
                          end
      | _, _ => Eq
      end
  end.
Definition dummy_bentry : bentry := mkBentry 0 [] [].
Definition bentry_at (es : list bentry) (s : slot) : bentry := nth s es dummy_bentry.
Definition bentry_leb (sc : schema) (es : list bentry) (ord : list slot) (s t : slot) : bool :=
  match keys_cmp sc (sc_keys sc) ord (bentry_at es s) (bentry_at es t) with Gt => false | _ => true end.

(** jbk's [EntryStore::finalize] (contract), as [sort_loop] of Layout.v but on the keys of the schema. *)
Fixpoint sort_store (sc : schema) (es : list bentry) (fuel : nat) (ord : list slot) : option (list slot) :=
  if sorted_byb (bentry_leb sc es ord) ord then Some ord
  else match fuel with
       | O => None
       | S k => sort_store sc es k (sort_by (bentry_leb sc es ord) ord)
       end.

(** What is written for an entry: its variant id and the values of the common part and of the variant,
    by position. *)
Record row := mkRow { rw_variant : N; rw_common : list data; rw_more : list data }.
Definition row_of (ord : list slot) (e : bentry) : row :=
  mkRow (N.of_nat (be_variant e)) (map (resolve ord) (be_common e)) (map (resolve ord) (be_more e)).

(** jbk [reader::layout::Layout] (the fields read by properties.rs lines 58-63): the properties by
    name, with their place and type; the variants in order and their numbers by name. *)
Record layout := mkLayout {
  ly_common : list (bytes * (nat * pkind));
  ly_variants : option (list (list (bytes * (nat * pkind))) * list (bytes * nat)) }.
Fixpoint named (i : nat) (l : list (property * pkind)) : list (bytes * (nat * pkind)) :=
  match l with
  | [] => []
  | (p, k) :: r => (property_str p, (i, k)) :: named (S i) r
  end.
Fixpoint numbered {A} (i : nat) (l : list (etype * A)) : list (bytes * nat) :=
  match l with
  | [] => []
  | (t, _) :: r => (etype_str t, i) :: numbered (S i) r
  end.
Definition layout_of_schema (sc : schema) : layout :=
  mkLayout (named 0 (sc_common sc))
    (match sc_variants sc with
     | [] => None
     | _ => Some (map (fun v => named 0 (snd v)) (sc_variants sc), numbered 0 (sc_variants sc))
     end).

(** A jbk container: its indexes (store number, offset and count), its entry stores, its contents. *)
Record container := mkContainer {
  k_indexes : list (bytes * (nat * (N * N)));
  k_stores : list (layout * list row);
  k_fetch : caddr -> fetched }.

(** Building all entries of the store. *)
Fixpoint entries_of (sc : schema) (st : cstate) (slots : list slot) : option (list bentry) :=
  match slots with
  | [] => Some []
  | s :: r =>
      match basic_entry sc (variant_of (se_kind (sentry_of (cs_store st) s))) (values_of st s), entries_of sc st r with
      | Some e, Some es => Some (e :: es)
      | _, _ => None
      end
  end.

(** [EntryStoreCreator::finalize], entry_store_creator.rs lines 322-344, with the entries built by
    [add_entry] and [ensure_dir]. *)
Definition store_finalize (st : cstate) (fetch : caddr -> fetched) : res container :=
  let slots := seq 0 (length (cs_store st)) in
  match entries_of entry_def st slots with
  | None => Panic
  | Some es =>
      match sort_store entry_def es (length es) slots with
      | None => Diverge
      | Some ord =>
          Ok (mkContainer
                [(b "arx_entries", (O, (0, as_u32 (N.of_nat (length es)))));
                 (b "arx_root", (O, (0, as_u32 (nb_children st None))))]
                [(layout_of_schema entry_def, map (fun s => row_of ord (bentry_at es s)) ord)]
                fetch)
      end
  end.

(** [AllProperties], properties.rs lines 37-51: where each property is found in an entry. *)
Record properties := mkProperties {
  p_name : nat; p_parent : nat; p_owner : nat; p_group : nat; p_rights : nat; p_mtime : nat;
  p_content : nat * nat; p_size : nat * nat;
  p_first_child : nat * nat; p_nb_children : nat * nat; p_target : nat * nat }.

(** [HashMap::index] of a layout (panics on a missing name), then [try_into] (an error on another type),
    properties.rs lines 65-70. *)
Definition property_at (l : list (bytes * (nat * pkind))) (n : bytes) (k : pkind) : res nat :=
  match assoc n l with
  | None => Panic
  | Some (i, k') => if pkind_beq k' k then Ok i else Err (EOther [])
  end.
(** [&variants[names["file"] as usize]["content"]], properties.rs lines 72-87. *)
Definition variant_property_at (vs : list (list (bytes * (nat * pkind)))) (names : list (bytes * nat))
  (v n : bytes) (k : pkind) : res (nat * nat) :=
  match assoc v names with
  | None => Panic
  | Some x =>
      match nth_error vs x with
      | None => Panic
      | Some l => let? i := property_at l n k in Ok (x, i)
      end
  end.

(** [AllProperties::new], properties.rs lines 54-104. *)
Definition all_properties (ly : layout) : res properties :=
  match ly_variants ly with
  | None => Panic
  | Some (vs, names) =>
      if Nat.eqb (length vs) 3 then
        let? n := property_at (ly_common ly) (b "name") TArray in
        let? p := property_at (ly_common ly) (b "parent") TUint in
        let? o := property_at (ly_common ly) (b "owner") TUint in
        let? g := property_at (ly_common ly) (b "group") TUint in
        let? r := property_at (ly_common ly) (b "rights") TUint in
        let? m := property_at (ly_common ly) (b "mtime") TUint in
        let? c := variant_property_at vs names (b "file") (b "content") TContent in
        let? s := variant_property_at vs names (b "file") (b "size") TUint in
        let? f := variant_property_at vs names (b "dir") (b "first_child") TUint in
        let? nb := variant_property_at vs names (b "dir") (b "nb_children") TUint in
        let? t := variant_property_at vs names (b "link") (b "target") TArray in
        Ok (mkProperties n p o g r m c s f nb t)
      else Panic
  end.

(** [get_index_from_name] and [Index::get_store] of jbk, then [AllProperties::new]: arx.rs lines 19-27
    and 32-34 for "arx_root", /repo/libarx/src/arx_fs.rs lines 368-369 for "arx_entries". *)
Record opened := mkOpened { o_range : N * N; o_props : properties; o_rows : list row; o_fetch : caddr -> fetched }.
Definition open_index (k : container) (name : bytes) : res opened :=
  match assoc name (k_indexes k) with
  | None => Err (EOther [])
  | Some (store, rg) =>
      match nth_error (k_stores k) store with
      | None => Err (EOther [])
      | Some (ly, rows) => let? p := all_properties ly in Ok (mkOpened rg p rows (k_fetch k))
      end
  end.

(** [Arx::new], arx.rs lines 29-41 (the container already opened). *)
Definition arx_new (k : container) : res opened := open_index k (b "arx_root").

(** Reading a property of an entry.  A property of another variant than the entry's is read from bytes
    that hold something else: [junk]. *)
Definition common_value (r : row) (i : nat) : data := nth i (rw_common r) (DUint 0).
Definition variant_value (junk : row -> nat * nat -> data) (r : row) (x : nat * nat) : data :=
  if N.of_nat (fst x) =? rw_variant r then nth (snd x) (rw_more r) (junk r x) else junk r x.
Definition as_uint (d : data) : N := match d with DUint n => n | _ => 0 end.
Definition as_array (d : data) : bytes := match d with DArray x => x | _ => [] end.
Definition as_content (d : data) : caddr := match d with DContent a => a | _ => mkAddr 0 0 end.

(** The entry a row stands for: [RealBuilder::create_entry] (/repo/libarx/src/common/builder.rs lines
    108-135) and the property reads of the builders (/repo/libarx/src/entry.rs), whose type is
    chosen by the variant id alone. *)
Definition read_row (junk : row -> nat * nat -> data) (p : properties) (r : row) : rec :=
  mkRec (as_array (common_value r (p_name p))) (as_uint (common_value r (p_parent p)))
    (as_uint (common_value r (p_owner p))) (as_uint (common_value r (p_group p)))
    (as_uint (common_value r (p_rights p))) (as_uint (common_value r (p_mtime p)))
    (match etype_of_id (rw_variant r) with
     | Some TFile => RFile (as_content (variant_value junk r (p_content p))) (as_uint (variant_value junk r (p_size p)))
     | Some TDir => RDir (as_uint (variant_value junk r (p_first_child p))) (as_uint (variant_value junk r (p_nb_children p)))
     | Some TLink => RLink (as_array (variant_value junk r (p_target p)))
     | None => RBad (rw_variant r)
     end).

(** The range of the index "arx_entries", wherever it is. *)
Definition entries_range (k : container) : N * N :=
  match assoc (b "arx_entries") (k_indexes k) with Some (_, rg) => rg | None => (0, 0) end.

(** An opened archive, as the readers of this development see it ([get_entry], the walks; of the index
    "arx_entries" they know nothing). *)
Definition view (junk : row -> nat * nat -> data) (k : container) (o : opened) : archive :=
  mkArchive (map (read_row junk (o_props o)) (o_rows o)) (o_range o) (entries_range k) (o_fetch o).

(** ... and as its mount sees it: [ArxFs::new_with_stats], /repo/libarx/src/arx_fs.rs lines 366-397: the
    entries, those of the range served too, are read from the store of "arx_entries", with the
    properties found there. *)
Definition mount_view (junk : row -> nat * nat -> data) (k : container) (o : opened) : res archive :=
  let? e := open_index k (b "arx_entries") in
  Ok (mkArchive (map (read_row junk (o_props e)) (o_rows e)) (o_range o) (o_range e) (o_fetch o)).
