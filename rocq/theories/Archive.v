(** The archive as seen by a reader: the table of entries, the root index, the contents. *)
From Verif Require Export Api.

(** The variant part of a record (/repo/libarx/src/create/entry_store_creator.rs 263-287; variant
    ids /repo/libarx/src/common/entry_type.rs 3-19: File 0, Dir 1, Link 2).  [RBad] stands for any
    other variant id found in a foreign archive. *)
Inductive payload :=
| RFile (addr : caddr) (size : N)
| RDir (first nb : N)
| RLink (target : bytes)
| RBad (variant : N).

(** The common part (/repo/libarx/src/create/entry_store_creator.rs 255-262); integers as stored (u64). *)
Record rec := mkRec {
  r_name : bytes; r_parent : N; r_owner : N; r_group : N; r_rights : N; r_mtime : N;
  r_payload : payload }.

(** Answer of [Container::get_bytes] (jbk): the content, a missing content pack, a content id the
    pack does not have, or an I/O or format error. *)
Inductive fetched :=
| Found (data : bytes)
| MissingPack
| NoContent
| FetchErr.

(** The parts of an open archive the code uses: [properties.store], [root_index] (offset and
    count) and the contents (/repo/libarx/src/arx.rs 6-10), and the index "arx_entries" (offset and
    count) of a mount (/repo/libarx/src/arx_fs.rs 368).
    Simplification: the on-disk encoding, checksums and value stores of jbk are not modelled. *)
Record archive := mkArchive {
  a_recs : list rec;
  a_root : N * N;
  a_entries : N * N;
  a_fetch : caddr -> fetched }.
