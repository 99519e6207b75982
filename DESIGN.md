# Formal model of jubako/arx in Rocq (Coq 8.16.1)

## 1. Shape of the development

`rocq/theories/` (logical name `Verif`), plain standard library only (no mathcomp, std++, Iris...).

| layer | model | specification | proofs | theorems |
|---|---|---|---|---|
| base | `Base.v` (bytes, order, UTF-8, `res`), `RelPath.v` (relative_path crate), `Api.v` | | `BaseFacts`, `RelPathFacts` | |
| creator | `Creator.v`: `create/entry_store_creator.rs` | `SpecTree.v` (path map), `SpecStore.v` | `CreatorProofs`, `CreatorFacts`, `NameFacts` | `PropCreate.v` C01-C06 |
| layout | `Layout.v`: what `finalize` writes; `Archive.v`: the table of records | `SpecOrder.v`, `SpecLayout.v`, `SpecArchive.v` | `OrderFacts`, `LayoutProofs`, `LayoutFacts`, `WriteProofs`, `WriteFacts` | `PropIndex.v` C07-C10 |
| reader | `Reader.v`: `arx.rs`, `common/*`, `entry.rs`, `walk.rs` | `SpecReader.v`, `SpecWalk.v`, `SpecSession.v` | `ReaderProofs`, `Forest`, `WalkProofs`, `TraceProofs`, `ReadFacts` | `PropRead.v` C11-C18 |
| mount | `Fuse.v`: `arx_fs.rs`, `arx/src/mount.rs` (range) | `SpecFuse.v` | `FuseProofs`, `FuseFacts` | `PropFuse.v` C19-C28 |
| host | `HostFs.v`: POSIX namespace, inodes, links, std::fs calls | | `HostProofs`, `HostSteps`, `HostFold` | |
| extract | `Extract.v`: `tools.rs` | `SpecExtract.v` | `SelectProofs`, `ExtractSeq`, `ExtractRun`, `ExtractFacts`, `ExtractKeep`, `AnyKeep`, `ExtractSession` | `PropExtract.v` C29-C37 |
| adder | `FsAdder.v`: `create/fs_adder.rs`, `create/creator.rs` | `SpecAdd.v` | `AddFacts`, `AddPaths`, `AddWalk`, `AddTree`, `AddSession`, `AddOne` | `PropAdd.v` C38-C41 |
| list | `ListCmd.v`: `arx/src/list.rs`, `light_path.rs` | `SpecList.v` | `ListFacts`, `ListSession` | `PropList.v` C42-C43 |
| cli | `Cli.v`: `arx/src/{dump,create,extract}.rs`, `cmd_utils.rs` | `SpecCli.v` | `CliFacts`, `CliSession` | `PropCli.v`, `PropCli2.v` C44-C48, C56, C57 |
| creation on the host | `CreateHost.v`: `create.rs`, `create/creator.rs` | `SpecCreateHost.v` | `CreateHostFacts.v` | `PropCreateHost.v` C55, C74 |
| standard output | `Output.v`: `arx/src/main.rs` (exit status, SIGPIPE), the writers of `list.rs`, `dump.rs` | in `PropOutput` | `OutputFacts.v` | `PropOutput.v` C75 |
| whole program | `Main.v`: `arx/src/main.rs` (`create`, `list`, `dump`, `extract` as processes; histories of runs); `PyOpen.v` (`libarx.Arx(path)`) | `SpecMain.v` | `MainFacts.v`, `FuelFacts.v` | `PropMain.v`, `PropAnywhere.v` C76, C77 |
| live sources | `Live.v`: `fs_adder.rs` with one host for each system call | `SpecLive.v` | `LiveFacts.v` | `PropLive.v` C78 |
| extraction call by call | `Fine.v`: `tools.rs` with writers, other processes and a descriptor limit at each system call | `SpecFine.v` | `FineFacts.v`, `FineSim.v`, `FineLimit.v` | `PropFine.v` C79-C81 |
| converters | `Converters.v`: `tar2arx`, `zip2arx` | `SpecConvert.v` | `ConvertUtf8`, `ConvertFacts`, `ConvertMembers`, `ConvertSession`, `ConvertNames` | `PropConvert.v`, `PropConvert2.v` C49-C51 |
| python | `Python.v`: `python/src/*.rs` | `SpecPython.v` | `PythonFacts` | `PropPython.v`, `PropPython2.v` C52-C54, C58, C59 |
| foreign archives | `Reader.v`, `Extract.v` on an arbitrary table | `SpecHostile.v` | `HostileProofs`, `ForeignProofs` | `PropHostile.v` C60-C62 |
| mount resolution | `Fuse.v` | `SpecMount.v` | | `PropMount.v` C63 |
| created archives | `Cli.v`, with every reader | `SpecCreated.v` | `CreatedFacts` | `PropCreated.v` C64 |
| file lists | `Cli.v`, `FsAdder.v` | `SpecFind.v` | `FindFacts` | `PropFind.v` C82 |
| conversion by mounting | `Fuse.v`, `Cli.v`, `FsAdder.v` | `SpecRemount.v` | `RemountFacts` | `PropRemount.v` C83 |
| Python README | `PyWalk.v` | `SpecPyWalk.v` | `PyWalkFacts` | `PropPyWalk.v` C84 |
| links in copies | `HostFs.v`, `Extract.v`, `Fuse.v` | `SpecLinks.v` | | `PropLinks.v` C85 |
| converted archives, read | `Converters.v`, every reader | `SpecConvertedRead.v` | `ConvertedReadFacts` | `PropConvertedRead.v` C86 |
| updates and partial extractions | `Extract.v`, `Cli.v` | `SpecUpdate.v` | `StampFacts`, `UpdateFacts` | `PropUpdate.v`, `PropUpdate2.v` C87-C88 |
| contents stored once | (`FsAdder.v`, `Cli.v`, `Converters.v`, `Python.v`) | `SpecOnce.v` | `OnceFacts` | `PropOnce.v` C91 |
| converters on the host | `ConvertHost.v` (tar2arx and zip2arx `main`, jbk's files) | `SpecCreateHost.v` | (`PropCreateHost.v`) | `PropConvertHost.v` C92 |
| a Python creator on the host | `PyHost.v` (python/src/creator.rs, jbk's files) | `SpecPyHost.v` | `PyHostFacts` | `PropPyHost.v` C93 |
| open and replaced archives | - (runs of `Main.v`, `ConvertHost.v`, `PyHost.v`) | `SpecOpened.v` | - | `PropOpened.v` C94 |
| several creations at the same time: `arx/src/create.rs` with a host per system call | `Together.v` (with `Live.v`, `CreateHost.v`) | `SpecTogether.v` | `TogetherFacts.v`, `Together2.v` | `PropTogether.v` C95 |
| `arx create`, `tar2arx`, `zip2arx` on the same files | (`Cli.v`, `Converters.v`) | `SpecTools.v` | `ToolsFacts.v`, `AlikeReaders.v`, `AlikeMount.v` | `PropTools.v` C96 |
| which part of an archive a reader depends on | (`Reader.v`, `Fuse.v`, `Extract.v`, `Cli.v`, `Python.v`) | `SpecPart.v` | `PartFacts.v`, `PartExtract.v`, `PartWalk.v` | `PropPart.v` C97 |
| reading a foreign archive from Python | (`Python.v`, `PyWalk.v`) | `SpecPyForeign.v` | (`ForeignProofs.v`) | `PropPyForeign.v` C98 |
| clashing inputs of arx create | (`FsAdder.v`, `Creator.v`, `Cli.v`) | `SpecClash.v` | `ClashFacts.v` | `PropClash.v` C99 |
| when arx create succeeds | (`FsAdder.v`, `Creator.v`, `Cli.v`) | `SpecSucceeds.v` | `SucceedsFacts.v` | `PropSucceeds.v` C100 |
| when conversions succeed | (`Converters.v`, `Creator.v`) | `SpecSucceedsConv.v` | `SucceedsConvFacts.v` | `PropSucceedsConv.v` C101 |
| when an extraction succeeds | (`Extract.v`, `Cli.v`) | `SpecExtractable.v` | `ExtractNeeds.v` | `PropExtractable.v` C102 |
| when adding from Python raises | (`Python.v`, `FsAdder.v`) | `SpecPySucceeds.v` | (`SucceedsFacts.v`) | `PropPySucceeds.v` C103 |
| histories of all the tools | (`Main.v`, `ConvertHost.v`, `PyHost.v`) | `SpecLossless.v` | (in the same file) | `PropLossless.v` C104 |
| selections of an extraction | (`Extract.v`, `Cli.v`) | `SpecSelection.v` | `SelectionFacts.v` | `PropSelection.v` C105 |
| order of the members | (`Converters.v`) | `SpecShuffle.v` | (in the same file) | `PropShuffle.v` C106 |
| extracting, then archiving the copy | (`Extract.v`, `Cli.v`) | `SpecRepack.v` | in `PropRepack` | `PropRepack.v` C90 |
| creation among its own temporary files | `Own.v` | `SpecFaithful.v` | `OwnFacts` | `PropOwn.v` C89 |
| reproducibility | `Cli.v`, `Layout.v`, every reader | `SpecSame.v` | `TableFacts`, `SameReaders` | `PropSame.v` C65 |
| crashes of extraction | `Killed.v` (extract) | `SpecKilled.v` | `KilledSim`, `KilledProofs`, `KilledKeep` | `PropKilled.v` C66 |
| converted archives | `Converters.v` with `Cli.v` | `SpecConverted.v` | `InsideProofs`, `ConvertedFacts` | `PropConverted.v` C67 |
| mounting programs | `MountCmd.v` (mount, mount.fuse.arx, auto_mount, statistics) | `SpecMountCmd.v` | in `PropMountCmd` | `PropMountCmd.v` C68-C70 |
| foreign mounts | `Fuse.v` | `SpecForeignFuse.v` | `ForeignFuse.v` | `PropForeignFuse.v` C72 |
| schema, opening | `Schema.v`: `create/entry_store_creator.rs` (schema, values), `common/properties.rs`, `common/entry_type.rs`, `arx.rs` | `SpecSchema.v` | `SchemaFacts.v` | `PropSchema.v` C73 |
| faithful creation | `Cli.v`, `FsAdder.v` | `SpecFaithful.v` | `FaithfulFacts.v` | `PropFaithful.v` C71 |

`Demo.v`, `DemoHost.v`, `DemoAdd.v` hold the concrete archives, hosts and trees used by the `Example`s
that show, beside each theorem, that its hypotheses are met by a non-trivial case.

Conventions of the model.  A mutation through `&mut` is a function that returns the new value.  `Result` is
`res`; every `panic!`, `unwrap`, `expect`, `unreachable!`, `assert!`, arithmetic overflow is the value
`Panic`, never an unspecified value.  Loops without a structural bound take fuel; exhausted fuel is the value
`Diverge`, which theorems either exclude by proof (termination) or mention.  Machine integers are `N`/`Z` with
the casts of the code (`as_u32`, `as_u8`, `as_u64`...) written out.  Byte strings are `list N`.

Model files contain no proofs; specification files do not use the functions of the model except to name
what is being specified; theorem files hold the property theorems named `Cxx_...`.  A theorem whose name ends
in `_refuted` proves that a claim one would expect (and that the documentation or the property suggests) is
*false* of the code; the property statement in `properties.jsonl` is the corrected one.

## 2. The properties

| id | property | modelled code and proof | theorems |
|---|---|---|---|
| C01 | add_entry behaves like insertion in a path map | `DirEntry::{add,ensure_dir,add_entry}`, `EntryStoreCreator::add_entry` (Creator.v): entry store + heap of directory caches. Simulation, by induction on the history, with the path map of SpecTree.v | `C01_history_is_map_insertion`, `C01_step_reading` |
| C02 | A refused add_entry changes nothing | same; case analysis of the refused calls in the specification, transported by C01. Refuted for `kind()` errors | `C02_refused_changes_nothing`, `C02_refuted_when_kind_fails` |
| C03 | First writer wins: an entry once stored is never changed, replaced or removed | same; monotonicity of the map over histories | `C03_first_writer_wins`, `C03_one_node_per_path` |
| C04 | Missing parents are created with the documented default metadata | same; origin of every stored node, by induction on the history | `C04_implicit_parents`, `C04_accepted_is_stored` |
| C05 | add_entry panics exactly on paths without a file name | same + `RelativePath::{parent,file_name}` on strings; exact characterisation | `C05_panic_iff`, `C05_never_panics_refuted` |
| C06 | No two entries share a parent and a name | invariant of the store over histories | `C06_unique_names` |
| C07 | Finalisation sorts to a stable layout and terminates | jbk's contract 'sort by (Parent, Name) and renumber until sorted' (Layout.v) on the deferred parent indices; rank argument on depth, uniqueness from short-lex order; independent of the sort algorithm | `C07_sorting_converges`, `C07_stable_order_unique`, `C07_loop_terminates`, `C07_finalisation_succeeds` |
| C08 | The children of a directory are one contiguous sorted range | the `FirstChild`/`NbChildren`/`Parent` generators and `finalize`; from sortedness and the tree invariant | `C08_children_are_a_sorted_range` |
| C09 | Entries are stored in short-lex path order, parents before children | as C08 | `C09_shortlex_order`, `C09_parent_first`, `C09_shortlex_strict_total` |
| C10 | The index is independent of insertion order | uniqueness of the sorted layout | `C10_order_independent` |
| C11 | get_entry finds exactly what was added | `Arx::get_entry`, `Range::find`, `RealBuilder`, `CommonBuilder` (Reader.v); induction on the path, composed with C01, C07, C08 | `C11_get_entry`, `C11_get_entry_joined` |
| C12 | Looking a path up through a file or a link fails | as C11 | `C12_no_lookup_through_leaf` |
| C13 | get_entry panics exactly on a path without components | as C11; exact characterisation of the panic | `C13_panic_iff`, `C13_never_panics_refuted` |
| C14 | Name search in a directory is correct | binary search of `Range::find` with `EntryCompare`; loop invariant | `C14_name_search` |
| C15 | The walk visits every entry exactly once, in lexicographic path order | `Walker::_run`, any operator; the index is abstracted to a forest, structural induction | `C15_walk`, `C15_walk_all`, `C15_walk_below` |
| C16 | The walk terminates on archives produced by the creator | same; explicit bound on the recursion. Refuted for a crafted index | `C16_walk_terminates`, `C16_crafted_refuted` |
| C17 | Metadata survives the round trip | the `as u32` / `as u8` conversions of `CommonBuilder`; the truncation of rights is the refutation | `C17_round_trip`, `C17_rights_refuted` |
| C18 | Parent links lead to the containing directory and to the root | parent decoding; induction on the depth | `C18_parent_links` |
| C19 | Inode numbers identify entries | `Ino`, `mount.rs` root directory (Fuse.v) | `C19_mount_serves_directory`, `C19_inodes`, `C19_inodes_distinct` |
| C20 | Caching never changes an answer | `ArxFs` as a state machine; simulation with a server without caches, by induction on the history of requests | `C20_caches_transparent` |
| C21 | The caches of a mount stay bounded | invariant on the LRU lists over histories | `C21_caches_bounded` |
| C22 | lookup answers exactly the children of a directory | `lookup` through `resolve` and both caches | `C22_lookup` |
| C23 | Attributes reported by a mount | `AttrBuilder`, ROOT_ATTR, `div_ceil` | `C23_attributes`, `C23_root` |
| C24 | Reads return the exact bytes of the file | `open`/`read`/`release` with the table of open regions; invariant over histories (reference counts) | `C24_read`, `C24_open` |
| C25 | Directory listing over several readdir calls is complete | `readdir` with offsets and an arbitrary 'reply full' behaviour; the listing is put together over several calls. Refuted for a reply that holds one entry only | `C25_listing`, `C25_one_entry_refuted` |
| C26 | '..' names the parent directory | `..` in `readdir`; refuted with `--root-dir` | `C26_dotdot`, `C26_root_dir_refuted` |
| C27 | Requests on the wrong kind of entry get the right error | errors of `readlink`, `open`, `opendir`, `release` | `C27_wrong_kind`, `C27_release`, `C27_root` |
| C28 | A mount never aborts on legitimate requests | every panic site of arx_fs.rs excluded over legitimate histories; refuted for mtime >= 2^63 | `C28_no_abort`, `C28_mtime_refuted` |
| C29 | Selection of entries to extract | `should_extract` (Extract.v) against prefix relations on components | `C29_selection`, `C29_dot_refuted` |
| C30 | Skipping unselected directories loses nothing | pruning in `on_directory_enter`; the walk reaches every accepted entry | `C30_selected_extracted`, `C30_accepted_extracted` |
| C31 | Extraction into an empty directory reproduces the archive | `Extractor` on a POSIX file system (HostFs.v: components, symbolic links, inodes), writer tasks under any schedule; induction on the forest | `C31_reproduces`, `C31_reproduces_selection` |
| C32 | Overwrite policies protect existing files | the five policies in `on_file`, `on_link`; invariants over the walk for general destinations | `C32_preserving_policies`, `C32_error_stops`, `C32_policies`, `C32_bystanders`, `C32_all_or_nothing`, `C32_goes_on`, `C32_overwrite_through_link_refuted`, `C32_newer_aborts_refuted` |
| C33 | Extraction stays below the output directory | namespace invariant over the walk; escapes through '..' and through directory links are the refutations | `C33_stays_below`, `C33_dotdot_refuted`, `C33_directory_link_refuted` |
| C34 | Extracted bytes do not depend on short writes nor on scheduling | write loop with arbitrary short writes and interleavings; commutation of tasks on distinct inodes | `C34_schedules_agree`, `C34_schedules_agree_preserving`, `C34_completes`, `C34_hard_links_refuted` |
| C35 | A successful extraction has written every selected file | error flag of the scope; missing packs are the refutation | `C35_success_means_written`, `C35_missing_pack_refuted` |
| C36 | Whatever can be archived can be extracted | totality of the extraction | `C36_extractable`, `C36_not_utf8_refuted`, `C36_empty_target_refuted` |
| C37 | Extracting twice gives the same result | second extraction over the result of the first | `C37_extract_twice` |
| C38 | create then extract is the identity on directory trees | `FsAdder` (FsAdder.v), walkdir's order, composed with C01, C11, C31 | `C38_roundtrip`, `C38_archived` |
| C39 | Strip-prefix semantics | `strip_prefix`, `from_path` on strings | `C39_absolute_refused`, `C39_non_utf8_refused`, `C39_outside_refused`, `C39_prefix_itself`, `C39_stored_below_prefix`, `C39_dotdot_refuted` |
| C40 | Symbolic links are followed only where documented | `detect_kind`, `new_from_path` | `C40_stored_node`, `C40_link_kept`, `C40_link_followed`, `C40_missing`, `C40_special_skipped`, `C40_only_root_followed` |
| C41 | All walked entries reach the archive | the two threads of `add_from_path_with_filter` as an interleaving transition system; every execution agrees with the sequential function | `C41_schedule_independent`, `C41_terminates`, `C41_all_added`, `C41_success_is_complete_refuted` |
| C42 | arx list prints every path exactly once | `list.rs`, `light_path.rs` (ListCmd.v) | `C42_plain_listing`, `C42_listing_determines_paths` |
| C43 | Stable listing is unambiguous | `StableLister`; decimal printing and line splitting are injective | `C43_stable_listing`, `C43_any_targets`, `C43_reads_utf8`, `C43_reads_once`, `C43_other_versions`, `C43_unambiguous`, `C43_links_unambiguous`, `C43_listing_determines`, `C43_links_refuted`, `C43_dot_refuted` |
| C44 | arx dump outputs exactly the content of the file | `dump.rs` (Cli.v) | `C44_dump_file`, `C44_dump_refused`, `C44_output_file_refuted`, `C44_missing_pack_refuted` |
| C45 | Compression option parser | `cmd_utils.rs::compression_arg_parser`, integer parsing of std, deranged's ranges | `C45_compression`, `C45_refused`, `C45_unambiguous`, `C45_level_checked_refuted` |
| C46 | Concat mode flags | concat flags, clap's group semantics | `C46_concat`, `C46_unreachable` |
| C47 | arx create never clobbers an archive without --force | `create.rs`: checks on the output path, base dir, inputs | `C47_output_protected`, `C47_inputs_checked`, `C47_inputs_checked_in_base`, `C47_success`, `C47_root_refuted`, `C47_checked_first_refuted` |
| C48 | Recursion and symlink options of arx create | `create.rs`: `--recurse`, `--no-recurse`, `--follow-symlink`, `-L` | `C48_recurse_value`, `C48_no_recurse`, `C48_file_list`, `C48_recurse_with_list_refuted`, `C48_follow_with_infiles_refuted`, `C48_bad_list` |
| C49 | Conversion of tar members | `tar2arx/src/main.rs` (Converters.v) on what the tar crate answers for each member | `C49_members_are_kept`, `C49_nothing_else`, `C49_converts`, `C49_all_or_nothing`, `C49_hard_links_refuted`, `C49_any_tar_refuted` |
| C50 | Conversion of zip members | `zip2arx/src/main.rs` on what the zip crate answers | `C50_members_are_kept`, `C50_nothing_else`, `C50_unsafe_names_refused`, `C50_converts`, `C50_compression_refuted`, `C50_links_refuted`, `C50_parent_components_refuted` |
| C51 | Inferred archive name of tar2arx | `tar2arx` main: std::path's `with_extension`, `file_stem`, `file_name` on strings | `C51_outfile_is_used`, `C51_inferred_name`, `C51_every_name`, `C51_parts_unique`, `C51_standard_input_refused`, `C51_distinct_names_refuted`, `C51_collisions_refuted`, `C51_no_file_name` |
| C52 | Python Creator life cycle | `python/src/creator.rs` as a state machine; induction on call sequences | `C52_life_cycle`, `C52_situations`, `C52_written_once`, `C52_exception_refuted`, `C52_missing_file_refuted` |
| C53 | Python Stream reads reassemble the content | `python/src/stream.rs` | `C53_reads`, `C53_read_is_full` |
| C54 | Python iteration yields exactly the children | `python/src/iterator.rs`, `entry.rs::__eq__` | `C54_children`, `C54_only_directories`, `C54_equality`, `C54_equality_across_refuted` |
| C55 | Crash during creation never leaves a truncated archive at the output path | `create.rs`, `creator.rs` with jbk's writing protocol as an explicit transition system on the host (CreateHost.v: exclusive temporary file, writes, rename, removal); invariant over its system calls (CreateHostFacts) | `C55_events`, `C55_crash_points`, `C55_elsewhere`, `C55_done`, `C55_failed`, `C55_no_force` |
| C56 | arx extract of a subtree or of a list of files | `arx/src/extract.rs` | `C56_extract_root_dir`, `C56_root_dir_refused`, `C56_file_list`, `C56_lines`, `C56_root_dir_slash_refuted` |
| C57 | arx create followed by arx extract reproduces the tree | `create.rs` + `extract.rs`, composed from C38, C47, C31 | `C57_create_extract` |
| C58 | Python get_entry, entry attributes and content | `python/src/arx.rs`, `entry.rs` | `C58_get_entry`, `C58_bad_path`, `C58_root_refuted`, `C58_attributes`, `C58_content` |
| C59 | Python create then extract reproduces the tree | `python/src/creator.rs` + `arx.rs::extract`, composed from C52 and C38 | `C59_roundtrip` |
| C60 | Extraction of a foreign archive is confined when names are harmless | `tools.rs`, `walk.rs` on an arbitrary table (SpecHostile: `harmless`, `calm`); invariant of the walk's context | `C60_confined`, `C60_confined_extract`, `C60_link_directory_refuted` |
| C61 | Look-ups in a foreign archive are sound and end | `arx.rs`, `common/` on an arbitrary table; induction on the components | `C61_sound`, `C61_total` |
| C62 | Walks of a foreign archive end when ranges lead forward | `walk.rs` on an arbitrary table; induction on the fuel | `C62_forward_walk_ends`, `C62_creator_tables`, `C62_own_child_refuted` |
| C63 | Every path of a mount resolves to exactly what is stored under it | `arx_fs.rs` through the kernel's path resolution (SpecMount), composed from C19-C27; induction on the resolution | `C63_resolution`, `C63_resolves_every_path`, `C63_same_inode`, `C63_contents`, `C63_directory` |
| C64 | arx create of several inputs, seen through every reader | `create.rs` with several INFILES and `-C` (SpecCreated), composed with `dump`, `list`, mount, python and `extract` | `C64_create`, `C64_dump`, `C64_list`, `C64_mount`, `C64_python`, `C64_extract` |
| C65 | What is archived decides the archive | two runs of `create.rs` (SpecSame); uniqueness of the table of a map up to addresses (TableFacts), simulation between readers of two tables (SameReaders) | `C65_same_sources`, `C65_order_irrelevant`, `C65_readers_agree` |
| C66 | Interrupted extractions leave only beginnings, and overwriting resumes them | `tools.rs` killed at any callback, between any two system calls (Killed.v); simulation of the killed walk by a sequential extraction of a prefix (KilledSim), invariant on the destination (KilledProofs), induction on the runs | `C66_killed`, `C66_history`, `C66_resumed`, `C66_keeps`, `C66_skip_refuted`, `C66_newer_refuted`, `C66_link_lost_refuted` |
| C67 | A converted tar or zip is extracted as it was | `tar2arx`, `zip2arx` then `extract` (SpecConverted), composed from C49, C50 and C56; confinement with `..` names by an invariant of the walk on lexical resolution (InsideProofs) | `C67_tar`, `C67_zip`, `C67_zip_confined`, `C67_tar_slip_refuted`, `C67_zip_root_dir_refuted`, `C67_zip_twins_refuted` |
| C68 | Where and what arx mount mounts | `arx/src/mount.rs` (MountCmd.v): the whole command over a host file system, with the random names of tempfile, daemonisation and the fuse session as parameters | `C68_mounted`, `C68_cleaned`, `C68_serves`, `C68_accepts`, `C68_refuses`, `C68_no_archive`, `C68_no_abort`, `C68_status_refuted` |
| C69 | Mounting programs never mount read-write | `mount_fuse_arx.rs`, `auto_mount.rs` and `ArxFs::mount_options` (MountCmd.v) | `C69_read_only`, `C69_rw_refused`, `C69_whole_archive`, `C69_auto_mount`, `C69_no_archive`, `C69_rw_list_refuted` |
| C70 | Mount statistics count the requests | `StatCounter` and the `stats` calls of `arx_fs.rs` (MountCmd.v); induction on the history | `C70_counts`, `C70_never_in_the_way`, `C70_display` |
| C71 | A successful arx create archived what it was asked | `create` of Cli.v on any `world`: an invariant of `add_each` over the paths processed (FaithfulFacts), the walk related to the inductive `walked` of SpecFaithful | `C71_nothing_else`, `C71_everything`, `C71_one_bad_path` |
| C72 | Mounting an archive no creator wrote | `served` histories of Fuse.v on an arbitrary `archive`: an invariant of the caches and open files without well-formedness (ForeignFuse), answers compared with `truthful` of SpecForeignFuse; refutations on concrete tables | `C72_truthful`, `C72_not_found`, `C72_no_abort`, `C72_disorder_refuted`, `C72_size_refuted`, `C72_range_refuted`, `C72_index_refuted` |
| C73 | Created archives are opened as written; what else is opened, and how it is read | the schema, the values maps, `AllProperties::new`, `EntryType`, `finalize`, `Arx::new` and `ArxFs::new_with_stats` (`mount_view`) with jbk's schema-driven store as a contract (Schema.v); refinement to `Layout.write_archive` (SchemaFacts), `arx_layout` and `means` of SpecSchema for foreign containers | `C73_created_opens`, `C73_entries_index`, `C73_opens_iff`, `C73_no_index`, `C73_foreign_aborts`, `C73_read_by_name`, `C73_numbers_refuted`, `C73_mount_same`, `C73_mount_no_index`, `C73_mount_store_refuted` |
| C74 | What a successful creation wrote is what the readers open | `open_archive` on the host left by `create_run`; path resolution is kept because directories and links are | `C74_output_path`, `C74_reopened` |
| C75 | What list and dump print, and what their exit status says | std's BufWriter and LineWriter on a device with finite room (Output.v); an invariant relating what was sent, what is held and the text (OutputFacts), composed with C42 and C44 | `C75_delivered`, `C75_enough`, `C75_pipe`, `C75_status`, `C75_dump_lines`, `C75_list_piped`, `C75_full_device_refuted` |
| C76 | Nothing that exists is lost | runs of the whole program (Main.v: create_run, process, extract_range, killed_run); 'names stay, inodes stay, at most links become files' is preserved by every step (MainFacts; AnyKeep and KilledKeep for any archive, hinv for creation), induction over the history; the two exceptions as concrete runs | `C76_nothing_lost`, `C76_files_stay`, `C76_readers_change_nothing`, `C76_not_an_archive`, `C76_link_refuted`, `C76_companion_refuted` |
| C77 | Archived once, read anywhere | composition: C55's states of creation, C64 (what an archive made from inputs shows), C75 (what is printed), C76 (the file stays), C68 (what is mounted); more fuel changes nothing (FuelFacts) | `C77_mount`, `C77_mounts`, `C77_python`, `C77_python_extract`, `C77_python_refuses`, `C77_create`, `C77_stays`, `C77_list`, `C77_dump`, `C77_extract`, `C77_extract_succeeds` |
| C78 | Archiving a directory that changes | fs_adder.rs with a host for each system call (Live.v); induction over the paths added, as C60; the constant history is shown equal to FsAdder.v (canonical paths resolve to themselves); created archives satisfy the `healthy` of C72; examples of a log growing or truncated between stat and open | `C78_moments`, `C78_steady`, `C78_appended`, `C78_mount`, `C78_truncated_refuted`, `C78_views_refuted` |
| C79 | The moments at which the writers run make no difference | tools.rs with events before each system call (Fine.v); simulation: each callback is some turns followed by the callback of Extract.v, because the calls before an open do not see file contents and commute with writes; composed over the walk | `C79_refines`, `C79_reproduces` |
| C80 | Extraction with others at work in the same place | Fine.v with arbitrary changes of the file system as events and a record of what each call did; invariant over the walk: numbering, careful record, writers hold only files the extraction made; an example for newer | `C80_careful`, `C80_newer_refuted` |
| C81 | Extraction and the number of open files | Fine.v with a limit of open files; invariant (idle writers): as many open files as tasks, each new name has its own task, so files <= limit; simulation of the unlimited run when fewer files than the limit are opened | `C81_open_files`, `C81_enough` |
| C82 | find > list, arx create -L list | the list branch of `fill` (Cli.v) on the lines of `find` (SpecFind); induction over the list with the things added so far (FindFacts), then C65's comparison of sessions | `C82_listed`, `C82_find`, `C82_depth_refuted` |
| C83 | Converting by mounting and archiving again | what a process sees below a mount (SpecRemount: every answer of the server at any moment of any history of kernel requests, C63/C58/C12's model Fuse.v); it makes the host a tree in the sense of C64, which gives the new archive; comparison of the two sessions by path | `C83_converted`, `C83_listing`, `C83_dump`, `C83_permissions_refuted` |
| C84 | The Python README's reading programs | py_walk (PyWalk.v); C54 per directory turned into single steps, then induction on the depth that is left and on the entries of a directory; the line of each entry from C58 | `C84_iterate`, `C84_parents` |
| C85 | Links lead to the same things in copies | path resolution of HostFs.v on two hosts; `stays_in` (SpecLinks) describes the paths that do not leave the tree; induction over it, with the trees equal by C57 (extraction) or C83's lemmas (mount) | `C85_extracted`, `C85_mounted_tree`, `C85_mounted`, `C85_absolute_refuted` |
| C86 | Converted tars and zips through every reader | C49/C50 say which nodes the archive has; a generic lemma per reader over `have : path -> thing -> Prop` (ConvertedReadFacts) from C42, C44, C58, C63 | `C86_tar`, `C86_zip`, `C86_late_directories_refuted` |
| C87 | Updating an extraction | a relation `stamped` between the file systems before and after an extraction, closed under its steps (StampFacts); the result of the second run from the policies of C33/C55 with what C01/C14 say of the first | `C87_times`, `C87_update`, `C87_newer_is_enough`, `C87_newer_refuted` |
| C88 | Extracting in parts | an invariant `holds_part` (SpecUpdate) on the directory, kept by each run (UpdateFacts), induction over the runs | `C88_parts`, `C88_as_one`, `C88_goes_on` |
| C89 | arx create and its own temporary files | `create_own` (Own.v) reads a host `w1` that jbk's calls (CreateHost.v) made from the host before; lookups, walks and additions that succeed on the one give the same on the other (OwnFacts) | `C89_apart`, `C89_same`, `C89_output_elsewhere`, `C89_inside`, `C89_own_temporary_refuted` |
| C90 | Extracting and archiving again | what the runs of `extract_cmd` leave (UpdateFacts, C88) is a tree the adder archives; C64 on it, then the entries compared (SpecRepack) | `C90_repacked`, `C90_listing`, `C90_dump`, `C90_extract`, `C90_times` |
| C91 | The same bytes are stored once | an invariant of the creator (OnceFacts): its contents are distinct, every stored file has one of them, and - when nothing was refused - every content a file; by induction over the files, members or calls, then through `finalize` | `C91_create`, `C91_tar`, `C91_zip`, `C91_python`, `C91_addresses`, `C91_stray_refuted` |
| C92 | Converters: all or nothing, at every system call | the runs of ConvertHost: the program's events (Converters) with jbk's system calls on the host (CreateHost); the invariant `hinv` of C55 along the calls; a run to the end is built for every conversion that succeeds, for the refutations | `C92_crash_points`, `C92_elsewhere`, `C92_done`, `C92_failed`, `C92_reopened`, `C92_clobber_refuted`, `C92_lost_refuted` |
| C93 | A Python Creator touches only its temporary files, and its output once | a transition system (PyHost): methods of the creator, jbk's system calls, steps of the others that leave the temporary files alone; an invariant (the inode of a temporary file has one name) along every life, a second one relative to the first host along quiet lives; whole lives are built for the refutation | `C93_steps`, `C93_until_exit`, `C93_crash_points`, `C93_closed`, `C93_side_by_side`, `C93_exception_refuted` |
| C94 | Open archives and replaced archives | files that exist keep their bytes and inodes along every run but overwriting extractions (invariants of C55, C92, C93 and of extraction), and the output path leads to the old file or to a sealed one; the refutation is a concrete run killed at the truncation | `C94_opened`, `C94_create_moments`, `C94_convert_moments`, `C94_self_refuted` |
| C95 | Creating several archives at the same time | live walk and filling relations that may see any host of the past at each system call (Together.v, Live.v), interleaved steps of jbk calls; one invariant of the interleaving (paths, temporary files, placed files) by induction on the steps, and `calm`: hosts that differ only at the outputs and beside them are read alike; `live_one` of C78 for each path, collected over the hosts of the past, for runs that read what others write; inodes that are no temporary file are never written again, by induction on the steps; the race is a concrete interleaving | `C95_moments`, `C95_elsewhere`, `C95_no_failure`, `C95_alone`, `C95_as_alone`, `C95_seen`, `C95_open_files`, `C95_race_refuted` |
| C96 | The same files give the same archive, whichever tool | what C64 and C49/C50 say about the entries of each archive, made into a comparison of sorted tables: two sessions that hold the same things are written alike (C65); type bits removed by a map over records that sorting does not see; readers by simulation over records that differ in addresses and type bits (AlikeReaders) | `C96_tar`, `C96_tar_exact`, `C96_zip`, `C96_readers_agree`, `C96_modes_refuted`, `C96_order_refuted` |
| C97 | Reading some of an archive needs only that part | binary search reads at most k records of a range of fewer than 2^k (induction over the search with the range halved), lifted to paths, builders and mount requests (PartFacts); two archives that agree on these compared by rewriting; extraction by induction over the walk with contents replaced (PartExtract) | `C97_lookup`, `C97_dump`, `C97_python`, `C97_request`, `C97_list`, `C97_extract`, `C97_damage_refuted` |
| C98 | Reading a foreign archive from Python | get_entry from the soundness and totality of lookup in any table (C61); iteration by induction over what is left of the range, an unreadable record leaving the iterator where it is; going up by strong induction over the index; the walk by induction over the distance to the end of the table; refutations by induction over fuel on one-record tables | `C98_get_entry_sound`, `C98_get_entry_ends`, `C98_iterate`, `C98_attributes`, `C98_parents`, `C98_walk_ends`, `C98_creator_tables`, `C98_own_child_refuted`, `C98_own_parent_refuted`, `C98_skipping_refuted` |
| C99 | Two inputs never share a place in the archive | a path accepted where something is stored is a directory on a directory (one step of the map of C01); with the invariant of C71 lifted over the sequence of additions, split at the two inputs | `C99_clash_refused`, `C99_given_twice` |
| C100 | When arx create succeeds | an invariant relating the paths gone through so far to the map of what is stored (each step accepted exactly when the new path is fit and clear of every earlier one), lifted to whole walks; paths met in one walk never clash; the rest by cases on `create` | `C100_create_iff`, `C100_order` |
| C101 | When tar2arx and zip2arx succeed | the same invariant for the members read so far (paths and kinds) and the map of what is stored, over the common loop of the two converters; permutations by a symmetric reformulation of 'no clash' | `C101_tar_iff`, `C101_zip_iff`, `C101_order` |
| C102 | When an extraction succeeds | the converse of C32_goes_on: in the sequential fold of the entries the walk meets, a step that succeeds found its place fit, and earlier steps did not touch it; with the equivalence of C34 between schedules and the fold | `C102_needed`, `C102_iff`, `C102_command` |
| C103 | When adding from Python raises | the criterion of C100 (pairwise, in both orders) for the concatenation of the calls, each call being the walk of its path from an empty prefix; the last call is separated by comparing the block with and without it | `C103_block_iff`, `C103_next` |
| C104 | Whatever tool runs, only outputs change | per run: the invariants of jbk's calls (C55, C92, C93) and of preserving extractions (C76), put in one relation between the hosts before and after; it composes | `C104_nothing_lost`, `C104_directories`, `C104_no_trace` |
| C105 | Only what is selected matters to an extraction | two walks of the extractor over the same forest, by induction, with selections that agree on the entries of the forest: callbacks are equal one by one; `arx list` (C42) read back by the file list (C56_lines) | `C105_selection`, `C105_command`, `C105_order`, `C105_lines`, `C105_list_all`, `C105_odd_names_refuted` |
| C106 | The order of the members of a tar or zip does not matter | the two conversions give two sessions that keep the same things (C49, C50: kept, and nothing else); a common lemma over both, `shuffled`, then C65's comparison of sessions | `C106_tar`, `C106_tar_order`, `C106_zip`, `C106_tar_zip`, `C106_late_refuted`, `C106_zip_order` |

## 3. Trusted base

* **Coq's kernel** (8.16.1; `vm_compute` is used in `Example`s and in a few closed computations).
* **Axioms: none.**  `Print Assumptions` answers "Closed under the global context" for every theorem
  named in section 2 (each theorem file runs it on each of its theorems).  No `Variable`/`Hypothesis` outside of a section, no functor, no module type, no
  `Admitted`.  `vcheck` lists seven constants of `Coq.ssr.ssrunder.Under_rel`: fields of a module type of the
  standard library that is loaded with it; no theorem depends on them.
* **That the model is the code.**  /repo cannot be built here, so the correspondence is by reading; every
  definition cites the lines it models.
* **Contracts of code that is not in /repo**, written as definitions and thus visible:
  * `jubako`: an entry store is sorted by its keys and renumbered until stable, deferred values are read
    after that (`Layout.sort_loop`, and on the keys of a schema `Schema.sort_store`); the values of an entry are picked by name and stored by position with their layout, and what was written is read back (`Schema.v`; `fetch_of`); `Range::find` is a
    binary search; `get_entry` of a range or an index checks bounds; `CachedContentAdder` gives equal
    contents the same address and different contents different ones (it compares blake3 digests);
    `ByteStream`, `ByteRegion::get_slice`; a file is written under a fresh temporary name
    (O_EXCL) and renamed once complete (`CreateHost.jbk_call`), temporary files are removed when dropped;
  * `relative_path` 1.9.3 (`RelPath.v`), `std::path` (components, `file_stem`, `with_extension`, `join`),
    `std::fs` on a POSIX file system (`HostFs.v`), `str::parse`, `String::from_utf8`/`from_utf8_lossy`,
    `BufRead::lines`, `BufWriter` and the `LineWriter` of standard output (`Output.v`), SIGPIPE ends a process when its action is the default;
  * `walkdir` 2.5.0 (`FsAdder.walk`), `lru` (`Fuse`, section Lru), `fuser` (requests and replies; the behaviour of
    `ReplyDirectory::add` is a parameter), `clap` 4.5.21 (conflicts, groups, conditional defaults), `deranged`
    0.3.11, `tar` 0.4.43 and `zip` 2.2.1 (what they answer about a member is the input of the model),
    `niffler`, `pyo3`, `rayon` (a scope waits for its tasks), `tempfile` 3.14.0 (a fresh name is made with mkdir,
    the directory is removed when dropped), `daemonize` 0.5.0 (the calling process ends with status 0).

## 4. What is modelled, what is not

Modelled: everything in `libarx/src` that computes (creator, adder, reader, walker, extractor, FUSE server,
option parsers), `arx/src/{create,extract,list,dump,mount}.rs`, `arx/src/bin/*.rs`, `tar2arx/src/main.rs`,
`zip2arx/src/main.rs`, `python/src/*.rs`.

Not modelled: the binary format, checksums and compression (jubako); progress bars, logging and messages on
the standard error; `--list-compressions`, `--version`,
`--generate-man-page`; `locate` and `ArxError` formatting; Windows code paths; the features `statfs`/`access` that
fuser answers by default; HTTP fetching in `tar2arx` (the input is a parameter).

Simplifications (also stated at each definition):
* except in C78 (adding files while the host changes at each system call) and C95 (other creations change it), the host file system does not change
  during `create`, `tar2arx` and `zip2arx` (no TOCTOU between the check of the output and its opening, the temporary file is not among
  the inputs, except in C89, which says when that makes no difference); in C78 the bytes of a file are those of one moment; during `extract` only arx changes it, except in C80 (anything else may, at each system call);
* in C95 each system call that reads may see the host of any earlier moment (an over-approximation), the checks of one `create` see one moment, and the
  attributes and listings of a path are a function of what is there (`local`);
* permissions, quotas, NUL bytes, name length limits are not modelled on the host (an unreadable file or
  directory is: `at_readable`, `w_list = None`); the clock is constant during a run;
* in `Extract.v` extraction tasks take turns between callbacks of the walk; C79 proves that turns between any two
  system calls (`Fine.v`) give nothing else;
* the archive read by `list`, `dump`, `extract` and `mount` is read as it was when opened (C94 says when it stays so);
* a killed process (C66) leaves what its system calls did: the machine itself does not crash;
* `HashMap` caches are association lists; only look-ups are observable;
* FUSE offsets are non-negative; the open counter (u64) does not overflow;
* contents are held as bytes; a file larger than the memory limit of the adder is given to jubako as an open
  file: the same bytes under the previous hypothesis;
* the number of entries of an archive is below 2^32 (`small`), a limit of jubako.

## 5. Findings

Each is a theorem about the model, with the concrete witness.

| finding | theorem |
|---|---|
| `kind()` failing after the parents were created leaves implicit directories | `C02_refuted_when_kind_fails` |
| `add_entry` aborts on an empty path, ".", or a path ending in ".." | `C05_never_panics_refuted` |
| `get_entry("")` and `get_entry("/")` abort (from Python: `get_entry(".")`, `get_entry("")`) | `C13_never_panics_refuted`, `C58_root_refuted` |
| a crafted directory containing itself makes the walk run forever | `C16_crafted_refuted` |
| rights are cut to 8 bits when read (0o644 becomes 0xa4) | `C17_rights_refuted` |
| a first `readdir` page holding one entry loses entries | `C25_one_entry_refuted` |
| with `--root-dir`, ".." of a first-level directory has the inode of an entry outside of the mount | `C26_root_dir_refuted` |
| an mtime of 2^63 s or more (a negative mtime of the host) aborts the FUSE server | `C28_mtime_refuted` |
| `arx extract ... ./a` selects nothing and succeeds | `C29_dot_refuted` |
| `Overwrite` writes through a symbolic link; `Newer` aborts on large mtimes | `C32_overwrite_through_link_refuted`, `C32_newer_aborts_refuted` |
| an archive with "..", or a directory below an existing symbolic link, extracts outside of the output directory | `C33_dotdot_refuted`, `C33_directory_link_refuted` |
| a crafted archive with a link and a directory of one name writes anywhere, under every policy | `C60_link_directory_refuted` |
| with `Overwrite` on hard-linked destinations the result depends on the schedule | `C34_hard_links_refuted` |
| extraction with a missing content pack succeeds without writing the files | `C35_missing_pack_refuted` |
| names or targets that are not UTF-8, and empty targets, can be archived but not extracted | `C36_not_utf8_refuted`, `C36_empty_target_refuted` |
| adding ".." aborts | `C39_dotdot_refuted` |
| an unreadable directory silently truncates the archive, with a success answer | `C41_success_is_complete_refuted` |
| the stable listing is ambiguous for links whose name contains "->", and wrong for a directory "." | `C43_links_refuted`, `C43_dot_refuted` |
| `arx dump -o FILE` opens FILE read-only, so it fails; a missing pack dumps nothing and succeeds | `C44_output_file_refuted`, `C44_missing_pack_refuted` |
| `--compression none=garbage` is accepted | `C45_level_checked_refuted` |
| `arx create -o /` aborts; inputs are checked only after the output was opened | `C47_root_refuted`, `C47_checked_first_refuted` |
| `--recurse` is ignored with `-L`, `--follow-symlink` with INFILES | `C48_recurse_with_list_refuted`, `C48_follow_with_infiles_refuted` |
| tar: hard links become empty files, a "./" member or an absolute path aborts, ".." is archived | `C49_hard_links_refuted`, `C49_any_tar_refuted` |
| zip: `--compression` is ignored, symbolic links become files, "a/../b" is archived as such | `C50_compression_refuted`, `C50_links_refuted`, `C50_parent_components_refuted` |
| tar2arx: pkg-1.2.tar and pkg-1.3.tar are both converted to pkg-1.arx; a URL without a file name aborts | `C51_distinct_names_refuted`, `C51_collisions_refuted`, `C51_no_file_name` |
| Python: leaving the block by an exception still writes the (incomplete) archive; adding a missing file answers as if it were added; entries of different archives compare equal | `C52_exception_refuted`, `C52_missing_file_refuted`, `C54_equality_across_refuted` |
| `arx extract --root-dir /` aborts | `C56_root_dir_slash_refuted` |
| a killed extraction is not repaired by running it again with `skip` (the default) or `newer`: success, truncated files | `C66_skip_refuted`, `C66_newer_refuted` |
| `overwrite` removes a link before making it again: a kill in between loses it | `C66_link_lost_refuted` |
| a tar member `../x` is converted, then extracted outside the output directory | `C67_tar_slip_refuted` |
| a zip member `a/../b` is extracted outside the output directory with `--root-dir a`, and collides with the member `b` without | `C67_zip_root_dir_refuted`, `C67_zip_twins_refuted` |
| `arx mount` without `--foreground` exits with success even when mounting fails (it becomes a daemon first) | `C68_status_refuted` |
| `mount.fuse.arx -o rw,noexec` is not refused (only an option that is exactly `rw` is); the mount is read-only all the same | `C69_rw_list_refuted` |
| mounted foreign archives: a name can be absent and, after a listing, present; a file record longer than its content or a range past the table stops the server; an index `arx_entries` that does not start at the first record shows one entry's attributes under another's name | `C72_disorder_refuted`, `C72_size_refuted`, `C72_range_refuted`, `C72_index_refuted` |
| opening a foreign container that lacks one of arx' properties (or has not three variants) aborts instead of failing; one with the variants in another order is opened and misread (ids are fixed, properties are looked up by name); with the two indexes on different entry stores, a mount shows other entries than `arx list` | `C73_foreign_aborts`, `C73_numbers_refuted`, `C73_mount_store_refuted` |
| `arx list` never flushes its BufWriter, and the buffer of standard output is dropped at exit without looking at errors: on a full device (`> /dev/full`) `list`, and `dump` of a short file, print nothing and exit with 0 | `C75_full_device_refuted` |
| `check_output_path_writable` asks `Path::exists`, which follows links: without `--force` a dangling symbolic link at the output path is replaced by the archive | `C76_link_refuted` |
| with `--two-files` (or `--no-concat`) only the output path is checked: without `--force` the other files replace what has their names | `C76_companion_refuted` |
| the size of a file is taken before it is opened and stored without check: a file truncated in between gives an archive of which an ordinary read makes the mount server panic | `C78_truncated_refuted` |
| ... and for one that grew in between the mount says the old size, while `dump` and `extract` give all the bytes | `C78_views_refuted` |
| extraction holds one descriptor per file until its writer is done: with one thread (or slow writers) an archive with more files than the limit of open files cannot be extracted | `C81_open_files` |
| `newer` looks at the time, then opens: a newer file saved in between is truncated | `C80_newer_refuted` |
| an absolute link into the tree archived leads, in the extracted copy, to the original | `C85_absolute_refuted` |
| `find -depth` lists directories after their content: `arx create -L` stores them with owner 1000, mode 755 and time 0 | `C82_depth_refuted` |
| a tar or zip that lists a directory after its content: the directory gets owner and group 1000, mode 755, time 0 instead of its own | `C86_late_directories_refuted` |
| archived times are not restored, so `--overwrite newer` compares with the time of the previous extraction: a file changed after the first archive was made and before it was extracted is not updated | `C87_times`, `C87_newer_refuted` |
| extracting an archive and archiving the copy gives every file and link the time of the extraction | `C90_times` |
| `arx create` with the output inside of an input directory archives its own temporary file, which is opened first | `C89_own_temporary_refuted`, `C89_inside` |
| a Python program that catches the exception of a refused `add` leaves the bytes it had read in the archive, as the content of no file | `C91_stray_refuted` |
| tar2arx and zip2arx replace whatever file is at the output path without asking (`arx create` refuses without `--force`), the tar or zip itself too | `C92_clobber_refuted` |
| converting `pkg-1.2.tar` and then `pkg-1.3.tar`, both to the inferred `pkg-1.arx`, succeeds twice and loses the first archive | `C92_lost_refuted` |
| an exception inside `with libarx.Creator(out)` replaces the file that was at `out` by the incomplete archive, without a word | `C93_exception_refuted` |
| `arx extract --overwrite overwrite` (or `newer`) of an archive that holds an entry at its own path truncates the archive while reading it | `C94_self_refuted` |
| two `arx create` at the same time without `--force` to the same free output both succeed; the first archive is lost (check and rename are not atomic) | `C95_race_refuted` |
| `arx create` stores the whole `st_mode` (type bits included), `tar2arx` the mode of the header, which usually has the permissions only: archives of the same files differ in the stored modes | `C96_modes_refuted` |
| a directory that comes in a tar after something in it keeps owner, group, permissions and time of a made-up directory | `C96_order_refuted` |
| one content that cannot be read aborts the whole extraction: links and files that do not need it are not extracted either | `C97_damage_refuted` |
| from Python, the README's recursive walk of a directory that contains itself never ends | `C98_own_child_refuted` |
| from Python, going up by `parent` from an entry that is its own parent never ends | `C98_own_parent_refuted` |
| from Python, iterating on after the exception of an entry that cannot be read gives the same exception for ever; the entries after it are never reached | `C98_skipping_refuted` |
| converting an archive by mounting it and archiving the mount (Changelog, 0.3.0) loses the write permissions, because the mount hides them | `C83_permissions_refuted` |
| documentation: the help of `arx create` and the README say the root of absolute inputs is removed; they are refused | `C39_absolute_refused`, `C47_inputs_checked` |
| documentation: the Python README's program calls `loop_on_entry_generator` and `nb_childen`, which do not exist | noted in `PyWalk.v` |
| documentation: the README's `arx dump ARCHIVE PATH OUT` never works; "`-r` can be omitted" is false (`--recurse` defaults to true); `arx list --stable-output ARCHIVE` takes the archive for a version number | `C44_output_file_refuted`, `C48_recurse_value` |
| an entry whose name contains a newline or ends in a carriage return is listed by `arx list`, but `arx extract -L` with that list silently leaves it out and succeeds | `C105_odd_names_refuted` |
| a tar (or zip) in which a directory comes after something in it is converted without error, but the directory keeps none of its owner, permissions and time: the order of the members changes the archive | `C106_late_refuted` |

## 6. Tests of the theorems against wrong programs

`seeded/LOG.jsonl`: one line per edit of the model.  For each, the model was edited in a scratch copy; every proof that no
longer goes through was replaced by `Admitted`, and the property theorems that (by `Print Assumptions`) then
depend on an admitted statement are listed as failed.  An edit that falsifies a claim none of whose theorems
failed shows a theorem that is too weak; the column `tightened` says what was done about it.
