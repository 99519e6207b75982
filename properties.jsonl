{"id": "C01", "title": "add_entry behaves like insertion in a path map", "statement": "After any sequence of add_entry calls, the creator holds exactly the entries of an abstract path->node map: a call succeeds iff every proper ancestor of the path is absent or a directory and the path itself is free (or the call adds a directory over a directory); on success the new map is the old map plus the new entry plus the missing ancestors; otherwise the call returns an error.", "quantifier": "every finite history of add_entry calls, every path, kind and metadata", "why_tests_cant": "The history and path space is unbounded; tests exercise a handful of one-file archives.", "anchors": ["libarx/src/create/entry_store_creator.rs:DirEntry::add", "libarx/src/create/entry_store_creator.rs:DirEntry::ensure_dir", "libarx/src/create/entry_store_creator.rs:DirEntry::add_entry", "libarx/src/create/entry_store_creator.rs:EntryStoreCreator::add_entry"]}
{"id": "C02", "title": "A refused add_entry changes nothing", "statement": "If add_entry returns an error (name clash, or a file/link used as a directory) the set of stored entries and their metadata is exactly what it was before the call; in particular no implicit parent directory is left behind.", "quantifier": "every reachable creator state and every refused call", "why_tests_cant": "Needs all states and all clash positions along the path, at any depth.", "anchors": ["libarx/src/create/entry_store_creator.rs:DirEntry::add", "libarx/src/create/entry_store_creator.rs:DirEntry::add_entry"]}
{"id": "C03", "title": "First writer wins: an entry once stored is never changed, replaced or removed", "statement": "Once a path is stored with a kind and metadata, no later add_entry call changes that kind, content address, target or metadata, whatever it adds (adding a directory over an existing directory keeps the first metadata).", "quantifier": "every reachable state, every later history", "why_tests_cant": "Property over all continuations of all histories.", "anchors": ["libarx/src/create/entry_store_creator.rs:DirEntry::add_entry", "libarx/src/create/entry_store_creator.rs:DirEntry::ensure_dir"]}
{"id": "C04", "title": "Missing parents are created with the documented default metadata", "statement": "Every directory that was not added explicitly before one of its descendants is stored with owner 1000, group 1000, rights 0o755 and mtime 0; no other implicit entry is ever created.", "quantifier": "every successful add_entry at any depth in any state", "why_tests_cant": "Depth and state are unbounded.", "anchors": ["libarx/src/create/entry_store_creator.rs:DirEntry::ensure_dir", "arx/src/create.rs:AFTER_HELP"]}
{"id": "C05", "title": "add_entry panics exactly on paths without a file name", "statement": "add_entry aborts the process exactly when the walk to the parent succeeds, the entry has a kind and the path has no final normal component (empty path, '.', or last component '..'); hence converting a tar whose first member is './' panics (refutation of 'adding never panics').", "quantifier": "every path string and reachable state", "why_tests_cant": "All strings; the failing ones are not in the test-suite.", "anchors": ["libarx/src/create/entry_store_creator.rs:DirEntry::add_entry", "tar2arx/src/main.rs:TarEntry::new"]}
{"id": "C06", "title": "No two entries share a parent and a name", "statement": "In every archive produced, two distinct entries never have the same parent directory and the same name, and no entry is stored twice.", "quantifier": "every finite history of add_entry calls", "why_tests_cant": "Invariant of every reachable state.", "anchors": ["libarx/src/create/entry_store_creator.rs:DirEntry"]}
{"id": "C07", "title": "Finalisation sorts to a stable layout and terminates", "statement": "Sorting entries by (parent index, name) while parent indices themselves depend on the order reaches, for every tree, an order that is sorted under its own indices, after a number of rounds bounded by the depth of the tree plus one; that order is unique, so it does not depend on the sort algorithm used.", "quantifier": "every reachable creator state, any depth and width", "why_tests_cant": "A fix-point/termination argument over all trees.", "anchors": ["libarx/src/create/entry_store_creator.rs:EntryStoreCreator::new (sort keys Parent,Name)", "libarx/src/create/entry_store_creator.rs:as_parent_idx_generator"]}
{"id": "C08", "title": "The children of a directory are one contiguous sorted range", "statement": "In the written index the entries whose parent is a given directory are exactly the range [first_child, first_child+nb_children), in strictly increasing byte order of names; the root index is exactly the range of entries without parent.", "quantifier": "every archive produced by the creator, every directory", "why_tests_cant": "Global structural invariant for all trees.", "anchors": ["libarx/src/create/entry_store_creator.rs:first_entry_generator", "libarx/src/create/entry_store_creator.rs:entry_count_generator", "libarx/src/create/entry_store_creator.rs:finalize"]}
{"id": "C09", "title": "Entries are stored in short-lex path order, parents before children", "statement": "Entry i precedes entry j iff path(i) is smaller than path(j) in the order that compares depth first and then components byte-wise; in particular a directory always has a smaller index than its children.", "quantifier": "every archive produced by the creator, all pairs of entries", "why_tests_cant": "All trees, all pairs.", "anchors": ["libarx/src/create/entry_store_creator.rs:EntryStoreCreator::new", "libarx/src/create/entry_store_creator.rs:finalize"]}
{"id": "C10", "title": "The index is independent of insertion order", "statement": "Two creators whose histories lead to the same path->node map write the same list of index records, whatever the order of insertion.", "quantifier": "all pairs of histories with the same resulting map", "why_tests_cant": "Quantifies over pairs of histories.", "anchors": ["libarx/src/create/entry_store_creator.rs:finalize"]}
{"id": "C11", "title": "get_entry finds exactly what was added", "statement": "For every path stored in the archive, Arx::get_entry(path) returns that entry (kind, name, metadata, size/address/target); for every non-empty path not stored it returns the not-found error.", "quantifier": "every history, every path string", "why_tests_cant": "All archives x all paths.", "anchors": ["libarx/src/arx.rs:Arx::get_entry", "libarx/src/common/mod.rs:EntryCompare::compare_entry"]}
{"id": "C12", "title": "Looking a path up through a file or a link fails", "statement": "If a proper prefix of the path is a file or a symbolic link, get_entry returns the not-found error; symbolic links are never followed.", "quantifier": "every archive, every path", "why_tests_cant": "All archives x all paths.", "anchors": ["libarx/src/arx.rs:Arx::get_entry"]}
{"id": "C13", "title": "get_entry panics exactly on a path without components", "statement": "get_entry aborts (unreachable!) exactly for paths with no component, e.g. '' or '/'; the Python binding and --root-dir reach it (refutation of 'get_entry never panics').", "quantifier": "every well-formed archive, every path string", "why_tests_cant": "All strings.", "anchors": ["libarx/src/arx.rs:Arx::get_entry", "python/src/arx.rs:Arx::get_entry"]}
{"id": "C14", "title": "Name search in a directory is correct", "statement": "The binary search used for lookups returns position k iff the k-th entry of the range has the searched name, and none iff no entry of the range has it, on every range whose names are strictly sorted.", "quantifier": "every range length, every name", "why_tests_cant": "Unbounded lengths; boundary errors hide at specific sizes.", "anchors": ["libarx/src/common/mod.rs:EntryCompare", "libarx/src/arx.rs:Arx::get_entry", "libarx/src/arx_fs.rs:lookup"]}
{"id": "C15", "title": "The walk visits every entry exactly once, in lexicographic path order", "statement": "Walker::run reports every stored entry exactly once, parents before descendants, in strictly increasing component-wise byte order of paths, with balanced directory enter/exit; run_from_range reports exactly the subtree below the given directory.", "quantifier": "every archive produced by the creator, every operator", "why_tests_cant": "All trees.", "anchors": ["libarx/src/walk.rs:Walker::_run", "libarx/src/walk.rs:Walker::run_from_range", "libarx/src/common/mod.rs:ReadEntry"]}
{"id": "C16", "title": "The walk terminates on archives produced by the creator", "statement": "Walker::run terminates on every archive produced by the creator; it does not on a crafted index whose directory contains itself (refutation for arbitrary archives).", "quantifier": "every archive produced; one crafted archive", "why_tests_cant": "Termination for all trees.", "anchors": ["libarx/src/walk.rs:Walker::_run"]}
{"id": "C17", "title": "Metadata survives the round trip", "statement": "owner and group below 2^32, mtime, size, content address and link target read through the API are those given to add_entry; the rights accessor returns only the low 8 bits, so rights such as 0o755 are not preserved (refutation for rights).", "quantifier": "every metadata value", "why_tests_cant": "All 64-bit values; the truncation shows for values above 255 only.", "anchors": ["libarx/src/entry.rs:CommonBuilder::create_entry", "libarx/src/entry.rs:CommonPart"]}
{"id": "C18", "title": "Parent links lead to the containing directory and to the root", "statement": "The parent index of an entry denotes the directory that contains it, entries of the root have no parent, and following parent links from any entry reaches the root after exactly depth steps.", "quantifier": "every archive produced, every entry", "why_tests_cant": "All trees, all depths.", "anchors": ["libarx/src/entry.rs:CommonPart::parent", "python/src/entry.rs:parent", "libarx/src/arx.rs:get_entry_at_idx"]}
{"id": "C19", "title": "Inode numbers identify entries", "statement": "On a mount, entry n has inode n+2: never 0 or 1 (the root), different entries have different inodes and the inode of an entry is mapped back to that entry.", "quantifier": "every entry index below 2^32", "why_tests_cant": "All indices.", "anchors": ["libarx/src/arx_fs.rs:Ino"]}
{"id": "C20", "title": "Caching never changes an answer", "statement": "Whatever requests were served before, every lookup/getattr/readdir/readlink/opendir answer of a mounted archive is the answer a cache-less server would give.", "quantifier": "every history of file-system requests", "why_tests_cant": "Histories, evictions and hits are unbounded (4096/100-entry LRU caches).", "anchors": ["libarx/src/arx_fs.rs:lookup", "libarx/src/arx_fs.rs:getattr", "libarx/src/arx_fs.rs:readdir"]}
{"id": "C21", "title": "The caches of a mount stay bounded", "statement": "After any request history the name cache holds at most 4096 and the attribute cache at most 100 bindings, with no duplicate key, and the open-file table holds exactly the files currently open.", "quantifier": "every history of requests", "why_tests_cant": "Invariant over histories.", "anchors": ["libarx/src/arx_fs.rs:ArxFs::new_with_stats", "libarx/src/arx_fs.rs:open", "libarx/src/arx_fs.rs:release"]}
{"id": "C22", "title": "lookup answers exactly the children of a directory", "statement": "lookup(parent,name) answers the child's inode and attributes iff the directory has a child of that name, and ENOENT otherwise.", "quantifier": "every archive produced, every directory, every name, every history", "why_tests_cant": "All archives, names and histories.", "anchors": ["libarx/src/arx_fs.rs:lookup"]}
{"id": "C23", "title": "Attributes reported by a mount", "statement": "getattr reports the stored kind, uid, gid, mtime and inode, size = stored size for files and target length for links, block count = ceil to 4 KiB in 512-byte blocks for non-directories and 0 for directories, and permissions = stored rights with every write bit cleared and no other bit changed.", "quantifier": "every entry and metadata value", "why_tests_cant": "All 64-bit values (masking, rounding).", "anchors": ["libarx/src/arx_fs.rs:AttrBuilder::create_entry", "libarx/src/arx_fs.rs:div_ceil"]}
{"id": "C24", "title": "Reads return the exact bytes of the file", "statement": "While a file is open (more successful opens than releases), read(offset,size) with offset not past the end returns exactly the bytes of the file content from offset, size of them or up to the end; consecutive reads reassemble the file. After the last release the file's data is dropped.", "quantifier": "every interleaving of open/read/release on any files", "why_tests_cant": "All interleavings of handles.", "anchors": ["libarx/src/arx_fs.rs:open", "libarx/src/arx_fs.rs:read", "libarx/src/arx_fs.rs:release"]}
{"id": "C25", "title": "Directory listing over several readdir calls is complete", "statement": "Starting at offset 0 and continuing from the last offset returned, whatever the (variable) size of the reply buffers, the concatenated replies are '.', '..' and then every child exactly once in name order - provided the first reply has room for two entries; with a first reply of one entry the listing never progresses (refutation without that proviso).", "quantifier": "every directory and every sequence of buffer capacities", "why_tests_cant": "All paginations.", "anchors": ["libarx/src/arx_fs.rs:readdir"]}
{"id": "C26", "title": "'..' names the parent directory", "statement": "In a full mount the '..' entry of a directory carries the inode of its parent, and of the root directory the root inode 1. With --root-dir the top-level directories report an inode different from that of the mount root (refutation).", "quantifier": "every directory of every archive", "why_tests_cant": "All archives and root choices.", "anchors": ["libarx/src/arx_fs.rs:readdir", "libarx/src/arx_fs.rs:LightCommonParentBuilder"]}
{"id": "C27", "title": "Requests on the wrong kind of entry get the right error", "statement": "readlink on a non-link gives ENOLINK, open on a directory EISDIR and on a link ENOENT, opendir on a non-directory ENOTDIR, release of a file that is not open ENOENT; readlink on a link returns its target.", "quantifier": "every entry, every history", "why_tests_cant": "All entries and histories.", "anchors": ["libarx/src/arx_fs.rs:readlink", "libarx/src/arx_fs.rs:open", "libarx/src/arx_fs.rs:opendir", "libarx/src/arx_fs.rs:release"]}
{"id": "C28", "title": "A mount never aborts on legitimate requests", "statement": "If the requests respect the kernel protocol (known inodes, directories where directories are required, reads within open files) and every stored mtime is below 2^63, no request aborts the server; an entry with a pre-1970 mtime makes getattr abort (refutation without the mtime proviso).", "quantifier": "every archive produced, every protocol-respecting history", "why_tests_cant": "All histories and mtimes.", "anchors": ["libarx/src/arx_fs.rs:AttrBuilder::create_entry", "libarx/src/create/fs_adder.rs:FsEntry::new_from_path"]}
{"id": "C29", "title": "Selection of entries to extract", "statement": "An entry is selected iff no file list is given, or it is listed, or (recursive) one of its ancestors is listed, or it is a directory and an ancestor of a listed path; paths are compared component-wise.", "quantifier": "every file set, path and recurse flag", "why_tests_cant": "All sets and paths.", "anchors": ["libarx/src/tools.rs:Extractor::should_extract"]}
{"id": "C30", "title": "Skipping unselected directories loses nothing", "statement": "Although the walk does not enter unselected directories, every selected entry of the archive is extracted.", "quantifier": "every archive produced, every file set", "why_tests_cant": "All trees and sets.", "anchors": ["libarx/src/tools.rs:on_directory_enter", "libarx/src/walk.rs:_run"]}
{"id": "C31", "title": "Extraction into an empty directory reproduces the archive", "statement": "Extracting everything into an empty directory succeeds and leaves under it exactly the directories, files (with their exact content) and links (with their exact target) of the archive, and nothing else changes.", "quantifier": "every archive produced with ordinary names and UTF-8 targets", "why_tests_cant": "All trees and contents.", "anchors": ["libarx/src/tools.rs:Extractor", "libarx/src/tools.rs:extract_arx"]}
{"id": "C32", "title": "Overwrite policies protect existing files", "statement": "When a selected file or link already exists: skip and warn leave it untouched and go on, error leaves it untouched and stops with an error (and with these three nothing that existed is changed, whatever the archive), newer replaces it iff the archived mtime is not older, overwrite replaces it; nothing is ever written to existing files that are not in the archive.", "quantifier": "every archive, destination content and policy", "why_tests_cant": "All combinations of tree, policy and mtimes.", "anchors": ["libarx/src/tools.rs:on_file", "libarx/src/tools.rs:on_link", "libarx/src/tools.rs:Overwrite"]}
{"id": "C33", "title": "Extraction stays below the output directory", "statement": "For an archive whose names are ordinary ('..', '.', '' and names with '/' excluded) and a destination without symbolic links, every path created or written is below the output directory; an archive produced from a tar member '../x' makes extract write outside (refutation without the proviso).", "quantifier": "every archive, every destination", "why_tests_cant": "All archives, including hostile ones.", "anchors": ["libarx/src/tools.rs:abs_path", "libarx/src/tools.rs:on_directory_enter", "tar2arx/src/main.rs:TarEntry::new"]}
{"id": "C34", "title": "Extracted bytes do not depend on short writes nor on scheduling", "statement": "Whatever sizes the OS accepts at each write call (at least one byte) and whatever the interleaving of the parallel writer tasks, the file ends up with exactly the archived bytes.", "quantifier": "every sequence of short writes, every interleaving of tasks", "why_tests_cant": "All schedules.", "anchors": ["libarx/src/tools.rs:on_file (write_function, scope.spawn)"]}
{"id": "C35", "title": "A successful extraction has written every selected file", "statement": "If extract returns success, every selected file was written. This is false: when a content pack is missing the file is silently left out and success is reported (refutation); it holds when every pack is present.", "quantifier": "every archive and pack availability", "why_tests_cant": "Needs all archives x missing packs.", "anchors": ["libarx/src/tools.rs:on_file (MayMissPack::MISSING)"]}
{"id": "C36", "title": "Whatever can be archived can be extracted", "statement": "Every archive the creator accepts can be extracted. This is false: a link with a non UTF-8 target is accepted at creation and makes extraction fail (refutation); it holds when targets are UTF-8.", "quantifier": "every archive the creator accepts", "why_tests_cant": "All byte strings.", "anchors": ["libarx/src/tools.rs:LinkBuilder::create_entry", "libarx/src/create/fs_adder.rs:FsEntry::kind"]}
{"id": "C37", "title": "Extracting twice gives the same result", "statement": "Re-extracting the same archive over its own extraction with skip, warn or overwrite succeeds and leaves the destination tree unchanged.", "quantifier": "every archive produced with ordinary names", "why_tests_cant": "All trees.", "anchors": ["libarx/src/tools.rs:on_file", "libarx/src/tools.rs:on_link", "libarx/src/tools.rs:on_directory_enter"]}
{"id": "C38", "title": "create then extract is the identity on directory trees", "statement": "Archiving a directory tree of directories, files and links and extracting the archive in an empty directory yields the same tree: same paths, kinds, contents and link targets, whatever the order in which the OS lists directories.", "quantifier": "every finite directory tree with UTF-8 names", "why_tests_cant": "All trees and listing orders.", "anchors": ["libarx/src/create/fs_adder.rs:FsAdder", "libarx/src/tools.rs:extract_arx"]}
{"id": "C39", "title": "Strip-prefix semantics", "statement": "With strip prefix s, a path s/r is stored under r, the path s itself is not stored, a path not below s is refused with an error, absolute and non UTF-8 paths are refused with an error, and '.' components are dropped.", "quantifier": "every path and prefix", "why_tests_cant": "All strings.", "anchors": ["libarx/src/create/fs_adder.rs:add_entry_from_path"]}
{"id": "C40", "title": "Symbolic links are followed only where documented", "statement": "Adding a path stores a link as a link unless following was requested (or it is the path given on the command line), in which case the kind, metadata and content of the final target are stored under the link's own path; special files are skipped without error.", "quantifier": "every host file system and path", "why_tests_cant": "All file systems.", "anchors": ["libarx/src/create/fs_adder.rs:detect_kind", "libarx/src/create/fs_adder.rs:add_from_path_with_filter"]}
{"id": "C41", "title": "All walked entries reach the archive", "statement": "Entries found by the directory-walking thread are all added, in order, whatever the scheduling of the two threads. If the walk meets an error the remaining entries are silently dropped and success is returned (refutation of 'success means everything was added').", "quantifier": "every schedule of producer and consumer", "why_tests_cant": "All interleavings.", "anchors": ["libarx/src/create/fs_adder.rs:add_from_path_with_filter"]}
{"id": "C42", "title": "arx list prints every path exactly once", "statement": "The output of arx list is one line per entry, the line being the components of its path joined by '/', in lexicographic path order.", "quantifier": "every archive produced", "why_tests_cant": "All trees.", "anchors": ["arx/src/list.rs:Lister", "arx/src/light_path.rs:println2"]}
{"id": "C43", "title": "Stable listing is unambiguous", "statement": "Two entries listed by the stable output as directories or files with different type, mtime, size or path give different lines, provided no path contains a newline; links are ambiguous when a path contains '->' (refutation). Names and targets are printed as they are when they are UTF-8; in a target that is not, each longest ill-formed piece is printed as U+FFFD.", "quantifier": "all pairs of entries", "why_tests_cant": "All strings and numbers.", "anchors": ["arx/src/list.rs:StableLister"]}
{"id": "C44", "title": "arx dump outputs exactly the content of the file", "statement": "dump of a file path to standard output writes exactly the archived bytes, and fails on directories, links and unknown paths without output. Dumping to an output file never works for non-empty contents because the file is opened read-only (refutation).", "quantifier": "every archive, path and output", "why_tests_cant": "All archives and contents.", "anchors": ["arx/src/dump.rs:dump", "arx/src/dump.rs:dump_entry"]}
{"id": "C45", "title": "Compression option parser", "statement": "The compression parser accepts exactly none, lz4, lzma, zstd (any letter case) optionally followed by '=level' with a decimal level in the range of the algorithm, maps them to that algorithm and level, and returns an error for anything else, without panicking.", "quantifier": "every argument string", "why_tests_cant": "All strings.", "anchors": ["libarx/src/cmd_utils.rs:compression_arg_parser"]}
{"id": "C46", "title": "Concat mode flags", "statement": "At most one of -1/-2/-N can be given; the flag given selects one file, two files or one file per pack; no flag selects one file; the unreachable case is not reached.", "quantifier": "every flag combination accepted by the parser", "why_tests_cant": "Finite but safety of unreachable!().", "anchors": ["libarx/src/cmd_utils.rs:ConcatMode", "arx/src/create.rs:create"]}
{"id": "C47", "title": "arx create never clobbers an archive without --force", "statement": "If the output file exists and --force is absent, or its directory is missing, or an input path given on the command line is missing or absolute, create fails before anything is written to the output path.", "quantifier": "every file system state and option set", "why_tests_cant": "All states.", "anchors": ["arx/src/create.rs:check_output_path_writable", "arx/src/create.rs:check_input_paths_exist", "arx/src/create.rs:create"]}
{"id": "C48", "title": "Recursion and symlink options of arx create", "statement": "With input files, recursion is on unless --no-recurse; with a file list it is off unless --recurse is given. The second half is false: --recurse is ignored with a file list, and --follow-symlink is ignored with input files (refutations). A file list is read line by line, the ends of line being LF or CRLF; one that cannot be read or is not UTF-8 fails the creation and no archive is written.", "quantifier": "every option set", "why_tests_cant": "Interaction of options.", "anchors": ["arx/src/create.rs:Options", "arx/src/create.rs:create"]}
{"id": "C49", "title": "Conversion of tar members", "statement": "Directories, symlinks and regular members of a tar become directories, links with the same target, and files with the same content, with their uid, gid, mode and mtime; extension headers are dropped. Hard links become empty files (refutation of content preservation).", "quantifier": "every tar member", "why_tests_cant": "All members.", "anchors": ["tar2arx/src/main.rs:TarEntry::new"]}
{"id": "C50", "title": "Conversion of zip members", "statement": "Zip members become directories or files with the stored size and content, uid/gid 0, mode defaulting to 0o644 and the extended timestamp taking precedence; members with an unsafe path are refused. The --compression option of zip2arx has no effect (refutation).", "quantifier": "every zip member and option", "why_tests_cant": "All members.", "anchors": ["zip2arx/src/main.rs:ZipEntry::new", "zip2arx/src/main.rs:Converter::new"]}
{"id": "C51", "title": "Inferred archive name of tar2arx", "statement": "Without --outfile the archive name is the tar name with its last two extensions replaced by .arx, in the same directory, and conversion of standard input without --outfile is refused; distinct tars may collide (refutation of injectivity).", "quantifier": "every file name", "why_tests_cant": "All strings.", "anchors": ["tar2arx/src/main.rs:main"]}
{"id": "C52", "title": "Python Creator life cycle", "statement": "add works only between enter and exit; the archive is finalised exactly once, at the first exit; afterwards every method raises an error; no sequence of calls finalises twice or adds after finalisation.", "quantifier": "every sequence of method calls", "why_tests_cant": "All call sequences.", "anchors": ["python/src/creator.rs:Creator"]}
{"id": "C53", "title": "Python Stream reads reassemble the content", "statement": "Successive read(n) calls return consecutive pieces of at most n bytes whose concatenation is the content; tell()+size_left() always equals size(); read never fails.", "quantifier": "every sequence of read sizes", "why_tests_cant": "All sequences.", "anchors": ["python/src/stream.rs:Stream"]}
{"id": "C54", "title": "Python iteration yields exactly the children", "statement": "Iterating over an archive or a directory entry yields exactly its children, once each, in name order, then stops; equality of entries is equality of indices.", "quantifier": "every archive produced, every directory", "why_tests_cant": "All trees.", "anchors": ["python/src/iterator.rs:EntryIter", "python/src/entry.rs:__iter__"]}
{"id": "C55", "title": "Crash during creation never leaves a truncated archive at the output path", "statement": "At every system call of arx create, killed there or not, the output path holds what was there before or the complete archive of a session whose additions all succeeded, and nothing else changes but temporary files beside it (under names that were free). A successful run leaves all the files of one archive and no temporary file; a failed run leaves the host as it was (one-file mode), --force or not; without --force an existing output is never touched. (jbk's protocol, temporary file then rename, is a stated contract.)", "quantifier": "every crash point", "why_tests_cant": "All crash points.", "anchors": ["libarx/src/create/creator.rs:SimpleCreator::finalize"]}
{"id": "C56", "title": "arx extract of a subtree or of a list of files", "statement": "arx extract --root-dir D extracts exactly the entries below the archived directory D into the output directory and nothing else; any path that is not an archived directory is refused without touching the file system; -L FILE is the same as giving the lines of FILE as arguments.", "quantifier": "every archive produced, every root directory, output directory and file list", "why_tests_cant": "All trees, directories and lists.", "anchors": ["arx/src/extract.rs:extract", "arx/src/extract.rs:get_files_to_extract"]}
{"id": "C57", "title": "arx create followed by arx extract reproduces the tree", "statement": "Running arx create on a directory (any prefix stripped) with an acceptable output path succeeds, and arx extract of the archive into an empty directory of any host reproduces exactly the same tree of directories, file contents and link targets, and touches nothing else.", "quantifier": "every source tree, listing order, options, destination host and thread schedule", "why_tests_cant": "All trees and schedules; end-to-end tests run a few fixed trees.", "anchors": ["arx/src/create.rs:create", "arx/src/extract.rs:extract", "libarx/src/create/fs_adder.rs:FsAdder", "libarx/src/tools.rs:extract_arx_range"]}
{"id": "C58", "title": "Python get_entry, entry attributes and content", "statement": "get_entry(path) finds exactly what is stored under the path ('.' components do not count) and raises otherwise; an entry is exactly one of file, link, directory; its index, name, parent, mtime are those of the stored entry, its owner and group modulo 2^32 and its rights modulo 2^8 (see C17); kind-specific attributes raise on other kinds; get_content gives a stream at position 0 whose reads reassemble the stored content, and raises when the pack is missing.", "quantifier": "every archive produced, every path string, every entry, every sequence of reads", "why_tests_cant": "All trees and paths.", "anchors": ["python/src/arx.rs:Arx::get_entry", "python/src/entry.rs:Entry", "python/src/stream.rs:Stream"]}
{"id": "C59", "title": "Python create then extract reproduces the tree", "statement": "with Creator(out) as c: c.add(dir), then Arx(out).extract(dest) into an empty directory reproduces exactly the tree of directories, file contents and link targets below dir, and touches nothing outside dest.", "quantifier": "every source tree, listing order, destination host, thread schedule", "why_tests_cant": "All trees and schedules.", "anchors": ["python/src/creator.rs:Creator::add", "python/src/arx.rs:Arx::extract"]}
{"id": "C60", "title": "Extraction of a foreign archive is confined when names are harmless", "statement": "Whatever table of records an archive holds (crafted, unsorted, duplicated, cyclic ranges), if no record name has a '..' component and no component naming a link record is used by any other record, extraction with any policy, selection and schedule changes nothing outside of the output directory at any moment of the run; without the second condition a crafted archive writes anywhere (refutation).", "quantifier": "every table of records, range, option, destination, schedule and moment of the run", "why_tests_cant": "All archives, including malicious ones; tests only hold archives written by the creator.", "anchors": ["libarx/src/tools.rs:Extractor", "libarx/src/walk.rs:Walker"]}
{"id": "C61", "title": "Look-ups in a foreign archive are sound and end", "statement": "In any table of records, whatever get_entry returns is a record whose name chain from the root is the path; get_entry always ends, fails only with 'not found' or an unknown record variant, and aborts (on a path with components) only if some range leaves the table or some parent index does not fit.", "quantifier": "every table of records, every path", "why_tests_cant": "All tables, including corrupted ones.", "anchors": ["libarx/src/arx.rs:Arx::get_entry", "libarx/src/common/builder.rs:RealBuilder"]}
{"id": "C62", "title": "Walks of a foreign archive end when ranges lead forward", "statement": "In any table of records whose ranges stay in the table and come after their directory, walking ends for every operator whose callbacks end; every archive the creator writes is such a table; a directory holding itself is walked for ever (refutation).", "quantifier": "every table of records, every operator", "why_tests_cant": "All tables.", "anchors": ["libarx/src/walk.rs:Walker::_run"]}
{"id": "C63", "title": "Every path of a mount resolves to exactly what is stored under it", "statement": "Resolving any path in a mount, one look-up per component, with any other requests in between, reaches an inode of the stored kind if the path is stored, and fails otherwise; resolving the same path twice gives the same inode; reads of the inode reached give the stored content, its listings the stored children.", "quantifier": "every archive produced, every path, every interleaving with other requests", "why_tests_cant": "All paths and request histories; tests compare one small mounted tree.", "anchors": ["libarx/src/arx_fs.rs:ArxFs", "arx/src/mount.rs:mount"]}
{"id": "C64", "title": "arx create of several inputs, seen through every reader", "statement": "arx create with any number of INFILES (files and directory trees, none above another), with or without -C and --strip-prefix, succeeds; then arx dump prints exactly each archived file and refuses everything else, arx list prints exactly the archived paths in order, a mount resolves exactly them with their metadata and contents, Python's get_entry finds exactly them, and arx extract into an empty directory recreates exactly them.", "quantifier": "every list of inputs, source host, listing order, options, path, request history, destination and schedule", "why_tests_cant": "All inputs and option combinations.", "anchors": ["arx/src/create.rs:create", "arx/src/dump.rs:dump", "arx/src/list.rs:list", "arx/src/extract.rs:extract", "libarx/src/arx_fs.rs:ArxFs", "python/src/arx.rs:Arx"]}
{"id": "C65", "title": "What is archived decides the archive", "statement": "Two runs of arx create, on any hosts, with any inputs in any order, options, output names and listing orders, that are given the same things (kind, content, target, owner, group, mode, time) under the same archive paths write the same table: same records in the same order, same metadata, same directory ranges, same contents; only the addresses of the contents may differ, and no reader (list, dump, extract, mount) behaves differently on two such archives.", "quantifier": "every pair of runs, hosts, inputs, orders; every use of a reader", "why_tests_cant": "A relation between all pairs of runs.", "anchors": ["arx/src/create.rs:create", "libarx/src/create/entry_store_creator.rs:EntryStoreCreator", "libarx/src/create/fs_adder.rs:FsAdder"]}
{"id": "C66", "title": "Interrupted extractions leave only beginnings, and overwriting resumes them", "statement": "If extraction is killed at any moment (also repeatedly, with any policies, selections and thread schedules), every archived path is then absent or holds what is archived there - a directory, the link, or a file with a prefix of its content - and nothing else has changed; with 'skip', 'warn' or 'error' nothing that existed has changed, on any destination and for any archive (hostile ones included); a later complete run with policy 'overwrite' then succeeds and leaves exactly the archived tree. With 'skip' (the default) or 'newer' the later run reports success and leaves truncated files; 'overwrite' can lose a link that was there (refutations).", "quantifier": "every archive produced, every number of runs, crash point, policy, selection, schedule, write size and write failure", "why_tests_cant": "All crash points and histories; a test kills at one or two moments.", "anchors": ["libarx/src/tools.rs:Extractor::on_file", "libarx/src/tools.rs:Extractor::on_link", "libarx/src/tools.rs:extract_arx_range"]}
{"id": "C67", "title": "A converted tar or zip is extracted as it was", "statement": "Extracting into an empty directory the archive made from a tar (or a zip) gives each member under its path with its bytes (or target), the directories on the way, and nothing else, as long as no name has a '..' component. Whatever the names, an archive made from a zip is extracted inside the output directory, for every selection, policy and failure. A tar with a '../x' name is extracted outside of it; so is a zip with 'a/../b' under --root-dir a; 'a/../b' and 'b' of one zip collide (refutations).", "quantifier": "every tar and zip, member, option, destination, policy, selection, schedule and write failure", "why_tests_cant": "All archives and names; composition of two programs.", "anchors": ["tar2arx/src/main.rs:Converter::run", "zip2arx/src/main.rs:ZipEntry::new", "libarx/src/tools.rs:Extractor"]}
{"id": "C68", "title": "Where and what arx mount mounts", "statement": "arx mount mounts, read-only, the archive at the given path: the whole of it or exactly the directory --root-dir names (anything else is refused), at the mount point given; with none given, at a directory that did not exist before, next to the archive and named after it. A refused or failed mount leaves the file system as it was, and after an unmount the temporary mount point is gone. The command does not abort on a readable archive with a UTF-8 path. Without --foreground its exit status is a success even when mounting fails (refutation).", "quantifier": "every host file system, working directory, archive, mount point, root directory, random name, outcome of the fuse session", "why_tests_cant": "All host states, names and outcomes.", "anchors": ["arx/src/mount.rs:mount", "libarx/src/arx_fs.rs:ArxFs::mount", "libarx/src/arx_fs.rs:ArxFs::mount_options"]}
{"id": "C69", "title": "Mounting programs never mount read-write", "statement": "Whatever the program (arx mount, mount.fuse.arx, auto_mount) and its options, what it mounts is read-only. mount.fuse.arx refuses '-o rw' before anything happens and otherwise mounts the whole archive at the given place; auto_mount does so with the archive in its own executable; without an archive both report an error. '-o rw,noexec' is accepted (refutation).", "quantifier": "every archive, option list, host and outcome of the fuse session", "why_tests_cant": "All option lists and hosts.", "anchors": ["arx/src/bin/mount_fuse_arx.rs:main", "arx/src/bin/auto_mount.rs:main", "libarx/src/arx_fs.rs:ArxFs::mount_options"]}
{"id": "C70", "title": "Mount statistics count the requests", "statement": "After any history of requests each counter of the statistics equals the number of requests of its kind, whatever the replies; counting changes no reply and never stops a mount (before 2^64 requests); what is printed at the end determines every counter.", "quantifier": "every archive and request history", "why_tests_cant": "All histories.", "anchors": ["arx/src/mount.rs:StatCounter", "libarx/src/arx_fs.rs:Stats"]}
{"id": "C71", "title": "A successful arx create archived what it was asked", "statement": "On any host, when arx create succeeds, everything in the archive has the kind, content or target, owner, group, mode and time of a path the creation went through (an input, what is below it with --recurse, or a line of the file list), stored under that path without the prefix, or is a default directory above one. When every directory met can be listed, everything gone through is archived (special files excepted); one path that is outside the prefix, leads nowhere or is an unreadable file makes the command fail without writing an archive.", "quantifier": "every host file system (unreadable, special, dangling or clashing entries included), option and input list", "why_tests_cant": "All hosts and inputs; tests only use well-formed trees.", "anchors": ["arx/src/create.rs:create", "libarx/src/create/fs_adder.rs:FsAdder::add_from_path_with_filter", "libarx/src/create/fs_adder.rs:FsAdder::add_from_list"]}
{"id": "C72", "title": "Mounting an archive no creator wrote", "statement": "Whatever the records of a mounted archive (duplicated, unsorted, self-containing, ranges and numbers out of bounds) and whatever was asked before, if the index arx_entries starts at the first record, every answer is true of the records: an entry found has the name asked and is in that directory, attributes, link targets, bytes and listings are those of the records, each error is justified. In directories in name order 'no such file' is definitive. If that index covers the table, ranges are in bounds, numbers representable and contents as long as claimed, no request of a kernel stops the server. Out of order a name can be absent and, after a listing, present; a size beyond the content or a range beyond the table stops the server; an index starting elsewhere shows one entry's attributes under another's name (refutations).", "quantifier": "every table of records, root range and request history", "why_tests_cant": "All tables, including hostile ones, and all histories.", "anchors": ["libarx/src/arx_fs.rs:ArxFs", "libarx/src/arx_fs.rs:AttrBuilder", "libarx/src/common/mod.rs:EntryCompare"]}
{"id": "C73", "title": "Created archives are opened as written; what else is opened, and how it is read", "statement": "Whatever was added, the archive written can be opened and shows exactly the accepted entries, at their paths, with their kinds and metadata, both through the index of the root and the one the mount uses; no value is ever read from another kind of entry's place. A container is opened exactly when it has the index 'arx_root' on an entry store with three variants and all properties arx names, with their types; without the index opening is an error. An archive with arx' variant numbers is read by name wherever its properties are stored and whatever else it holds. The mount shows the same records as the other readers when both indexes are on one entry store, is refused without the index arx_entries, and shows others when the indexes are on two stores (refutation). A store lacking a property or with another number of variants aborts the process, and one with the same variants in another order is read wrongly (a directory shown as a file) (refutations).", "quantifier": "every history of additions, every container (layout, indexes, rows)", "why_tests_cant": "All trees and all layouts, including foreign ones; tests only open what the same version wrote.", "anchors": ["libarx/src/create/entry_store_creator.rs:EntryStoreCreator::new", "libarx/src/create/entry_store_creator.rs:finalize", "libarx/src/common/properties.rs:AllProperties::new", "libarx/src/common/entry_type.rs:EntryType", "libarx/src/arx.rs:Arx::new"]}
{"id": "C74", "title": "What a successful creation wrote is what the readers open", "statement": "After a successful arx create (one file), opening the output by any path that leads to it, from any current directory, gives the archive of exactly the session that was run, whatever temporary files and other entries the directory holds, when jbk reads back the bytes it wrote; the output path itself is such a path unless it ends with '/' or '/.'.", "quantifier": "every world, option set, sequence of jbk system calls, path and current directory", "why_tests_cant": "All namespaces with links, all orders of the writes.", "anchors": ["arx/src/create.rs:create", "libarx/src/create/creator.rs:SimpleCreator::new", "libarx/src/create/creator.rs:SimpleCreator::finalize", "libarx/src/arx.rs:Arx::new"]}
{"id": "C75", "title": "What list and dump print, and what their exit status says", "statement": "Whatever the sizes of the writes and the state of the buffers, the standard output of arx list and arx dump gets the first bytes of the command's text, as many as it takes, and the whole of it when there is room, with the command's status. Into a pipe, exit status 0 means that the reader got everything (all paths, or the whole file); a reader leaving early ends the process by SIGPIPE. Into a file, a failure means that something is missing or the command failed; success means that at most what the buffers held is missing (for dump, no complete line). On a full device both exit with 0 having written nothing (refutation).", "quantifier": "every text, cut into writes in any way, every device (room left, pipe or file)", "why_tests_cant": "All output sizes, buffer states and points where the device fills.", "anchors": ["arx/src/list.rs:list", "arx/src/dump.rs:dump_entry", "arx/src/main.rs:main"]}
{"id": "C76", "title": "Nothing that exists is lost", "statement": "After any history of runs of arx create (one file, without --force), list, dump and extract (skip, warn or error), each finished or killed at any system call, from any directory and on any archives (hostile ones included), every file that existed has its name, bytes and time and every directory is there; only a symbolic link at an output path may have become a file. list and dump change nothing at all. On a path that leads to no archive, list, dump and extract print nothing, change nothing and do not end with success. A dangling link at the output is replaced without --force; with --two-files the second file replaces what had its name without --force (refutations).", "quantifier": "every host, history of runs, archive, crash point and schedule", "why_tests_cant": "All histories and crash points.", "anchors": ["arx/src/main.rs:run", "arx/src/create.rs:check_output_path_writable", "arx/src/extract.rs:extract", "libarx/src/tools.rs:Extractor"]}
{"id": "C77", "title": "Archived once, read anywhere", "statement": "After arx create (one file) exits with 0, its output holds an archive made from the inputs, and it still does after any history of runs that are not asked to replace anything. Wherever those bytes are found later, in any host and under any path: arx list with room (or through a pipe, with status 0) prints exactly the paths of the inputs and the directories above them, sorted; arx dump prints exactly the bytes of the source file, or nothing with status 1 for any other path; arx extract into an empty directory that exits with 0 has rebuilt exactly the inputs, nothing outside is changed, and such a run exists; arx mount, given a directory, mounts it read-only and every mount of it resolves exactly the paths of the inputs, with their metadata, bytes and targets; a Python program that opens it finds exactly them with get_entry, reads their bytes, and extracts them into an empty directory.", "quantifier": "every source host, option, input, jbk write order, later host, path, output device, policy and schedule", "why_tests_cant": "All trees and all later worlds; composition of the whole program.", "anchors": ["arx/src/main.rs:main", "arx/src/create.rs:create", "arx/src/list.rs:list", "arx/src/dump.rs:dump", "arx/src/extract.rs:extract"]}
{"id": "C78", "title": "Archiving a directory that changes", "statement": "Whatever changes on the host while files are added, every entry of a successful creation was there: owner, group, mode, time, kind and size are those of one moment at which the path led to it, its bytes or link target those of one later moment; every path asked for is stored. If nothing changes this is the creation on a fixed host. If files are only appended to, a stored file has all the bytes it had when its size was taken, perhaps more, and no kernel request stops a mount of the archive. Refuted: a file truncated between the two makes an ordinary read stop the mount server; for a file that grew, the mount and dump disagree on the size.", "quantifier": "every history of the host (any world at each system call), list of paths, prefix and later requests of the kernel", "why_tests_cant": "All interleavings of the creation with other processes.", "anchors": ["libarx/src/create/fs_adder.rs:FsEntry::new_from_path", "libarx/src/create/fs_adder.rs:detect_kind", "libarx/src/create/fs_adder.rs:FsAdder::add_entry_from_path", "libarx/src/arx_fs.rs:ArxFs::read"]}
{"id": "C79", "title": "The moments at which the writers run make no difference", "statement": "Extraction in which the writing threads run at any moments, between any two system calls of the walk, while nobody else changes the file system, leaves exactly what a run leaves in which they run between two entries only (with the same failing writes or none); so everything proved about those holds, for example that extracting everything into an empty directory reproduces the archive and changes nothing else.", "quantifier": "every archive table, selection, policy, host, interleaving of writes and system calls", "why_tests_cant": "All interleavings at the level of system calls.", "anchors": ["libarx/src/tools.rs:Extractor", "libarx/src/tools.rs:extract_arx_range"]}
{"id": "C80", "title": "Extraction with others at work in the same place", "statement": "With skip, warn or error, whatever other processes do to the file system at any moment during the extraction, whatever the archive contains (hostile ones included) and whichever files cannot be opened: each system call of the extraction leaves every name and every file that exists at that moment; a file is opened for writing only by the call that makes it, and written only if the extraction made it. Refuted for newer: a file that another process saves between the look at the time and the opening is truncated although it is newer.", "quantifier": "every archive table, host, behaviour of other processes at every system call, interleaving of the writers", "why_tests_cant": "All interleavings with other processes; a race cannot be tested exhaustively.", "anchors": ["libarx/src/tools.rs:Extractor::on_file", "libarx/src/tools.rs:Extractor::on_link", "libarx/src/tools.rs:Extractor::on_directory_enter"]}
{"id": "C81", "title": "Extraction and the number of open files", "statement": "Each extracted file is held open until its writer is done. Extraction of more files than the process may have open fails when the writers only run after the walk (as with a single thread), for every archive and every limit, although it succeeds with other schedules; a limit larger than the number of files opened never matters.", "quantifier": "every archive, limit and schedule", "why_tests_cant": "All sizes of archives and limits, and all schedules.", "anchors": ["libarx/src/tools.rs:Extractor::on_file", "libarx/src/tools.rs:extract_arx_range"]}
{"id": "C82", "title": "find > list, arx create -L list", "statement": "Given a file listing things below the inputs, one per line as find prints them, nothing twice and every directory before what it contains, arx create -L (from the same directory, any --strip-prefix and -C) succeeds and the archive holds exactly these things, with their metadata and bytes, and the missing directories above the inputs. With the complete list, no reader can tell the archive from the one that arx create -r makes of the inputs. Refuted when directories come last (find -depth): they are stored with made-up metadata.", "quantifier": "every host, tree, order of the list, arguments and options", "why_tests_cant": "All trees and all orders find can print.", "anchors": ["arx/src/create.rs:create", "libarx/src/create/fs_adder.rs:FsAdder::add_from_list", "libarx/src/create/fs_adder.rs:FsAdder::add_from_path"]}
{"id": "C83", "title": "Converting by mounting and archiving again", "statement": "Mounting an archive and running arx create on the mount point (the Changelog's way to convert archives of older versions) succeeds and gives an archive with exactly the entries of the mounted part, at the place the argument stands for: same kinds, times, link targets, sizes and bytes; arx list and arx dump of the new archive, made from inside of the mount point, answer as for the old. Owners and groups are kept modulo 2^32; of the permissions everything but the write bits. Refuted: that permissions are kept.", "quantifier": "every archive that a mount can show, mounted directory, kernel behaviour, place of the mount, options of arx create", "why_tests_cant": "All archives and all orders of the kernel's requests; composition of mount and creation.", "anchors": ["libarx/src/arx_fs.rs:ArxFs", "arx/src/create.rs:create", "libarx/src/create/fs_adder.rs:FsAdder", "Changelog.md"]}
{"id": "C84", "title": "The Python README's reading programs", "statement": "The recursive walk of the Python README (with its two misspelt calls read as meant) ends and prints exactly one line per entry of the archive, in the order of arx list: the path from the root, and the size and first 100 bytes of the file, the number of children of the directory, or the target of the link. An entry looked up by path has the last name as path; going up by parent gives the names before it, one by one, then None.", "quantifier": "every archive made from a session with UTF-8 names", "why_tests_cant": "All archives; recursion over arbitrary depth.", "anchors": ["python/README.md", "python/src/iterator.rs:EntryIter::__next__", "python/src/entry.rs:Entry", "python/src/stream.rs:Stream::read", "python/src/arx.rs:Arx::get_entry"]}
{"id": "C85", "title": "Links lead to the same things in copies", "statement": "In the extraction of an archived directory, and in a mount of it, the tree is the one archived, and from every directory of it every path that stays in the tree - through any relative links, '.' and '..' - leads to the same place holding the same thing, to the same missing name or to the same error as in the tree archived. Refuted for absolute links: one that points into the tree leads out of the copy, to the original.", "quantifier": "every tree, starting directory, path and chain of links", "why_tests_cant": "All trees and all paths through links.", "anchors": ["arx/src/create.rs:create", "arx/src/extract.rs:extract", "libarx/src/tools.rs:Extractor::on_link", "libarx/src/arx_fs.rs:ArxFs::readlink", "libarx/src/create/fs_adder.rs:FsAdder"]}
{"id": "C86", "title": "Converted tars and zips through every reader", "statement": "An archive written by tar2arx or zip2arx shows exactly the members of the tar or zip and the directories above them: arx list prints their paths, once each, in order; arx dump gives the bytes of every file and refuses any other path; a mount and the Python module find every member, with its kind, bytes or target, and its owner, group, permissions and time (zip: owner and group 0), and nothing else. A directory has its own metadata when it comes before its content; refuted otherwise.", "quantifier": "every tar and zip that is converted, path, history of requests and sequence of reads", "why_tests_cant": "All archives, paths and histories; composition of conversion and readers.", "anchors": ["tar2arx/src/main.rs:Converter", "zip2arx/src/main.rs:Converter", "arx/src/list.rs:list", "arx/src/dump.rs:dump", "libarx/src/arx_fs.rs:ArxFs", "python/src/arx.rs:Arx::get_entry"]}
{"id": "C87", "title": "Updating an extraction", "statement": "Files and links that arx extract writes get the time it runs at, never the archived time; others keep theirs. When an archive is extracted in an empty directory and later a second one in the same directory, and what both have is of the same kind: what only the first has stays; what the second has is as in the second with the policy overwrite; with newer, when it is new or its archived time is not before the time of the first extraction, and otherwise it stays as it was; nothing else is there. So newer brings everything up to date if all that changed is dated after the first extraction; refuted otherwise: a file changed after the first archive was made but before it was extracted is not updated.", "quantifier": "every two archives, times, schedules of threads and directories", "why_tests_cant": "All pairs of archives and times; history of two extractions.", "anchors": ["libarx/src/tools.rs:Extractor::should_extract", "libarx/src/tools.rs:Extractor::on_file", "libarx/src/tools.rs:Extractor::on_link", "arx/src/extract.rs:extract"]}
{"id": "C88", "title": "Extracting in parts", "statement": "Extracting lists of paths one after the other in an empty directory, with any policies at any times, gives exactly the entries the lists select together: what one extraction with all the paths gives, name by name, byte by byte. Each further part succeeds with a policy that does not stop at existing files.", "quantifier": "every archive, sequence of lists of paths, policies, schedules and times", "why_tests_cant": "All sequences of runs over all archives.", "anchors": ["arx/src/extract.rs:extract", "libarx/src/tools.rs:Extractor::should_extract", "libarx/src/tools.rs:extract_arx"]}
{"id": "C89", "title": "arx create and its own temporary files", "statement": "arx create makes its temporary files in the directory of the output before it reads its inputs. When no path it goes through leads to that directory - for instance when the directory is neither an input nor below one - it writes the archive that it would write without them. When its walk does enter that directory, the temporary files are archived, with the bytes they have at that moment. Refuted: that archiving a directory with the output in that directory archives what was there: the archive also holds the temporary file.", "quantifier": "every host, place of the output, temporary files and options", "why_tests_cant": "All hosts and all positions of the output relative to the inputs.", "anchors": ["arx/src/create.rs:create", "libarx/src/create/creator.rs:SimpleCreator::new", "libarx/src/create/fs_adder.rs:FsAdder::add_from_path"]}
{"id": "C90", "title": "Extracting and archiving again", "statement": "An archive is extracted in an empty directory - all of it or some paths, by one or several runs, with any policies at any times - and the directory is archived again. This succeeds, and the new archive holds exactly what was extracted: the same paths (below the place it is archived under), kinds, bytes and targets, with the owner, group, mode and time of the copy, and it can be extracted and archived again in turn. When everything was extracted, arx list and arx dump answer as before and both archives are extracted to the same tree. Times are not kept: every file and link has the time of the extraction.", "quantifier": "every archive made from ordinary trees, sequence of lists of paths, policies, schedules, times and listing orders", "why_tests_cant": "All archives and histories; composition of extraction and creation.", "anchors": ["arx/src/extract.rs:extract", "arx/src/create.rs:create", "libarx/src/tools.rs:extract_arx", "libarx/src/create/fs_adder.rs:FsAdder", "arx/src/list.rs:list", "arx/src/dump.rs:dump"]}
{"id": "C91", "title": "The same bytes are stored once", "statement": "An archive written by arx create, tar2arx, zip2arx or a Python program holds the bytes of each of its files, and never the same bytes twice: two files have the same content address exactly when they have the same bytes. What arx create, tar2arx, zip2arx or a Python program whose adds all worked writes holds no other contents. Refuted for Python programs that catch the exception of a refused add: the bytes it had read stay in the archive as the content of no file.", "quantifier": "every host, options, tar, zip and Python program", "why_tests_cant": "All inputs and sequences of additions.", "anchors": ["libarx/src/create/creator.rs:SimpleCreator", "libarx/src/create/fs_adder.rs:FsEntry::new_from_path", "tar2arx/src/main.rs:Converter", "zip2arx/src/main.rs:Converter", "python/src/creator.rs:Creator::add"]}
{"id": "C92", "title": "Converters: all or nothing, at every system call", "statement": "At every system call of tar2arx and zip2arx, killed there or not, the output path (given, or inferred from the name of the tar) holds what was there before or a complete archive file of the whole tar or zip; every other file, the tar or zip included, is untouched but for temporary files under names that were free in the directory of the output. A run that succeeds leaves the archive and nothing else, and it opens as the archive of all the members; with one file, a run that fails leaves the host as it was. Refuted: nothing is asked before a file at the output path is replaced (not even the tar or zip itself), so that converting pkg-1.2.tar and then pkg-1.3.tar loses the first archive without a word.", "quantifier": "every host, tar, zip, option and kill point", "why_tests_cant": "All crash points and host states.", "anchors": ["tar2arx/src/main.rs:main", "tar2arx/src/main.rs:Converter", "zip2arx/src/main.rs:main", "zip2arx/src/main.rs:Converter", "libarx/src/create/creator.rs:SimpleCreator"]}
{"id": "C93", "title": "A Python Creator touches only its temporary files, and its output once", "statement": "Whatever the rest of a Python program and other programs do to the host (except to the temporary files of the creator), every system call of a libarx.Creator leaves every path alone, but for its own temporary files, made beside the output under names that were free, and, once, after the with block was left, the output, which then holds the whole archive of what was added. Killed at any point, or dropped without leaving the block, it leaves the output as it was; closed, it leaves no temporary file; an __exit__ that raises leaves no trace. Two creators used at the same time do not disturb each other. Refuted: leaving the block by an exception keeps the file that was at the output: it is replaced by the incomplete archive, without a word.", "quantifier": "every host, program, interleaving with other programs and kill point", "why_tests_cant": "All histories, interleavings and crash points.", "anchors": ["python/src/creator.rs:Creator::new", "python/src/creator.rs:Creator::__exit__", "python/src/creator.rs:Creator::add", "libarx/src/create/creator.rs:SimpleCreator::finalize"]}
{"id": "C94", "title": "Open archives and replaced archives", "statement": "An archive file that a program has opened (arx list, dump, extract, mount, a Python program) keeps its bytes as long as it is open, whatever arx, tar2arx, zip2arx and Python creators do meanwhile, killed or not, in any number - also when one of them replaces it, as create --force and the converters do. A program that opens the output path at any moment of an arx create of one file or of a conversion gets what was there before, or the whole new archive. Refuted for extractions with --overwrite overwrite: an archive that holds an entry at its own path is truncated by its own extraction and lost.", "quantifier": "every host, sequence of runs, kill point and moment of opening", "why_tests_cant": "All histories and interleavings at every system call.", "anchors": ["arx/src/create.rs:create", "libarx/src/create/creator.rs:SimpleCreator", "tar2arx/src/main.rs:main", "zip2arx/src/main.rs:main", "python/src/creator.rs:Creator", "libarx/src/tools.rs:extract_arx_range"]}
{"id": "C95", "title": "Creating several archives at the same time", "statement": "Any number of arx create runs, and of other programs that write archives (tar2arx, zip2arx, Python creators), run at the same time on one host, their system calls interleaved in any way, any of them killed at any moment. At every moment every path is as it was before, a temporary file of one of them under a name that was free, or a complete archive file of one of them at one of the outputs. A run that alone would succeed, and that reads neither outputs nor directories with an output in them, does not fail because of the others and writes the archive it would write alone; its files in place have the bytes they have after the run alone, as long as no other run is asked for the same file. A run that does read what the others write archives only what was there, under that path, at moments of the past, and every input (or line of the file list) that was there all the time is in its archive. Whoever has opened an output keeps reading the bytes from before or those of one complete file, whatever is put in place meanwhile. Refuted: that --force is needed to replace an archive: two runs without it to the same free output both pass the check and both succeed, and the archive of the first is lost.", "quantifier": "every host, number of runs, options, interleaving and kill point", "why_tests_cant": "All interleavings of system calls of any number of processes.", "anchors": ["arx/src/create.rs:create", "arx/src/create.rs:check_output_path_writable", "libarx/src/create/creator.rs:SimpleCreator", "libarx/src/create/fs_adder.rs:FsAdder::add_from_path"]}
{"id": "C96", "title": "The same files give the same archive, whichever tool", "statement": "Some files and directories are archived by arx create; a tar of exactly these, with no directory after something in it, is converted by tar2arx; when they belong to user and group 0, a zip of them is converted by zip2arx. The archives have the same entries in the same order, with the same names, owners, groups, permissions, times, targets, sizes and bytes: they differ at most in where the contents are stored and in the file type bits of the modes, and not in these when the tar or zip has them. arx list, arx dump and arx extract do the same with them, and mounts of them give the same replies to every sequence of requests, type bits of the permissions aside. Refuted: that the modes are always the same (arx create stores the type bits, a usual tar has permissions only). Refuted when a directory comes after something in it: it loses its owner, permissions and time.", "quantifier": "every host, options of the three tools, inputs, tar and zip of them", "why_tests_cant": "All inputs; agreement of three programs.", "anchors": ["arx/src/create.rs:create", "libarx/src/create/fs_adder.rs:FsEntry", "tar2arx/src/main.rs:TarEntry", "zip2arx/src/main.rs:ZipEntry", "libarx/src/create/entry_store_creator.rs:EntryStoreCreator::add_entry"]}
{"id": "C97", "title": "Reading some of an archive needs only that part", "statement": "When no directory of an archive has 2^k entries, looking up a path of n names depends on at most k times n records of it; arx dump of a path, and get_entry with get_content from Python, depend besides on one content, that of the file. A request to a mount depends on at most k+2 records (lookup), three more than it lists (a page of a directory), none (read, release) or one (the others), and only open depends on a content, one. arx list depends on no content; arx extract only on the contents of the files selected and the records of what is in the directories it enters. An archive that is equal there and damaged, missing or different anywhere else gives the same answer. It does not hold that extraction passes over one content that cannot be read: it aborts, and the rest is not extracted.", "quantifier": "every archive, path, request, mount history, selection, schedule and damage", "why_tests_cant": "All archives and all ways of damaging the rest.", "anchors": ["libarx/src/walk.rs:Walker", "libarx/src/arx.rs:Arx::get_entry", "arx/src/dump.rs:dump", "arx/src/list.rs:list", "libarx/src/tools.rs:extract_arx_range", "libarx/src/arx_fs.rs:ArxFs", "python/src/arx.rs:Arx"]}
{"id": "C98", "title": "Reading a foreign archive from Python", "statement": "Whatever the table of entries of an archive file says (one no creator wrote), Arx.get_entry from Python gives only an entry that the names of the path lead to, or raises, and always ends. Iterating over the archive or a directory gives the entries of its range in order and then, however often it is called again, the end or the same exception; with ranges inside the table that is an entry of an unknown kind. The attributes of an entry are those of its record; its content is the one stored, or an exception. Going up by parent ends when parents come before their children in the table, and the recursive walk of the README ends when directories lead forward in it (as every creator writes them). Refuted without that: an entry that contains itself makes the walk endless, one that is its own parent makes going up endless; and a program that catches the exception of an entry that cannot be read and goes on iterating never gets past it, although get_entry finds the entries after it.", "quantifier": "every archive table, path, iterator and number of calls", "why_tests_cant": "All tables, also hostile ones, and all call sequences.", "anchors": ["python/src/arx.rs:Arx", "python/src/entry.rs:Entry", "python/src/iterator.rs:EntryIter", "libarx/src/arx.rs:Arx::get_entry", "libarx/src/entry.rs:FullEntry"]}
{"id": "C99", "title": "Two inputs never share a place in the archive", "statement": "When two inputs of arx create (or two lines of the file list) lead - with --recurse, somewhere below them - to a regular file or link and to another thing that would be archived at the same path or below it, however the two are spelled and in whichever order they are given, the command fails and writes no archive: nothing is silently replaced or left out. In particular a file or link given twice, or a directory and a file in it with --recurse. Directories may be given twice.", "quantifier": "every host, options, list of inputs and file list", "why_tests_cant": "All inputs, spellings and orders.", "anchors": ["arx/src/create.rs:create", "libarx/src/create/fs_adder.rs:FsAdder::add_from_path", "libarx/src/create/fs_adder.rs:FsAdder::add_from_list", "libarx/src/create/entry_store_creator.rs:DirEntry::add_entry"]}
{"id": "C100", "title": "When arx create succeeds", "statement": "On a host where the directories met can be listed and have finitely many levels, arx create (with an archive that can be opened for writing) succeeds exactly when: the directory of the output path exists, and the path is free or --force is given; the file list can be read, or every input is relative and leads to something; every path gone through (the lines of the list, or the inputs and, with --recurse, what is below them) is relative, inside the prefix to strip, in UTF-8, and leads to something with a name, readable if it is a regular file, unless it is a socket, pipe or device, or the prefix itself; and no regular file or link given by one input (or line) would be archived at the path of what is given by another, or above it. Nothing else makes it fail, and whether it succeeds does not depend on the order of the inputs.", "quantifier": "every host, options, list of inputs and file list", "why_tests_cant": "All hosts and inputs; both directions.", "anchors": ["arx/src/create.rs:create", "arx/src/create.rs:check_output_path_writable", "arx/src/create.rs:check_input_paths_exist", "libarx/src/create/fs_adder.rs:FsAdder::add_from_path", "libarx/src/create/fs_adder.rs:FsAdder::add_from_list", "libarx/src/create/entry_store_creator.rs:DirEntry::add_entry"]}
{"id": "C101", "title": "When tar2arx and zip2arx succeed", "statement": "When the archive can be opened for writing, tar2arx succeeds exactly when an output name is given or can be inferred, the tar can be read, and every member can be read (its path, which is relative, inside and in UTF-8; its owner, group, mode and time; the target of a link; the bytes of a file), has a name, and does not clash: no path is given twice except for directories, and nothing is below a member that is not a directory. zip2arx, given a zip, succeeds exactly when every member has a safe name, a date, and bytes that can be decompressed unless it is a directory or stored, and the members have names and do not clash. So whether a conversion succeeds does not depend on the order of the members.", "quantifier": "every tar or zip, options", "why_tests_cant": "All member lists; both directions.", "anchors": ["tar2arx/src/main.rs:main", "tar2arx/src/main.rs:TarEntry", "tar2arx/src/main.rs:Converter", "zip2arx/src/main.rs:main", "zip2arx/src/main.rs:ZipEntry", "zip2arx/src/main.rs:Converter", "libarx/src/create/entry_store_creator.rs:DirEntry::add_entry"]}
{"id": "C102", "title": "When an extraction succeeds", "statement": "In an existing or missing output directory given by ordinary names, on a file system without hard links and without symbolic links where directories or files go, an extraction whose writes do not fail succeeds exactly when every selected entry can be placed (a directory: the name is free or a directory; a file: its content is there or its pack is missing, and the name is free or, according to the policy, kept or a regular file; a link: a non-empty target, and a name that is free or, according to the policy, kept or not a directory; with newer, an archived time below 2^63 for an existing name; with error, no existing name), as things were before it started, and every link below selected directories, selected or not, has a target in UTF-8. That is necessary whatever the writers do. The command arx extract also needs --root-dir, if given, to be a stored directory.", "quantifier": "every archive made by a creator, host, selection, policy and schedule of the writers", "why_tests_cant": "All archives, file systems and schedules; both directions.", "anchors": ["libarx/src/tools.rs:extract_arx", "libarx/src/tools.rs:Extractor", "arx/src/extract.rs:extract"]}
{"id": "C103", "title": "When adding from Python raises", "statement": "On a host that does not change, whose directories below the added paths can be listed, with ordinary names, none twice, not too deep: no Creator.add of a with-block raises exactly when every path gone through (the added path if it leads to something and, with recursive, the names below it) can be archived (relative, in UTF-8, with a name, a readable file or what is skipped), and no file or link given by one call is where, or above what, another gives. After calls that did not raise, the next one raises exactly when that fails for it. A path that leads nowhere adds nothing and raises nothing.", "quantifier": "every host, every sequence of Creator.add calls in a with-block and every choice of recursive", "why_tests_cant": "All hosts and sequences of calls; both directions.", "anchors": ["python/src/creator.rs:Creator::add", "libarx/src/create/fs_adder.rs:FsAdder::add_from_path", "libarx/src/create/entry_store_creator.rs:DirEntry::add_entry"]}
{"id": "C104", "title": "Whatever tool runs, only outputs change", "statement": "After any history of runs of arx create (any options, --force and several files included), list, dump, extract (skip, warn or error), tar2arx, zip2arx, Python creators and extractions from Python, each finished or killed at any system call: every path that existed has its bytes and its time, or is at or beside the output of one of the runs and holds a complete archive file of it; every directory is there. When every run ended and none was an extraction that is all: no other path, free ones included, changed - no temporary file is left.", "quantifier": "every host, history of runs, archive, tar, zip, Python program and crash point", "why_tests_cant": "All histories over all the tools, and all crash points.", "anchors": ["arx/src/create.rs:create", "arx/src/extract.rs:extract", "tar2arx/src/main.rs:main", "zip2arx/src/main.rs:main", "python/src/creator.rs:Creator", "libarx/src/create/creator.rs:SimpleCreator"]}
{"id": "C105", "title": "Only what is selected matters to an extraction", "statement": "Two choices of arguments (FILES or -L, --recurse) that select the same of what is stored give the same extraction - the same result and the same host afterwards - on every host, with every policy, output, --root-dir and schedule of the writers: order, repetitions and spellings do not matter. In particular the output of arx list, or some of its lines, can be given with -L: all of it extracts everything, with or without --recurse. Refuted when a name contains a newline or ends in a carriage return: the entry is listed, is not extracted with that list, and the command succeeds.", "quantifier": "every archive made by a creator, selection, host, policy and schedule", "why_tests_cant": "All pairs of selections and all schedules.", "anchors": ["libarx/src/tools.rs:Extractor::should_extract", "arx/src/extract.rs:get_files_to_extract", "arx/src/list.rs:list"]}
{"id": "C106", "title": "The order of the members of a tar or zip does not matter", "statement": "Two conversions that succeed, with any options and output, of tars (or of zips) with the same members in any order - the same paths, whose members say the same - with no directory after something in it, write the same archive but for where the contents are stored, so every reader behaves the same on both. In particular any order of members that are each for another path will do, with extension headers anywhere. A tar and a zip with the same members, all owned by user 0 and no links (a zip keeps neither owners nor links), give the same archive too. Refuted without the condition: a directory that comes after something in it loses its owner, permissions and time.", "quantifier": "every two runs of tar2arx, or of zip2arx, over inputs with the same members", "why_tests_cant": "All inputs, all their permutations and all options.", "anchors": ["tar2arx/src/main.rs:main", "zip2arx/src/main.rs:Converter", "libarx/src/create/entry_store_creator.rs:EntryStoreCreator::add_entry"]}
