{"id": "C01", "title": "Compacted value stream round-trips", "statement": "Decoding the bytes produced by encoding any sequence of compaction values yields the same sequence (a shared binary comes back as a plain binary with the same bytes), reports exactly the number of bytes that were produced, and consumes none of the bytes that follow.", "quantifier": "every sequence of values (any length, every kind, every string/binary length below 2^64, every integer) and every continuation of the byte stream", "why_tests_cant": "bit-packed tags interact across value boundaries and with lengths; the space of sequences is unbounded", "anchors": ["dochy_compaction/src/enc_dec/encode.rs: encode", "dochy_compaction/src/enc_dec/decode.rs: decode", "dochy_compaction/src/enc_dec/tag_reader.rs", "dochy_compaction/src/enc_dec/tag_storage.rs", "dochy_compaction/src/enc_dec/kihon_from_tag.rs", "dochy_compaction/src/enc_dec/var_int.rs"]}
{"id": "C02", "title": "Compacted streams are self-delimiting and unambiguous", "statement": "Two different value sequences never encode to the same bytes, no encoding is a proper prefix of another encoding, and any number of encodings written back to back are decoded back one after another.", "quantifier": "every pair/list of value sequences", "why_tests_cant": "an ambiguity needs a specific pair of inputs among infinitely many", "anchors": ["dochy_compaction/src/enc_dec/encode.rs: encode", "dochy_compaction/src/enc_dec/decode.rs: decode"]}
{"id": "C03", "title": "Compaction of scalars is lossless", "statement": "Compacting an integer, a 64-bit float, a 32-bit float, or a string and reading it back through the corresponding accessor gives exactly the original value; floats are preserved bit for bit, including -0.0, infinities and NaN payloads.", "quantifier": "every i64, every f64 and f32 bit pattern, every string", "why_tests_cant": "2^64 floats cannot be enumerated and the interesting ones are at representability boundaries", "anchors": ["dochy_compaction/src/basic_compaction.rs: comp_int, comp_double, comp_float, comp_str", "dochy_compaction/src/kval_enum.rs: as_i64, as_f64, as_f32, as_string"]}
{"id": "C04", "title": "Variable-length integers round-trip with the stored length", "statement": "The variable-length integer codec stores every i64 in at most 8 and every i128 in at most 16 bytes, never stores a byte that could be omitted, and decodes back exactly the stored integer; lengths written in front of a block are read back exactly.", "quantifier": "every i64, every i128, every u64 length", "why_tests_cant": "boundary cases at every byte length and sign", "anchors": ["dochy_compaction/src/enc_dec/var_int.rs: encode, decode, encode128, decode128, write, read"]}
{"id": "C05", "title": "String compaction round-trips", "statement": "Compressing a list of strings and decompressing the result gives back the same list of strings.", "quantifier": "every list of strings", "why_tests_cant": "number-like strings are recognised by a pattern; only an exhaustive argument can show that no string is altered", "anchors": ["dochy_compaction/src/string_compaction.rs: to_kvals, to_enum, to_string, get_number", "dochy_compaction/src/enc_dec/decimal_lib.rs: to_string"]}
{"id": "C06", "title": "URL-safe text round-trips", "statement": "Converting any byte string to URL-safe text and back gives the original bytes.", "quantifier": "every byte string", "why_tests_cant": "lengths modulo 3 and all byte values", "anchors": ["dochy_compaction/src/url_string/b8s_and_b6s.rs: to_b6s, to_b8s", "dochy_compaction/src/url_string/char_and_b6.rs", "dochy_compaction/src/url_string/mod.rs"]}
{"id": "C07", "title": "Malformed compacted input is rejected, not fatal", "statement": "Decoding an arbitrary byte string either returns values or reports an error; it never aborts the program.", "quantifier": "every byte string", "why_tests_cant": "the space of malformed inputs is unbounded", "anchors": ["dochy_compaction/src/enc_dec/decode.rs: decode", "dochy_compaction/src/enc_dec/var_int.rs: read, from_bytes, decode"]}
{"id": "C08", "title": "Mutable list behaves as an ordered list with unique ids", "statement": "After any sequence of insertions, removals, moves and edits, iterating the mutable list forwards, backwards, or from any id visits exactly the items an ordered list of (id, value) pairs would contain, in that order; first, last, length and lookup by id agree with it.", "quantifier": "every finite sequence of list operations, every id argument (present, absent, first, last, adjacent, equal)", "why_tests_cant": "pointer rewiring errors show only for particular combinations of position and history", "anchors": ["dochy_core/src/imp/structs/linked_m.rs: LinkedMap", "dochy_core/src/imp/structs/linked_map_unsafe_iter.rs", "dochy_core/src/imp/intf/mlist_ptr.rs: MListPtr"]}
{"id": "C09", "title": "Item ids are never reused", "statement": "An item inserted into a mutable list receives an id that no item ever inserted into that list has had, whatever insertions, removals, moves and copies of the list happened before.", "quantifier": "every history of list operations", "why_tests_cant": "reuse needs a specific history", "anchors": ["dochy_core/src/imp/structs/linked_m.rs: insert_last, insert_first, next_id, clone"]}
{"id": "C10", "title": "Moving an item moves only that item", "statement": "Every move operation keeps the set of items and their values, keeps the relative order of all other items, places the moved item exactly where requested, and reports failure without any change when an id is missing or the request is degenerate.", "quantifier": "every list, every pair of ids", "why_tests_cant": "adjacency and end-of-list special cases multiply", "anchors": ["dochy_core/src/imp/structs/linked_m.rs: move_to_first, move_to_last, move_to_prev, move_to_next"]}
{"id": "C11", "title": "Removal removes exactly one item", "statement": "Removing by id, first or last deletes exactly that item, leaves every other item, its value and its position unchanged, and returns false with no change if there is nothing to remove.", "quantifier": "every list, every id", "why_tests_cant": "see C08", "anchors": ["dochy_core/src/imp/structs/linked_m.rs: remove, remove_first, remove_last"]}
{"id": "C12", "title": "List cursors navigate consistently", "statement": "A cursor placed on an item moves to the following item on next and to the preceding item on prev, next and prev undo each other inside the list, and is_first / is_last tell the truth about the cursor's item.", "quantifier": "every list and every cursor position", "why_tests_cant": "positions are unbounded; end cases differ from interior cases", "anchors": ["dochy_core/src/imp/structs/linked_map_unsafe_iter.rs", "dochy_core/src/imp/structs/linked_map_iter.rs: is_last", "dochy_core/src/imp/structs/linked_map_iter_mut.rs: is_last", "dochy_core/src/imp/intf/mlist_iter_mut.rs: prev"]}
{"id": "C13", "title": "List copies and equality are faithful", "statement": "A copied list is equal to its original and independent of it, and two lists compare equal exactly when they hold the same ids and values in the same order.", "quantifier": "every pair of lists", "why_tests_cant": "unbounded", "anchors": ["dochy_core/src/imp/structs/linked_m.rs: Clone, PartialEq"]}
{"id": "C14", "title": "Applying a diff reproduces the target document", "statement": "For any document and any later version of it obtained by setting parameters and references and by inserting, removing and editing items of lists nested to any depth (no reordering), applying the diff between them to the earlier version yields a document with the same parameters, references and lists (items, order, ids, next id) as the later version.", "quantifier": "every document, every definition, every later version reachable without moves, any nesting depth", "why_tests_cant": "documents are unbounded trees; the diff is positional and order dependent", "anchors": ["dochy_diff/src/imp/get_diff.rs: get_diff", "dochy_diff/src/imp/apply_diff.rs: apply_diff", "dochy_diff/src/imp/prepare/get_root_diff.rs", "dochy_diff/src/imp/prepare/get_mlist_diff.rs", "dochy_diff/src/imp/prepare/compare_items.rs", "dochy_diff/src/imp/apply/apply_root_diff.rs", "dochy_diff/src/imp/apply/apply_list_diff.rs"]}
{"id": "C15", "title": "Diffs preserve reordering", "statement": "Moving items inside a mutable list is part of the document state and is reproduced by applying the diff.", "quantifier": "every list and every permutation of its items", "why_tests_cant": "needs a particular edit history", "anchors": ["dochy_diff/src/imp/prepare/get_mlist_diff.rs: get_mlist_diff", "dochy_core/src/imp/intf/mlist_mut.rs: move_to_first"]}
{"id": "C16", "title": "Diff files round-trip through their byte format", "statement": "Writing any diff to bytes and reading it back under the same document definition yields the same diff.", "quantifier": "every definition and every diff over it (any member numbers, any nesting)", "why_tests_cant": "the member-number sets switch between three encodings depending on size and density", "anchors": ["dochy_diff/src/imp/write/write_root.rs", "dochy_diff/src/imp/write/write_list.rs", "dochy_diff/src/imp/write/store_ids.rs", "dochy_diff/src/imp/write/write_store_ids.rs", "dochy_diff/src/imp/write/write_param.rs", "dochy_diff/src/imp/read/read_root.rs", "dochy_diff/src/imp/read/read_list.rs", "dochy_diff/src/imp/read/read_store_ids.rs", "dochy_diff/src/imp/read/read_param.rs"]}
{"id": "C17", "title": "A diff changes nothing it does not mention", "statement": "Applying a diff leaves every root member, list item, member and reference the diff does not mention exactly as it was.", "quantifier": "every document and every diff", "why_tests_cant": "unbounded documents", "anchors": ["dochy_diff/src/imp/apply/apply_root_diff.rs", "dochy_diff/src/imp/apply/apply_params.rs", "dochy_diff/src/imp/apply/apply_lists.rs", "dochy_diff/src/imp/apply/apply_list_diff.rs", "dochy_diff/src/imp/apply/modify_item_from_diff.rs"]}
{"id": "C18", "title": "An unchanged document has an empty diff", "statement": "The diff between a document and an unmodified copy of it mentions no member, and applying it changes nothing.", "quantifier": "every document", "why_tests_cant": "unbounded documents", "anchors": ["dochy_diff/src/imp/get_diff.rs", "dochy_diff/src/imp/prepare/get_root_diff.rs", "dochy_core/src/imp/structs/util/identity_equal_trait.rs"]}
{"id": "C19", "title": "Parameter values survive the diff byte format", "statement": "Every parameter value (boolean, integer, float, string, integer array, float array, binary; value, null or undefined) written to a diff is read back as the same value of the same type.", "quantifier": "every parameter type and value, arrays and strings of any length", "why_tests_cant": "floats and arrays have unbounded value spaces", "anchors": ["dochy_diff/src/imp/write/write_param.rs: write_param", "dochy_diff/src/imp/read/read_param.rs: read_param"]}
{"id": "C20", "title": "Member numbers written to a diff are read back exactly", "statement": "The compact representation of the set of member numbers contained in a diff is lossless: exactly the recorded members are read back.", "quantifier": "every set of member numbers, of any size and magnitude", "why_tests_cant": "three encodings selected by density", "anchors": ["dochy_diff/src/imp/write/store_ids.rs: from_calc_type", "dochy_diff/src/imp/write/write_store_ids.rs", "dochy_diff/src/imp/read/read_store_ids.rs"]}
{"id": "C21", "title": "History file names round-trip", "statement": "The name chosen for a history file encodes its tag, control number, parent control number and position in the history tree; parsing the name gives them back, so a history file written is found again.", "quantifier": "every tag, control number and position", "why_tests_cant": "unbounded numbers and tags", "anchors": ["dochy_fs/src/imp/history/file_name/calc_filename.rs", "dochy_fs/src/imp/history/file_name/analyze_file_name.rs", "dochy_fs/src/imp/history/file_name/file_name_props.rs"]}
{"id": "C22", "title": "Distinct history positions have distinct file names", "statement": "Two different positions in a history (control number, parent control number, order path, tag) never share a file name.", "quantifier": "every pair of positions", "why_tests_cant": "unbounded pairs", "anchors": ["dochy_fs/src/imp/history/file_name/calc_filename.rs", "dochy_fs/src/imp/history/file_name/file_name_props.rs: calc_filename"]}
{"id": "C23", "title": "Hash folder names round-trip", "statement": "The folder name derived from a source hash is 32 hexadecimal characters, different for different hashes, and converts back to the same hash; other names are rejected.", "quantifier": "every 128-bit hash, every string", "why_tests_cant": "2^128 hashes", "anchors": ["dochy_fs/src/imp/common/path/hash.rs: hash_to_folder_name, folder_name_to_hash"]}
{"id": "C24", "title": "Folder creation times round-trip", "statement": "A creation time stored in a hash folder is read back as the same time.", "quantifier": "every 64-bit second count and 32-bit nanosecond count", "why_tests_cant": "unbounded", "anchors": ["dochy_fs/src/imp/common/path/created_time_file.rs"]}
{"id": "C25", "title": "The next save position is always admissible", "statement": "For any recorded history of sizes and any options accepted by the option builder, choosing the position of the next save never fails, never goes deeper than the configured number of phases, extends the path while it is not full, and never rewrites the first phase when that is disabled.", "quantifier": "every option set, every size history, every floating point comparison outcome", "why_tests_cant": "histories of sizes are unbounded", "anchors": ["dochy_fs/src/imp/history/algo/calc_next_phase.rs", "dochy_fs/src/imp/history/algo/phase_data.rs", "dochy_fs/src/imp/history/algo/history_options.rs: from"]}
{"id": "C26", "title": "Recorded descendant sizes are exact", "statement": "After any sequence of saves the size bookkeeping stored with a history file equals, for every ancestor position, the number and the total size of the files saved below it since that ancestor, and is read back unchanged from the file.", "quantifier": "every sequence of saves and phase decisions", "why_tests_cant": "unbounded histories", "anchors": ["dochy_fs/src/imp/history/algo/phase_data.rs: push, pop_and_push, encode, decode"]}
{"id": "C27", "title": "A save never overwrites a history file and becomes the newest", "statement": "Every save creates a file whose name did not exist in the history, and that file is then reported as the newest.", "quantifier": "every history of saves, derivations from any older file, and phase decisions", "why_tests_cant": "unbounded histories", "anchors": ["dochy_fs/src/imp/history/fs/derive_impl.rs", "dochy_fs/src/imp/history/fs/start_new.rs", "dochy_fs/src/imp/history/file_hist/ancestors.rs: create_dependencies", "dochy_fs/src/imp/history/file_hist/file_history.rs: get_newest_prop, add"]}
{"id": "C28", "title": "Every history file can be loaded and gives the saved document", "statement": "In any history produced by successive saves, each saved file, when loaded, reproduces exactly the document that was saved into it.", "quantifier": "every sequence of saves, every phase decision, cumulative or not, every diff implementation satisfying C14", "why_tests_cant": "the dependency of a file on ancestors depends on the whole history", "anchors": ["dochy_fs/src/imp/history/fs/derive_impl.rs", "dochy_fs/src/imp/history/fs/load.rs", "dochy_fs/src/imp/history/file_hist/ancestors.rs: create_ancestors, create_dependencies", "dochy_fs/src/imp/history/pub_fn/save_history_file.rs"]}
{"id": "C29", "title": "Files derived from an older version can be loaded", "statement": "Loading an old history file, editing it and saving again (a branch) creates a file that can be loaded and continued, without disturbing other files.", "quantifier": "every history tree, every older file chosen as a base", "why_tests_cant": "needs a specific branching history", "anchors": ["dochy_fs/src/imp/history/file_hist/ancestors.rs: create_dependencies", "dochy_fs/src/imp/history/pub_fn/save_history_file.rs: save_history_file", "dochy_fs/src/imp/history/file_hist/file_history.rs: get_parent"]}
{"id": "C30", "title": "Removing old files keeps what the kept files need", "statement": "After removing old history files while keeping the newest n, every kept file can still be loaded and gives the same document.", "quantifier": "every history, every n", "why_tests_cant": "dependencies of kept files cross control numbers and phases", "anchors": ["dochy_fs/src/imp/history/remove/history_remover.rs", "dochy_fs/src/imp/history/remove/history_remover_item.rs: keep, from", "dochy_fs/src/imp/history/remove/composite_remover.rs", "dochy_fs/src/imp/history/file_hist/file_history.rs: remove_old_files"]}
{"id": "C31", "title": "Removing old files never removes the newest n", "statement": "Removing old files across source versions never deletes any of the n newest files and keeps at least n files whenever that many exist.", "quantifier": "every list of source folders, every n", "why_tests_cant": "unbounded", "anchors": ["dochy_fs/src/imp/history/file_hist/file_histories.rs: remove_old_files_us"]}
{"id": "C32", "title": "The newest file is the last listed", "statement": "Listing a history enumerates every file exactly once in chronological (control, position) order, and the newest file reported is the last of that list.", "quantifier": "every set of history files", "why_tests_cant": "unbounded trees", "anchors": ["dochy_fs/src/imp/history/file_hist/file_history.rs: list_files, get_newest_prop", "dochy_fs/src/imp/history/file_hist/file_history_item.rs"]}
{"id": "C33", "title": "The cache never changes a result", "statement": "Loading or saving with any cache state reached by earlier operations gives the same document as without a cache.", "quantifier": "every history and every sequence of cached operations", "why_tests_cant": "stale cache entries need specific sequences", "anchors": ["dochy_fs/src/imp/history/diff_and_cache/dochy_cache.rs"]}
{"id": "C34", "title": "Multi-threaded loading equals sequential loading", "statement": "Reading and decoding diff files on several threads and applying them gives the result of applying them one after another in order, whatever order the threads finish in; if any read fails an error is reported.", "quantifier": "every list of files and every completion order", "why_tests_cant": "thread schedules cannot be enumerated by tests", "anchors": ["dochy_fs/src/imp/common/apply_items.rs: apply_items_mt, apply_items_st"]}
{"id": "C35", "title": "Background saves keep their order and the vacancy check is exact", "statement": "Saves queued in the background are performed one at a time in the order requested, and a conditional background save is skipped exactly when an earlier save has not finished.", "quantifier": "every schedule of callers and the worker", "why_tests_cant": "schedules cannot be enumerated by tests", "anchors": ["dochy_fs/src/imp/history/pub_fn/save_history_file.rs: save_history_file_nb, save_history_file_nb_if_vacant", "dochy_fs/src/imp/history/current_root_obj_info/"]}
{"id": "C36", "title": "Loading a listed history entry loads that entry", "statement": "Loading the data of a listed history entry loads the file of the source version it was listed under.", "quantifier": "every set of source versions and entries", "why_tests_cant": "needs several source versions", "anchors": ["dochy_fs/src/imp/history/pub_fn/load_history_file.rs: load_history_file_data"]}
{"id": "C37", "title": "Dochy files: saved document is loaded back, no unintended overwrite", "statement": "A document saved to a named file is loaded back equal; saving to an existing name without the overwrite flag fails and leaves the file as it was; the files the system reserves are never removed through the API.", "quantifier": "every document, name, and directory state", "why_tests_cant": "unbounded directory states", "anchors": ["dochy_fs/src/imp/filesys/save_dochy_file.rs", "dochy_fs/src/imp/filesys/load_dochy_file.rs", "dochy_fs/src/imp/filesys/remove_dochy_file.rs", "dochy_fs/src/imp/common/path/reserved_filename.rs"]}
{"id": "C38", "title": "A crash during a save does not damage existing files", "statement": "If the process stops at any point while a history file is being written, every file that existed before is unchanged and still loads.", "quantifier": "every crash point of the write", "why_tests_cant": "crash points are not reachable from unit tests", "anchors": ["dochy_fs/src/imp/history/fs/write_phase_file.rs", "dochy_fs/src/imp/common/path/prepare_hash_dir.rs"]}
{"id": "C39", "title": "Archives round-trip", "statement": "Reading an archive written from any set of source files gives the same paths, the same contents, the same converted values and the same hash, whatever order the compression and conversion threads finish in.", "quantifier": "every set of files and every schedule", "why_tests_cant": "thread schedules and file sets are unbounded", "anchors": ["dochy_archiver2/src/imp/write_archive.rs", "dochy_archiver2/src/imp/write_items.rs", "dochy_archiver2/src/imp/read_archive.rs", "dochy_archiver2/src/imp/structs/archiver.rs"]}
{"id": "C40", "title": "Different sources have different hash inputs", "statement": "Two different sets of source files feed different data to the hash, so a changed source is recognised as a different version (up to collisions of the hash function itself).", "quantifier": "every pair of source sets", "why_tests_cant": "needs a specific pair", "anchors": ["dochy_archiver2/src/imp/structs/hash_thread.rs: HashThread", "dochy_archiver2/src/imp/structs/archiver.rs: archive"]}
{"id": "C41", "title": "Parameter get/set obeys the declared type", "statement": "Setting a parameter succeeds exactly when the member exists and the value's type and null/undefined state are allowed by its declaration; afterwards reading gives the value set and every other member is unaffected; a member never set reads as its declared default.", "quantifier": "every definition, document, member and value", "why_tests_cant": "unbounded documents", "anchors": ["dochy_core/src/imp/structs/root_obj.rs: set_sabun_param", "dochy_core/src/imp/structs/util/set_sabun.rs", "dochy_core/src/imp/intf/root.rs", "dochy_core/src/imp/intf/mitem.rs", "dochy_core/src/imp/structs/rust_param.rs: acceptable"]}
{"id": "C42", "title": "Validated documents have resolvable references", "statement": "If validation of a document succeeds then every reference held by any item at any depth is null, undefined, or names an existing row of the referenced table, every value has the declared type, and nothing marked old is used.", "quantifier": "every document", "why_tests_cant": "unbounded depth", "anchors": ["dochy_core/src/imp/json_to_rust/validation/validate_root.rs", "dochy_core/src/imp/json_to_rust/validation/validate_list_item.rs", "dochy_core/src/imp/json_to_rust/validation/validate_refs.rs"]}
{"id": "C43", "title": "Version adjustment keeps compatible data", "statement": "Moving a document to a new version of its definition keeps the value of every member that still exists with a compatible type, drops members that no longer exist, reports incompatible ones, and keeps list items, ids and order; the result conforms to the new definition.", "quantifier": "every old document and every new definition, any nesting depth", "why_tests_cant": "definitions and documents are unbounded", "anchors": ["dochy_core/src/imp/version_adjuster/version_adjuster.rs", "dochy_core/src/imp/version_adjuster/adjust_mut_list_item_sabun.rs", "dochy_core/src/imp/version_adjuster/adjust_mut_list_item_ref.rs"]}
{"id": "C44", "title": "Member names and numbers correspond one to one", "statement": "The table that translates member names to numbers in diffs is a bijection on the members of each definition, at every nesting level.", "quantifier": "every definition", "why_tests_cant": "unbounded definitions", "anchors": ["dochy_core/src/imp/structs/meta_table.rs: from_root, from_list_def, from_ref_def"]}
{"id": "C45", "title": "Member name syntax is unambiguous", "statement": "A member name with its nullable/undefiable suffix is parsed into the same name and the same nullability, and only well-formed names are accepted.", "quantifier": "every string", "why_tests_cant": "unbounded strings", "anchors": ["dochy_core/src/imp/json_to_rust/json_name.rs", "dochy_core/src/imp/rust_to_json/name_with_suffix.rs", "dochy_core/src/imp/structs/var_type.rs: to_suffix"]}
{"id": "C46", "title": "The newest file across source versions is the last listed", "statement": "The newest history file reported over all source versions is the last of the chronological listing over all source versions.", "quantifier": "every set of source folders and history files", "why_tests_cant": "unbounded sets of folders", "anchors": ["dochy_fs/src/imp/history/file_hist/file_histories.rs: get_newest_file_data, list_files"]}
{"id": "C47", "title": "Interrupted preparation of a source folder does no lasting harm", "statement": "If a process stops while it prepares the folder of its source version, documents saved there later can still be loaded after the source has changed.", "quantifier": "every moment of the interruption, every document and name", "why_tests_cant": "every possible moment of a crash", "anchors": ["dochy_fs/src/imp/common/path/prepare_hash_dir.rs: prepare_hash_dir, get_or_make_hash_dir_path", "dochy_fs/src/imp/filesys/load_dochy_file.rs"]}
{"id": "C48", "title": "The version of sources does not depend on where they lie", "statement": "The same source files get the same version hash in whatever order the file system lists them and however the path of their folder is written.", "quantifier": "every folder, every way of writing its path, every listing order", "why_tests_cant": "listing orders and paths are unbounded; tests use one path", "anchors": ["dochy_archiver2/src/imp/read_archive_data_from_directory.rs: get_paths_from_dir", "dochy_archiver2/src/imp/structs/hash_thread.rs"]}
{"id": "C51", "title": "Member numbers are determined by the source", "statement": "The number of every member of the root and of every list is determined by the text of the source files, whatever order hash maps are iterated in, so that diffs written by one build can be read by another.", "quantifier": "every set of source files and every two iteration orders", "why_tests_cant": "a test sees one iteration order", "anchors": ["dochy_core/src/imp/json_to_rust/tmp/tmp_obj.rs: to_list_def_val_map", "dochy_core/src/imp/json_to_rust/json_obj_to_rust.rs", "dochy_core/src/imp/json_to_rust/construct_root.rs"]}
{"id": "C52", "title": "Loaded documents meet what editing and comparing assume", "statement": "A document loaded from validated source files has properly numbered definitions, all its values, lists and references have the types of their definitions, and the next id of every list is above the ids in it, so that items can be inserted and diffs against it computed and applied.", "quantifier": "every set of source files, every iteration order of hash maps, every sequence of edits", "why_tests_cant": "the fixtures never write ids or next ids by hand; sources are unbounded", "anchors": ["dochy_core/src/imp/json_to_rust/list", "dochy_core/src/imp/json_to_rust/json_item_to_rust.rs", "dochy_core/src/imp/structs/linked_m.rs: construct, insert_last", "dochy_diff/src/imp/get_diff.rs"]}
{"id": "C53", "title": "Limits of the last phase are kept", "statement": "The number of diff files in the cumulative phase is fewer than limit_count, and their total size is less than the limit_nth largest file they build on.", "quantifier": "every option set the builder accepts, every history of saves of any sizes", "why_tests_cant": "the two tests of the limits are disabled and were meant to be inspected by eye; histories are unbounded", "anchors": ["dochy_fs/src/imp/history/algo/calc_next_phase.rs", "dochy_fs/src/imp/history/algo/history_options.rs: CumulativeOptions", "dochy_fs/src/imp/history/algo/phase_data.rs: get_nth_largest_files_size"]}
{"id": "C50", "title": "Source texts are read as JSON5", "statement": "Every JSON5 text is read as its value: blanks, comments, numbers, strings, keys, arrays and objects mean what the grammar says, every other text is rejected without a panic, no text has two values, and the value is one the loader can rely on (distinct keys, UTF-8 strings, finite numbers).", "quantifier": "every text of any length and nesting", "why_tests_cant": "texts are unbounded; the tests of the parser cover one text per kind of value", "anchors": ["dochy_json5/src/json5.pest", "dochy_json5/src/de.rs", "dochy_json5/src/deserialize_item.rs", "dochy_json5/src/jval.rs: line_num"]}
{"id": "C49", "title": "A printed document can be read back", "statement": "The JSON made of a document can be converted back to a document (as root_to_json_new_default documents): its text is read, and the document read has the members of the printed one with their current values as defaults, the same lists with the same items, the same old names.", "quantifier": "every document that is loaded and edited: any number of members, lists, items, any values and strings, any nesting", "why_tests_cant": "documents and strings are unbounded; the test of the repository prints one document and drops the error of reading it", "anchors": ["dochy_core/src/imp/rust_to_json/root_to_json.rs: root_to_json_new_default", "dochy_core/src/imp/rust_to_json/rust_value_to_json_value.rs", "dochy_core/src/imp/rust_to_json/get_param.rs", "dochy_core/src/imp/rust_to_json/rust_array_to_json.rs", "dochy_core/src/imp/rust_to_json/list/*", "dochy_core/src/imp/structs/my_json.rs: to_string_pretty", "dochy_core/src/imp/structs/root_value.rs: into_rust_value"]}
{"id": "C54", "title": "Generated accessors compile and reach the members", "statement": "For every document that is loaded and validated the generated source text declares every type and every method once, under identifiers, and names only what it declares; every member, row and reference has its methods, which call dochy_core with the name, type and marks of the member's declaration, so that what a generated setter sets the generated getter gives; the ids of a table, their texts and their numbers correspond one to one.", "quantifier": "every document: any names, any number of members, tables, rows, lists, references, any nesting, any old names", "why_tests_cant": "names and nesting are unbounded and collisions depend on pairs of names; the tests of the repository generate from a few folders", "anchors": ["dochy_intf/src/imp/generate_interface.rs: generate_interface", "dochy_intf/src/imp/util/to_type_name.rs", "dochy_intf/src/imp/util/with_old.rs", "dochy_intf/src/imp/structs/root_source.rs", "dochy_intf/src/imp/structs/table_source.rs", "dochy_intf/src/imp/structs/mitem_source.rs", "dochy_intf/src/imp/structs/citem_source.rs", "dochy_intf/src/imp/structs/param_source.rs", "dochy_intf/src/imp/structs/refs_source.rs", "dochy_intf/src/imp/structs/ref_source.rs"]}
{"id": "C55", "title": "What a process knows of a source is what the source is", "statement": "Whatever sources are edited, processes started, folders and histories opened or forced, and files saved, the info a process has for a folder or a history is that of the source it was asked for as it is now; the archive in the folder of a source version is that of this version, so that a saved file can be loaded by every later process and version; a folder has one source and one set of options at a time.", "quantifier": "every sequence of edits, restarts, openings, forced updates, preparations and saves; every source, folder, document, diff implementation", "why_tests_cant": "three process-wide maps interact over unbounded sequences of events, and tests run with one source each in one process", "anchors": ["dochy_fs/src/imp/common/current_src/current_src_map.rs: get_current_src_info", "dochy_fs/src/imp/filesys/save_cache_map.rs: cache_and_get_info, force_update_and_get_info_us", "dochy_fs/src/imp/history/current_root_obj_info/history_cache_map.rs: init_dochy_cache", "dochy_fs/src/imp/common/path/prepare_hash_dir.rs", "dochy_fs/src/imp/filesys/save_dochy_file.rs: save_dochy_file"]}
{"id": "C56", "title": "The list of saved files is what is in the folders", "statement": "For every project folder, in whatever order the system lists it, list_dochy_files gives exactly the files in folders of source versions that are not reserved, each once, ordered by the time of their last change, with a path that leads to the file; so after a save the file is listed with those from before, and after a removal all others are; what cannot be read is reported.", "quantifier": "every content of the project folder: any number of folders, files, foreign names, errors of the system at any place; any listing order and any times", "why_tests_cant": "the listing order of the system, errors at single entries and foreign names are not under the control of tests; the tests list folders they made themselves", "anchors": ["dochy_fs/src/imp/common/list/list_files.rs: list_files, iterate_files", "dochy_fs/src/imp/common/list/list_files_iterator.rs: InnerIterator::next, find_next_file", "dochy_fs/src/imp/common/list/find_next_dir.rs: find_next_dir", "dochy_fs/src/imp/common/list/file_data.rs: from, calc_path", "dochy_fs/src/imp/filesys/list_dochy_files.rs"]}
{"id": "C57", "title": "Saving named files from several threads", "statement": "For every interleaving of saves into a folder, blocking or in threads of their own, the results and the files are those of the same saves one after the other; every save ends and gives its result to its caller; a save that must not overwrite never replaces a file; the document saved last under a name is what is loaded; queued_threads is the number of saves that are not over; files can be loaded meanwhile.", "quantifier": "every number of threads, every interleaving of their steps, every document, name and folder", "why_tests_cant": "interleavings cannot be chosen or enumerated by tests; the test of the repository starts ten threads once and waits for queued_threads to be 0", "anchors": ["dochy_fs/src/imp/filesys/save_dochy_file.rs: save_dochy_file, save_dochy_file_nb", "dochy_fs/src/imp/filesys/dochy_mutex.rs: new, drop", "dochy_fs/src/imp/filesys/save_cache_map.rs: get_mutex, get_map_item", "dochy_fs/src/imp/filesys/save_dir_info.rs: queued_threads", "dochy_fs/src/imp/filesys/load_dochy_file.rs: load_dochy_file"]}
{"id": "C58", "title": "How large a difference is", "statement": "For every definition and any two documents of it, the difference is no longer than the two documents together (bytes of the values, a constant for each value, list and item), so for documents below 2^58 bytes the length conditions of the difference always hold; the size of a document does not depend on the order in its maps or on where its texts are; a document that is loaded and not changed gives a difference of constant size.", "quantifier": "every definition, all pairs of documents of it, lists nested to any depth, texts of any length", "why_tests_cant": "a bound on the length over all pairs of documents, and the lengths near 2^58 at which the encoding fails, cannot be tested; the tests only print the lengths of a few differences", "anchors": ["dochy_diff/src/imp/get_diff.rs: get_diff", "dochy_diff/src/imp/prepare/*.rs", "dochy_diff/src/imp/write/*.rs", "dochy_diff/src/imp/write/store_ids.rs", "dochy_compaction/src/enc_dec/encode.rs, encode_to_vec.rs, var_int.rs"]}
{"id": "C59", "title": "From the source to files that are loaded again", "statement": "For every source, every sequence of edits of its objects by accessor calls, saves of them to a history, loads of any file, restarts of the process and removals of files nothing depends on: every file left can be loaded and gives the document that was saved, with the same items in the same order and the same ids for new items; a save writes a new file and changes no other.", "quantifier": "all sources, all programs of accessor calls, any number of objects, saves, loads and restarts in any order, every listing order of the folder, every placement in memory", "why_tests_cant": "the claim combines loading the source, accessors, differences, phases, the cache and file names; the tests make a few fixed edits of fixed documents in one process", "anchors": ["dochy_fs/src/imp/history/pub_fn/save_history_file.rs", "dochy_fs/src/imp/history/pub_fn/load_history_file.rs", "dochy_fs/src/imp/history/fs/load.rs", "dochy_diff/src/imp/get_diff.rs", "dochy_diff/src/imp/apply_diff.rs", "dochy_core/src/imp/intf/*.rs", "dochy_core/src/imp/json_to_rust/construct_root.rs"]}
{"id": "C60", "title": "Copies of a document share memory and are independent", "statement": "Whatever a program does with documents of one source, with copies of them and with their lists and items: no memory is used after its release, every reference count is the number of references, nothing stays in memory that belongs to no document, a document changes only by calls made with it, and it is at every step what it would be if copies shared nothing; documents that contents_ptr_eq or contents_eq finds equal are equal.", "quantifier": "all definitions, all programs of copies, drops and accessor calls on any number of documents, every allocator that gives unused addresses", "why_tests_cant": "sharing and copying on write happen on every path through nested lists, items and texts; tests copy one document and look at it once", "anchors": ["dochy_core/src/imp/structs/root_obj.rs", "dochy_core/src/imp/structs/rust_list.rs", "dochy_core/src/imp/structs/rust_string.rs", "dochy_core/src/imp/structs/rust_array.rs", "dochy_core/src/imp/structs/linked_m.rs", "dochy_core/src/imp/structs/util/identity_equal_trait.rs", "dochy_core/src/imp/intf/mitem.rs", "dochy_core/src/imp/intf/root.rs"]}
{"id": "C61", "title": "What is loaded is what the source says", "statement": "A source is loaded exactly if it says something, and then the document has exactly the members that are written in the root file and the other files, each with the type, value, definition, rows, items, ids, references and former names written for it, whatever the order in which hash maps are iterated.", "quantifier": "all source folders of any number of files and every nesting of objects and arrays, every iteration order of hash maps, every placement of texts in memory", "why_tests_cant": "the language has tags, marks, reserved words and attributes that combine at every depth; tests load a few well-formed sources", "anchors": ["dochy_core/src/imp/json_to_rust/json_obj_to_rust.rs", "dochy_core/src/imp/json_to_rust/json_array_to_rust.rs", "dochy_core/src/imp/json_to_rust/json_item_to_rust.rs", "dochy_core/src/imp/json_to_rust/list/*.rs", "dochy_core/src/imp/json_to_rust/tmp/*.rs", "dochy_core/src/imp/json_to_rust/get_id.rs", "dochy_core/src/imp/json_to_rust/get_refs.rs", "dochy_core/src/imp/json_to_rust/get_old.rs", "dochy_core/src/imp/json_to_rust/construct_root.rs", "dochy_core/src/imp/json_to_rust/roots/*.rs"]}
{"id": "C62", "title": "The next save goes where the average sizes say", "statement": "When the path of phases is full, the next save goes to the last position whose group (its last file and all saved since) is not larger on average than the group of the position before, the last position only while below its limits; and to the first position (or the second, if the first is never saved again) if there is none. The averages, computed and compared as f64, never decide otherwise than exact ones.", "quantifier": "all sequences of saves of any number and sizes, all options", "why_tests_cant": "rounding errors show only for particular sizes and numbers of files; tests compare a handful of quotients", "anchors": ["dochy_fs/src/imp/history/algo/should_shift_to_parent_phase.rs", "dochy_fs/src/imp/history/algo/calc_next_phase.rs", "dochy_fs/src/imp/history/algo/phase_data.rs"]}
{"id": "C63", "title": "Named files survive updates of the source", "statement": "An object loaded from source files, edited by any program of the generated interface and saved under a name is loaded again as it was by a process with the same source. A process with another version of the source loads it through the archive beside the file: parameters of the root known in both versions keep their values, lists their items and the order, everything else is what C43 says of moving the saved object, and loading fails exactly if the moved object does not fit the new version.", "quantifier": "all source files, all programs, all names, all contents of the project folder, all newer versions", "why_tests_cant": "the property joins loading, the interface, the wire format, the folder of a project, the archive and the version adjuster; a test runs one source, one program and one newer version, in one build", "anchors": ["dochy_fs/src/imp/filesys/save_dochy_file.rs", "dochy_fs/src/imp/filesys/load_dochy_file.rs", "dochy_core/src/imp/version_adjuster/version_adjuster.rs", "dochy_diff/src/imp/get_diff.rs"]}
{"id": "C64", "title": "Generated functions return what the source says", "statement": "After a clean source is loaded, a program that goes through tables, constant lists, mutable lists, lists inside items, references and enums gets to an item exactly if the source has an item there, and the function for a member returns what is written in the item or else in the definition. References written in items never dangle, an enum has exactly one variant, iteration gives items in the order written, and edits never change what is reached through tables and constant lists.", "quantifier": "all sources, all ways through the document, all members", "why_tests_cant": "tests read a few members of sample sources; nesting of lists, references into tables that refer on, defaults and marks combine without bound", "anchors": ["dochy_core/src/imp/intf/citem.rs", "dochy_core/src/imp/intf/mitem.rs", "dochy_core/src/imp/intf/root.rs", "dochy_core/src/imp/intf/table.rs", "dochy_core/src/imp/intf/clist.rs", "dochy_core/src/imp/intf/mlist_const.rs", "dochy_intf/src/imp/structs/refs_source.rs", "dochy_intf/src/imp/structs/ref_source.rs"]}
{"id": "C65", "title": "What a program reads before saving it reads after loading", "statement": "An object is loaded from a source, edited by a program of generated functions and saved, in a folder of its own or in a history. The object loaded from the file answers every question a generated function can ask - parameters, rows of references, variants of enums, whether there is an item, the items of lists in their order - along every way as the object that was saved, panics included; values may differ in the sign of zeros only. Enums never get more than one variant.", "quantifier": "all sources, all edits, all ways through the document, all orders of hash maps while reading", "why_tests_cant": "tests compare a few members of one document after one save; ways lead through references, tables and lists of any depth, and defaults are not in the file", "anchors": ["dochy_core/src/imp/intf/mitem.rs", "dochy_core/src/imp/intf/citem.rs", "dochy_core/src/imp/intf/mlist_ptr.rs", "dochy_intf/src/imp/structs/ref_source.rs", "dochy_intf/src/imp/structs/refs_source.rs", "dochy_diff/src/imp/apply_diff.rs"]}
{"id": "C66", "title": "The text of accessors is the Rust it is meant to be", "statement": "For every document that is loaded and whose row ids are words of Rust, the generated text is read by a lexer of Rust, token by token, as the items that belong to its declarations: for every parameter, list, table, reference, enum and row the functions with their names, receivers, arguments, types, bodies and match arms, nothing missing and nothing else. Names of members and references need no condition: loading makes them words.", "quantifier": "all documents of any depth, all orders of hash maps, all sources", "why_tests_cant": "the accessors that are checked in come from 17 small sources; the text is put together from pieces of lines in nested loops, and a missing brace, quotation mark or newline shows up only for certain nestings, marks and types", "anchors": ["dochy_intf/src/imp/structs/param_source.rs", "dochy_intf/src/imp/structs/ref_source.rs", "dochy_intf/src/imp/structs/refs_source.rs", "dochy_intf/src/imp/structs/table_source.rs", "dochy_intf/src/imp/structs/mitem_source.rs", "dochy_intf/src/imp/structs/citem_source.rs", "dochy_intf/src/imp/structs/mil_source.rs", "dochy_intf/src/imp/structs/cil_source.rs", "dochy_intf/src/imp/structs/mlist_source.rs", "dochy_intf/src/imp/structs/clist_source.rs", "dochy_intf/src/imp/structs/root_source.rs", "dochy_intf/src/imp/structs/source_builder.rs", "dochy_intf/src/imp/generate_root_source.rs"]}
{"id": "C67", "title": "Generated accessors pass the type checker", "statement": "For every document whose names cause no trouble and whose tables have less than 2^64 rows, the generated text is a program in which every expression has the type it is used with by the signatures of dochy_core (which are copied word for word), places that are moved from or changed can be, unsafe functions are called in unsafe places only, matches cover all values, what is derived the fields have, the type parameters of lists are convertible from item pointers, and no name of dochy_core is hidden.", "quantifier": "all documents of any depth, all types, marks and old members", "why_tests_cant": "the accessors that are checked in use a part of the combinations of place, type and marks; a wrong ending of a function name, a missing unwrap, or a safe function for an unsafe one is a compile error in the program of whoever uses that combination first", "anchors": ["dochy_intf/src/imp/structs/param_source.rs", "dochy_intf/src/imp/structs/ref_source.rs", "dochy_intf/src/imp/structs/refs_source.rs", "dochy_intf/src/imp/structs/table_source.rs", "dochy_intf/src/imp/structs/mitem_source.rs", "dochy_intf/src/imp/structs/citem_source.rs", "dochy_intf/src/imp/structs/mil_source.rs", "dochy_intf/src/imp/structs/cil_source.rs", "dochy_intf/src/imp/structs/mlist_source.rs", "dochy_intf/src/imp/structs/clist_source.rs", "dochy_intf/src/imp/structs/root_source.rs", "dochy_core/src/imp/intf/root.rs", "dochy_core/src/imp/intf/mitem.rs", "dochy_core/src/imp/intf/citem.rs", "dochy_core/src/imp/intf/table.rs", "dochy_core/src/imp/structs/qv.rs", "dochy_core/src/imp/structs/null_or.rs"]}
{"id": "C68", "title": "Generated accessors do what the document says when they run", "statement": "Evaluating the generated text: going along any way with the generated functions gives the item the document has there, wrapped in the generated type of its list, and reading a member gives the value of the member, as its marks say, or panics exactly when it is not there; ids and rows are numbered and found as the table says; setters open the lists on the way and then make exactly one call of dochy_core, at the item that was asked for, under the name and type of the member, with the value that was given, and nothing else is changed.", "quantifier": "all documents with harmless names, all ways, items, members, values and states of the program", "why_tests_cant": "the text of accessors is generated per document; a name, a mark, an arm of a match or an index that is wrong for one combination of depth, type and mark shows up only in a document that has it and a test that reads or writes that member", "anchors": ["dochy_intf/src/imp/structs/param_source.rs", "dochy_intf/src/imp/structs/ref_source.rs", "dochy_intf/src/imp/structs/refs_source.rs", "dochy_intf/src/imp/structs/table_source.rs", "dochy_intf/src/imp/structs/mitem_source.rs", "dochy_intf/src/imp/structs/citem_source.rs", "dochy_intf/src/imp/structs/mil_source.rs", "dochy_intf/src/imp/structs/cil_source.rs", "dochy_intf/src/imp/structs/mlist_source.rs", "dochy_intf/src/imp/structs/clist_source.rs", "dochy_intf/src/imp/structs/root_source.rs", "dochy_core/src/imp/intf/root.rs", "dochy_core/src/imp/intf/mitem.rs", "dochy_core/src/imp/intf/citem.rs", "dochy_core/src/imp/intf/table.rs", "dochy_core/src/imp/structs/qv.rs", "dochy_core/src/imp/structs/null_or.rs", "dochy_core/src/imp/intf/mlist_const.rs", "dochy_core/src/imp/intf/mlist_mut.rs"]}
{"id": "C69", "title": "What accessors write is read afterwards, and nothing else changes", "statement": "Setting a member, a reference or the enum of an item with the generated setter, at any depth of mutable lists, succeeds for every value the declaration allows, makes calls that turn the document into a document of the same kind, and the generated reader of that member then gives exactly the value that was set, along whatever way the item is reached; every other question about the document (other members, other items, ids, lists, and everything reached without following the changed reference) is answered as before. Following a reference or an enum that was set leads to the row that was set, so that every question along such a way is answered as it is about the row; a reference set to null or undefined, and the other variants of an enum, lead to nothing. The same holds for members of the root.", "quantifier": "all documents with harmless names, all items and members, all allowed values, all questions", "why_tests_cant": "a setter that writes to a wrong place, under a wrong name or to one item too many is noticed only by a test that happens to read the other place; the theorem speaks about all the other places at once", "anchors": ["dochy_intf/src/imp/structs/param_source.rs", "dochy_intf/src/imp/structs/ref_source.rs", "dochy_intf/src/imp/structs/refs_source.rs", "dochy_intf/src/imp/structs/mitem_source.rs", "dochy_intf/src/imp/structs/mil_source.rs", "dochy_intf/src/imp/structs/mlist_source.rs", "dochy_intf/src/imp/structs/root_source.rs", "dochy_core/src/imp/intf/root.rs", "dochy_core/src/imp/intf/mitem.rs", "dochy_core/src/imp/intf/mlist_mut.rs"]}
{"id": "C70", "title": "Changing a list changes that list as it should, and nothing else", "statement": "Inserting an item at either end of a list, removing one, the first or the last one, and moving one to either end or beside another one, in a list of the root or of an item at any depth, succeeds, answers whether it did something, and leaves a document of the same kind; asking for the items of the list then gives the ids in the order the call asks for; a new item reads as its definition says, with empty inner lists; a removed one is not there; every other question is answered as before, including all members, references and inner lists of the items that stay, and every other list.", "quantifier": "all documents whose members are as declared, all lists at any depth, all calls, all questions", "why_tests_cant": "tests move a few items of small lists and look at the ids; that nothing is lost or mixed up in other items, inner lists of moved items, and lists elsewhere in the document is a statement about all questions in all documents", "anchors": ["dochy_core/src/imp/intf/mlist_ptr.rs", "dochy_core/src/imp/intf/mlist_mut.rs", "dochy_core/src/imp/intf/root.rs", "dochy_core/src/imp/intf/mitem.rs", "dochy_core/src/imp/intf/mlist_const.rs", "dochy_core/src/imp/structs/rust_list.rs"]}
{"id": "C71", "title": "Lists are changed by the calls accessors hand out", "statement": "Evaluating an expression that reaches a mutable list through the generated accessors (of the root or of an item, at any depth) and calls one of its methods (insert, insert_first, insert_last, remove, remove_first, remove_last, move_to_first, move_to_last, move_to_prev, move_to_next) gives the answer the call should give (the new item, or whether something was done), and the calls it makes turn the document into one of the same kind in which that list has the asked order and nothing else changed (C70). len, is_empty, next_id, first_id, last_id and contains_key tell what is in the list. Inserting an item and setting one of its members in the same expression gives a list with the new item in which that member reads as set and nothing else changed.", "quantifier": "all documents with harmless names whose members are as declared, all lists at any depth, all methods and arguments, all members and allowed values", "why_tests_cant": "the way from the generated text through the guards to the list is different for every document; the theorem covers the text that is generated for every document, and all places that must not change", "anchors": ["dochy_core/src/imp/intf/mlist_mut.rs", "dochy_core/src/imp/intf/mlist_ptr.rs", "dochy_core/src/imp/intf/mlist_const.rs", "dochy_core/src/imp/intf/root.rs", "dochy_core/src/imp/intf/mitem.rs", "dochy_intf/src/imp/structs/mlist_source.rs", "dochy_intf/src/imp/structs/mil_source.rs", "dochy_intf/src/imp/structs/mitem_source.rs", "dochy_intf/src/imp/structs/root_source.rs", "dochy_intf/src/imp/structs/param_source.rs"]}
{"id": "C72", "title": "Cursors stay with their items while the list changes", "statement": "Cursors may be kept while their list is changed. Whatever is inserted, moved, removed or set in between, a cursor stays on its item as long as that item is in the list; current gives the item with its present value, next and prev give it and go to the item that is behind or before it at that moment, is_first, is_last and is_available tell the truth, and a cursor that has left the list stays outside. No undefined behaviour occurs unless a cursor is used whose item was removed. Going through a list and removing some of the visited items visits every item once and leaves exactly the others, in order, in both directions; going back, removing the item the cursor stood on and going on twice gives the item behind it.", "quantifier": "all lists any program can build, any number of cursors, all sequences of changes and cursor calls, all addresses an allocator may give, all choices of items to remove", "why_tests_cant": "cursors are raw addresses; whether one dangles depends on every change made since it was taken and on what the allocator reuses", "anchors": ["dochy_core/src/imp/structs/linked_map_unsafe_iter.rs", "dochy_core/src/imp/structs/linked_m.rs", "dochy_core/src/imp/intf/mlist_ptr.rs: MListPtrIter"]}
{"id": "C73", "title": "What is written through the references of accessors is read afterwards", "statement": "The generated function key_mut of an item, at any depth of mutable lists, or of the root, gives a reference to the present contents of the member (the default, if the item has none of its own). When other contents of the type are written through it, the document is one of the same kind, the generated reader gives the new contents, along whatever way the item is reached, and every other question is answered as before; in particular the default is unchanged. If the member is null or undefined there is nothing to write through, and no question at all is answered differently afterwards.", "quantifier": "all documents with harmless names, all items and members whose type is given by reference, all contents, all questions", "why_tests_cant": "the reference may be to a value that is shared with the default or with other documents; a test would have to look at all of them", "anchors": ["dochy_intf/src/imp/structs/param_source.rs", "dochy_core/src/imp/intf/mitem.rs: get_mutable_*, get_param_mut", "dochy_core/src/imp/intf/root.rs: get_mutable_*, get_param_mut", "dochy_core/src/imp/structs/rust_string.rs", "dochy_core/src/imp/structs/rust_array.rs"]}
{"id": "C74", "title": "What is written with accessors, saved and loaded, is read with accessors", "statement": "A program loads a document whose source has no lists of the root that can be undefined, and evaluates any expressions made of generated functions, writing through the references they give; it moves no items, leaves every enum in its table, and empties no list. It saves the document. A process that iterates hash maps in the same way while the source is loaded loads the file, and every generated reader of members, of ids of references and of ids of enums, of the root and of the items along every way, and every function that tells how many items a list has, its first and last id and whether it has an id, evaluates in the loaded document as it does in the document that was saved, panics and missing items included; values may differ in the sign of zeros only. The same holds for every file of a history, after any number of saves, loads, edits and restarts, if no enum has more than one variant.", "quantifier": "all sources with harmless names, all programs of generated functions, all members and ways, all orders of hash maps while reading, all variables of the two programs", "why_tests_cant": "the claim goes through the loader, the generator, the text of the accessors, the difference, the file and back; a test runs one program on one document", "anchors": ["dochy_intf/src/imp/structs/source_builder.rs", "dochy_intf/src/imp/structs/param_source.rs", "dochy_intf/src/imp/structs/ref_source.rs", "dochy_intf/src/imp/structs/refs_source.rs", "dochy_fs/src/imp/filesys/save_dochy_file.rs", "dochy_fs/src/imp/filesys/load_dochy_file.rs", "dochy_diff/src/imp/apply_diff.rs", "dochy_core/src/imp/intf/mitem.rs"]}
{"id": "C75", "title": "What accessors tell about lists is about the items they have, in their order", "statement": "For every list of the root and of every item along every way, the generated accessor followed by len, is_empty, first_id, last_id or contains_key evaluates to what the ids of its items in their order say, to nothing if the list is undefined or there is no such item, and it panics exactly if going there does. first, last and get_item give an item exactly if there is one with that id, and it is the item that going to that id gives. For constant lists of the root and of items, value(k) gives an item for k below len, and panics for the others. None of these calls changes anything.", "quantifier": "all documents with harmless names, all lists at any depth, all ids, all variables of the program", "why_tests_cant": "the claim is about every generated accessor for every source; a test looks at a few lists of one source", "anchors": ["dochy_core/src/imp/intf/mlist_const.rs", "dochy_core/src/imp/intf/mlist_ptr.rs", "dochy_core/src/imp/intf/clist_const.rs", "dochy_core/src/imp/intf/mitem.rs", "dochy_intf/src/imp/structs/mil_source.rs", "dochy_intf/src/imp/structs/mlist_source.rs", "dochy_intf/src/imp/structs/clist_source.rs"]}
{"id": "C76", "title": "Accessors of a new version read what documents of an older version hold", "statement": "After a document of an older version of the source was moved to a new version with validation, the functions generated from the new version read: a member of the root that was set in the old version, as it was; a member the old version did not know, as undefined if it can be, and otherwise as the value of the new source; a known member that was not set, as the value of the new source. Lists have the same ids in the same order, and the items the values and references that were set; a member of an item that was not set is undefined if it can be, and otherwise has the default of the new version. In items of inner lists, a value that was set is read as it was only if the list around has a member of that name, and as the default of the new version otherwise. What was set in lists of the root is read the same with the functions of the old version before and with those of the new version after. A reader panics exactly if the value is null or undefined and the marks of the new version do not allow it. The same holds if the document was edited by accessors of the old version, saved under a name and loaded by a program of the new version.", "quantifier": "all pairs of versions with harmless names, all documents, all members of the root and of items of its lists", "why_tests_cant": "a test moves a few documents between two fixed versions; the claim is about every pair of versions and every generated reader", "anchors": ["dochy_core/src/imp/version_adjuster/version_adjuster.rs", "dochy_core/src/imp/version_adjuster/adjust_mut_list_item_sabun.rs", "dochy_core/src/imp/intf/root.rs", "dochy_core/src/imp/intf/mitem.rs", "dochy_intf/src/imp/structs/param_source.rs", "dochy_manual/src/b3_conversion/conversion_test.rs", "dochy_manual/src/b3_conversion/new_accessor_wrapper.rs"]}
{"id": "C77", "title": "Loops over lists meet every item once and in order, and what they write is read", "statement": "The iterator of a list that is only read gives, from the first item on, from the last one back, or from a given item in either direction, the ids in the order of the list, each once, together with the items that the generated functions give for these ids; for an unknown id there is no iterator. On the way it tells its current item and whether that is the first or the last. Iterators of constant lists give the items at the positions 0, 1, and so on. A loop with a mutable iterator that sets a member of each item, to a value that may depend on the id and on what the document says then, ends; afterwards each item has its value, and no other question about the document has another answer than before. (prev of a mutable iterator goes forward: refuted.)", "quantifier": "all documents with harmless names, all lists of the root and of items, all ways to begin, all members and values", "why_tests_cant": "a test loops over a few fixed lists; the claim is about every list, every beginning and direction, and every member and value written in the loop", "anchors": ["dochy_core/src/imp/intf/mlist_iter_const.rs", "dochy_core/src/imp/intf/mlist_iter_mut.rs", "dochy_core/src/imp/intf/clist_iter_const.rs", "dochy_core/src/imp/intf/mlist_ptr.rs", "dochy_core/src/imp/intf/mlist_const.rs", "dochy_core/src/imp/intf/mlist_mut.rs", "dochy_core/src/imp/intf/clist.rs", "dochy_core/src/imp/structs/linked_map_unsafe_iter.rs"]}
{"id": "C78", "title": "Only functions that take &mut self change a document", "statement": "A program around the generated accessors that calls no function of dochy_core that changes a document, and never runs an accessor that takes &mut self, changes nothing and gives a value with nothing in it that could; and it does the same where these accessors are there. A generated function that does not take &mut self returns neither a mutable reference nor a guard of mutable lists or items. (That safe programs around a shared reference to the root change nothing is refuted: items implement Copy and the guards Deref, so one may call set_x on a copy of an item; for every item of every list of the root or of an item, and every member, such a program passes and sets the member.)", "quantifier": "all documents with harmless names, all programs of the modelled expressions, all results and panics; for the refutation every way to an item, member and value", "why_tests_cant": "a test runs a few programs; the claim is about every program one can write, and what is wrong with it takes a program that nobody thought of", "anchors": ["dochy_intf/src/imp/structs/mitem_source.rs", "dochy_intf/src/imp/structs/source_builder.rs", "dochy_intf/src/imp/structs/root_source.rs", "dochy_core/src/imp/intf/mlist_const.rs", "dochy_core/src/imp/intf/mlist_mut.rs", "dochy_core/src/imp/intf/root.rs", "dochy_core/src/imp/intf/mitem.rs"]}
{"id": "C79", "title": "Generated accessors never get stuck and give values of the types they declare", "statement": "A program of the modelled part of Rust that passes the typing rules of C67 is never stuck when it is evaluated, whatever the document: no function of dochy_core is given a pointer or value of another kind than it takes, no field or method is missing, no match is without an arm. The value has the type of the expression, and every call that changes the document was given a value of the type of the function, so that it is one of the steps on documents. Every function that is generated for a document, called with arguments of its declared types, is such a program and returns a value of its declared type.", "quantifier": "all programs that pass, all documents, variables, expressions and amounts of time; all documents with harmless names, all generated functions, all arguments of their types", "why_tests_cant": "the accessors go through raw pointers in unsafe blocks, where a wrong kind of value is undefined behaviour that a test need not notice; the claim is about every function that is generated for any document", "anchors": ["dochy_intf/src/imp/structs/source_builder.rs", "dochy_intf/src/imp/structs/root_source.rs", "dochy_intf/src/imp/structs/mitem_source.rs", "dochy_core/src/imp/intf/root.rs", "dochy_core/src/imp/intf/mitem.rs", "dochy_core/src/imp/intf/citem.rs", "dochy_core/src/imp/intf/table.rs", "dochy_core/src/imp/structs/null_or.rs", "dochy_core/src/imp/structs/qv.rs"]}
{"id": "C80", "title": "Generated accessors end within a fixed amount of time", "statement": "Every function that is generated for a document, called with arguments of its declared types, ends before its evaluation has nested eleven deep, whatever is in the document: it has then returned a value of its declared type, or panicked. It is not stuck, it does not call itself in turn, and with more time it does nothing else. The calls it made that change the document were given values of the right types.", "quantifier": "all documents with harmless names, all generated functions, all arguments of their types, all amounts of time from ten nested evaluations on", "why_tests_cant": "that no generated function of any document runs on without end is a claim about all of the functions and all of the arguments; the functions call each other by names that are made from the names in the document", "anchors": ["dochy_intf/src/imp/structs/source_builder.rs", "dochy_intf/src/imp/structs/root_source.rs", "dochy_intf/src/imp/structs/mitem_source.rs", "dochy_intf/src/imp/structs/citem_source.rs", "dochy_intf/src/imp/structs/table_source.rs", "dochy_intf/src/imp/structs/refs_source.rs"]}
{"id": "C81", "title": "Programs that use the generated accessors end", "statement": "An expression or a function that somebody writes beside the generated code ends, if it passes the compiler's typing rules, calls generated functions and functions of dochy_core, and calls map only with closures written in place: nested d deep, it ends before its evaluation has nested 10 + d deep, whatever the document and the arguments are. It returns a value of its type or panics, is never stuck, and does nothing else when given more time. For other programs that pass the same rules this is false: a function that calls itself passes them and does not end.", "quantifier": "all documents with harmless names, all typed expressions and functions of that kind, all values of the variables, all amounts of time from the bound on", "why_tests_cant": "it is a claim about all programs that can be written against the generated code and about all documents", "anchors": ["dochy_intf/src/imp/structs/source_builder.rs", "dochy_intf/src/imp/structs/ref_source.rs", "dochy_intf/src/imp/structs/mlist_source.rs", "dochy_intf/src/imp/structs/mil_source.rs", "dochy_core/src/imp/structs/qv.rs", "dochy_core/src/imp/structs/null_or.rs"]}
{"id": "C82", "title": "Code written beside the accessors does not change what they do", "statement": "If other code is put beside the generated code, with types of its own, every generated function called with arguments of its types returns the same, makes the same calls that change the document and takes the same time as without it, whatever the other code is; the same holds of every expression that passes the compiler's typing rules without the other code. The generated functions are found under their names, and they end. This is false of code that implements functions for the generated types: a function from written for a generated item type hides that of the trait From.", "quantifier": "all documents with harmless names, all other code with types of its own, all generated functions and typed expressions, all arguments of their types, all amounts of time", "why_tests_cant": "it is a claim about all code that can be written beside the accessors", "anchors": ["dochy_intf/src/imp/structs/source_builder.rs", "dochy_intf/src/imp/structs/mitem_source.rs", "dochy_intf/src/imp/structs/citem_source.rs", "dochy_intf/src/imp/structs/root_source.rs", "dochy_intf/src/imp/structs/table_source.rs"]}
{"id": "C83", "title": "Programs of functions that call each other beside the accessors end", "statement": "Other code with types of its own that passes the compiler's typing rules beside the generated code gives a whole program that passes them. If the functions of the other code can be numbered so that each calls only functions of smaller numbers, and their bodies are nested at most d deep, then every function of the whole program with a number below m, called with arguments of its types, returns a value of its type or panics, and its evaluation nests at most 10 + m * d deep; it never gets stuck and never runs on. The same holds of every typed expression that calls only such functions, with its own depth added. A function that calls itself has no such number.", "quantifier": "all documents with harmless names, all other code with types of its own that passes beside the generated code, all numberings, all functions and typed expressions, all arguments of their types", "why_tests_cant": "it is a claim about all programs that can be written over the accessors, and a test cannot tell a call that ends late from one that does not end", "anchors": ["dochy_intf/src/imp/structs/source_builder.rs", "dochy_intf/src/imp/structs/mitem_source.rs", "dochy_intf/src/imp/structs/citem_source.rs", "dochy_intf/src/imp/structs/root_source.rs", "dochy_intf/src/imp/structs/table_source.rs"]}
