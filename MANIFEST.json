{
 "claims": [
  {
   "property": "C01",
   "status": "proved",
   "theorems": [
    "C01_stream_roundtrip",
    "C01_encode_panics_iff"
   ],
   "note": "Every value sequence within the Rust type limits; oversized Str16/Str256/Undefined values are exactly the ones the encoder panics on."
  },
  {
   "property": "C02",
   "status": "proved",
   "theorems": [
    "C02_prefix_free",
    "C02_back_to_back"
   ],
   "note": ""
  },
  {
   "property": "C03",
   "status": "proved",
   "theorems": [
    "C03_int_lossless",
    "C03_double_lossless",
    "C03_float_lossless",
    "C03_str_lossless"
   ],
   "note": "IEEE-754 conversions modelled exactly over integers."
  },
  {
   "property": "C04",
   "status": "proved",
   "theorems": [
    "C04_varint64",
    "C04_varint128",
    "C04_length_prefix"
   ],
   "note": ""
  },
  {
   "property": "C05",
   "status": "partial",
   "theorems": [
    "C05_strings_refuted",
    "C05_strings_exact_partial",
    "C05_strings_lossless_partial"
   ],
   "note": "False as stated: a string such as 12:30 comes back as 12.30. The partial theorems characterise exactly the altered strings."
  },
  {
   "property": "C06",
   "status": "partial",
   "theorems": [
    "C06_url_refuted",
    "C06_url_exact_partial",
    "C06_url_injective"
   ],
   "note": "False as stated: a zero byte is appended unless the length is a multiple of three; proved exactly that and nothing else."
  },
  {
   "property": "C07",
   "status": "partial",
   "theorems": [
    "C07_malformed_refuted",
    "C07_malformed_partial"
   ],
   "note": "False as stated: debug builds panic on over-long or negative lengths; the partial theorem gives exactly the panicking inputs. Allocation failure is not modelled."
  },
  {
   "property": "C08",
   "status": "proved",
   "theorems": [
    "C08_list_refines",
    "C08_runs",
    "C08_public_safe",
    "C08_id_collision_refuted"
   ],
   "note": "Pointer-level model: heap, nodes, hash map, raw first/last pointers; programs over any number of lists sharing one heap. Holds for every program whose insertions do not take an id in use; public programs never do. C08_id_collision_refuted shows what the condition excludes."
  },
  {
   "property": "C09",
   "status": "partial",
   "theorems": [
    "C09_ids_refuted",
    "C09_ids_increase_partial"
   ],
   "note": "False as stated: a copy of an emptied list restarts its ids at 0. Proved for every sequence without such a copy."
  },
  {
   "property": "C10",
   "status": "proved",
   "theorems": [
    "C10_moves"
   ],
   "note": ""
  },
  {
   "property": "C11",
   "status": "proved",
   "theorems": [
    "C11_remove",
    "C11_remove_first",
    "C11_remove_last"
   ],
   "note": ""
  },
  {
   "property": "C12",
   "status": "partial",
   "theorems": [
    "C12_cursor",
    "C12_is_last_refuted",
    "C12_mut_prev_refuted"
   ],
   "note": "Proved for the underlying cursor; refuted for is_last of the safe cursors (it calls is_first) and prev of the mutable list cursor (it calls next)."
  },
  {
   "property": "C13",
   "status": "proved",
   "theorems": [
    "C13_copy",
    "C13_independent",
    "C13_equality"
   ],
   "note": ""
  },
  {
   "property": "C14",
   "status": "partial",
   "theorems": [
    "C14_edits_partial",
    "C14_later_versions",
    "C14_next_id_refuted",
    "C14_set_enum_refuted",
    "C14_undefiable_list_refuted",
    "C14_reused_id_refuted",
    "C14_negative_zero_refuted"
   ],
   "note": "Documents nested to any depth, from documents through bytes back to documents. Proved for edits with definitions of at most 11 members in items that contain lists. False as stated: a next id alone, a switched enum table, a zero's sign and reused ids are lost; an undefiable root list panics."
  },
  {
   "property": "C15",
   "status": "partial",
   "theorems": [
    "C15_refuted",
    "C15_never_reorders",
    "C15_moves_partial"
   ],
   "note": "False as stated: moves are lost. Proved: no diff reorders anything; everything but the order is reproduced."
  },
  {
   "property": "C16",
   "status": "partial",
   "theorems": [
    "C16_round_trip_partial",
    "C16_small_definitions",
    "C16_refuted"
   ],
   "note": "False as stated: an item diff with a changed list whose member numbers are written one by one cannot be read. Proved for all others."
  },
  {
   "property": "C17",
   "status": "proved",
   "theorems": [
    "C17_frame"
   ],
   "note": "Every document, every diff (not only computed ones), every depth; includes the relative order of unmentioned items."
  },
  {
   "property": "C18",
   "status": "partial",
   "theorems": [
    "C18_same_partial",
    "C18_nan_refuted",
    "C14_undefiable_list_refuted"
   ],
   "note": "False for documents with a NaN and for a defined list of the root that may be undefined; proved for all others."
  },
  {
   "property": "C19",
   "status": "proved",
   "theorems": [
    "C19_values",
    "C19_same_value",
    "C19_refused"
   ],
   "note": ""
  },
  {
   "property": "C20",
   "status": "proved",
   "theorems": [
    "C20_numbers"
   ],
   "note": ""
  },
  {
   "property": "C21",
   "status": "partial",
   "theorems": [
    "C21_names_refuted",
    "C21_restore_refuted",
    "C21_names_partial",
    "C21_reading_ends"
   ],
   "note": "False as stated: tagged names are never read back (some crash the reader) and numbers of nine or more digits are ignored. The partial theorem is exact: it says which positions are read back and which crash."
  },
  {
   "property": "C22",
   "status": "proved",
   "theorems": [
    "C22_names_distinct"
   ],
   "note": ""
  },
  {
   "property": "C23",
   "status": "partial",
   "theorems": [
    "C23_folder_names",
    "C23_folder_names_distinct",
    "C23_other_names_partial",
    "C23_other_names_refuted"
   ],
   "note": "Round trip and distinctness proved. Rejection of other names is false: some 32 byte names panic. The partial theorem is exact."
  },
  {
   "property": "C24",
   "status": "proved",
   "theorems": [
    "C24_times",
    "C24_read"
   ],
   "note": "Times before the epoch are refused with an error."
  },
  {
   "property": "C25",
   "status": "partial",
   "theorems": [
    "C25_next_position_partial",
    "C25_only_failure",
    "C25_refuted"
   ],
   "note": "False as stated: the builder accepts a limit_nth above the number of phases, which panics. Proved for all others, and that nothing else fails. Any comparison of the averages is allowed."
  },
  {
   "property": "C26",
   "status": "proved",
   "theorems": [
    "C26_sizes",
    "C26_recording",
    "C26_file"
   ],
   "note": ""
  },
  {
   "property": "C27",
   "status": "partial",
   "theorems": [
    "C27_new_newest_partial",
    "C27_reached_partial",
    "C27_tag_refuted",
    "C27_first_tag_refuted",
    "C27_digits_refuted"
   ],
   "note": "Proved for every folder, cache and diff implementation, saves without a tag, numbers below 99999999. False with tags and beyond eight digits: files are overwritten."
  },
  {
   "property": "C28",
   "status": "partial",
   "theorems": [
    "C28_load_partial",
    "C28_save_partial",
    "C28_branch_refuted"
   ],
   "note": "Proved for all sequences of untagged saves, loads, restarts and removals, all options and any diff implementation satisfying C14, except continuing a non-cumulative last-phase branch file, for which it is false."
  },
  {
   "property": "C29",
   "status": "partial",
   "theorems": [
    "C29_branch_partial",
    "C29_flat_refuted",
    "C29_deep_refuted"
   ],
   "note": "Proved whenever the base file is continuable. False for a last-phase base that is not the newest and has no file at its parent's recorded position: the save fails."
  },
  {
   "property": "C33",
   "status": "proved",
   "theorems": [
    "C33_load",
    "C33_save"
   ],
   "note": "In every reachable history (the histories of C28)."
  },
  {
   "property": "C32",
   "status": "partial",
   "theorems": [
    "C32_listing_partial",
    "C32_listing_any",
    "C32_one_order",
    "C32_saving_order",
    "C32_same_position_refuted"
   ],
   "note": "Proved for every set of readable files at different positions, read in any order. False for two files at one position that differ in the previous control number: one is dropped."
  },
  {
   "property": "C30",
   "status": "partial",
   "theorems": [
    "C30_load_partial",
    "C30_folder_partial",
    "C30_removed_partial",
    "C30_continue_partial",
    "C30_linear",
    "C30_not_cumulative",
    "C30_twice_refuted",
    "C30_fork_refuted",
    "C30_one_phase_refuted"
   ],
   "note": "Proved without cumulative files, and with them for the first removal from a history only ever continued from its newest file. False otherwise: with the default options, keeping the newest file twice can remove a file it needs; also after a branch and with one phase."
  },
  {
   "property": "C31",
   "status": "proved",
   "theorems": [
    "C31_newest"
   ],
   "note": "Exact: which folders go is characterised."
  },
  {
   "property": "C46",
   "status": "partial",
   "theorems": [
    "C46_newest_partial",
    "C46_newest_refuted"
   ],
   "note": "False if the newest source folder has no history file yet; proved otherwise."
  },
  {
   "property": "C34",
   "status": "partial",
   "theorems": [
    "C34_equal",
    "C34_returned_partial",
    "C34_read_fails",
    "C34_dochy",
    "C34_unreadable_refuted",
    "C34_inapplicable_refuted"
   ],
   "note": "Every interleaving of reader, tasks and receiver. Proved whenever applying in order succeeds, and for missing files. False for files that cannot be decoded or applied: the process can be aborted instead of an error being returned."
  },
  {
   "property": "C35",
   "status": "partial",
   "theorems": [
    "C35_order",
    "C35_one_at_a_time",
    "C35_all_done",
    "C35_skipped_partial",
    "C35_pending_refuted",
    "C35_load_refuted"
   ],
   "note": "Order, mutual exclusion and absence of deadlock proved for every interleaving. The vacancy half is false: queued saves are not noticed and loads are. The partial theorem is exact about when a save is skipped. Panics while the lock is held are not modelled."
  },
  {
   "property": "C36",
   "status": "partial",
   "theorems": [
    "C36_current_partial",
    "C36_ignored",
    "C36_wrong_file_refuted",
    "C36_missing_refuted"
   ],
   "note": "False as stated: the source version of the entry is ignored. Proved for entries of the current source."
  },
  {
   "property": "C37",
   "status": "partial",
   "theorems": [
    "C37_round_trip_partial",
    "C37_other_version",
    "C37_saves",
    "C37_no_overwrite",
    "C37_other_files",
    "C37_reserved_partial",
    "C37_reserved_refuted",
    "C37_save_reserved_refuted"
   ],
   "note": "Round trip, no unasked overwriting and frame conditions proved; the protection of reserved files is false for names with a slash and for saving."
  },
  {
   "property": "C38",
   "status": "partial",
   "theorems": [
    "C38_stop_partial",
    "C38_same_save",
    "C38_tag_refuted",
    "C38_continue_refuted"
   ],
   "note": "Proved for untagged saves in every reachable history, stopped after any number of bytes. False for tagged saves that overwrite. C38_continue_refuted is a further finding: with one phase the newest complete version cannot be continued."
  },
  {
   "property": "C47",
   "status": "partial",
   "theorems": [
    "C47_later_partial",
    "C47_archive",
    "C47_refuted",
    "C47_failed_archive_refuted"
   ],
   "note": "False: an incomplete archive is never completed. Proved when the archive was not created or is complete."
  },
  {
   "property": "C39",
   "status": "proved",
   "theorems": [
    "C39_schedule",
    "C39_no_deadlock",
    "C39_threads_end",
    "C39_ends",
    "C39_round_trip",
    "C39_written",
    "C39_folder",
    "C39_archive_of_folder"
   ],
   "note": "Every interleaving of the calling, archiving and hashing threads and of all tasks; any converter and hash; a compressor whose output decompresses to its input."
  },
  {
   "property": "C40",
   "status": "partial",
   "theorems": [
    "C40_refuted",
    "C40_input",
    "C40_partial"
   ],
   "note": "False: paths and contents are hashed without separators, so text can move between files unnoticed. Proved: changes of the total size, of one content, an added file, and changes that keep all paths and sizes are noticed."
  },
  {
   "property": "C48",
   "status": "partial",
   "theorems": [
    "C48_refuted",
    "C48_partial"
   ],
   "note": "False: the path as written is hashed with the contents. Proved for folders reached by the same path, in any listing order."
  },
  {
   "property": "C44",
   "status": "partial",
   "theorems": [
    "C44_tables",
    "C44_loaded_partial",
    "C44_nested",
    "C44_panic_refuted",
    "C44_number_refuted"
   ],
   "note": "The tables of every properly numbered definition are proved right at every level, and so is every source whose root members have different names. False otherwise: [a] and [a?] in the root panic, a file named like a root member gives two members one number."
  },
  {
   "property": "C45",
   "status": "proved",
   "theorems": [
    "C45_names",
    "C45_system",
    "C45_written",
    "C45_simple",
    "C45_unambiguous"
   ],
   "note": "Exact for every string."
  },
  {
   "property": "C51",
   "status": "partial",
   "theorems": [
    "C51_refuted",
    "C51_root_partial"
   ],
   "note": "Members of the root: proved for every two iteration orders. Members of lists: false, they are renumbered in the iteration order of a hash map."
  },
  {
   "property": "C42",
   "status": "partial",
   "theorems": [
    "C42_valid",
    "C42_loaded_partial",
    "C42_references_partial",
    "C42_types_partial",
    "C42_default_refuted",
    "C42_null_refuted",
    "C42_ids_refuted"
   ],
   "note": "Validation accepts exactly the valid documents, proved for all documents without repeated ids and for all sources without repeated ids and root names. False for the values and references that items get from their definition, and validation panics if an id comes twice."
  },
  {
   "property": "C52",
   "status": "partial",
   "theorems": [
    "C52_typed_partial",
    "C52_diff_partial",
    "C52_next_refuted",
    "C52_empty_refuted"
   ],
   "note": "Types and numbering proved for every validated source with different root names and different ids; diffs of everything edits make of it are right if the source also keeps all ids below the next one. False otherwise: next ids are not checked, and those of empty lists are lost."
  },
  {
   "property": "C53",
   "status": "partial",
   "theorems": [
    "C53_count_partial",
    "C53_size_partial",
    "C53_strict_refuted",
    "C53_no_limit_refuted"
   ],
   "note": "False as documented: the limits are reached, not kept below, and have no effect with one phase after a fixed first one. Proved otherwise: at most limit_count files, and all but the last smaller than the nth largest."
  },
  {
   "property": "C43",
   "status": "partial",
   "theorems": [
    "C43_members_partial",
    "C43_reported",
    "C43_conforms",
    "C43_same_partial",
    "C43_inner",
    "C43_inner_kept",
    "C43_inner_fails",
    "C43_inner_lost_refuted",
    "C43_inner_fails_refuted",
    "C43_undefined_refuted",
    "C43_null_refuted",
    "C43_next_refuted",
    "C43_enum_refuted",
    "C43_kind_refuted"
   ],
   "note": "Proved for items without items in inner lists: what every member becomes, that ids and order stay, that moving does not fail, and that validation reports exactly what does not fit. Of items in inner lists it is proved exactly what they become, which values are kept, and a condition under which moving fails because of them. False for inner lists, for list members that can be undefined, nulls of the root, next ids of empty lists, new enum variants, and values replaced by lists."
  },
  {
   "property": "C41",
   "status": "partial",
   "theorems": [
    "C41_set_item",
    "C41_set_root",
    "C41_kinds",
    "C41_item_kinds",
    "C41_default",
    "C41_root_default",
    "C41_write",
    "C41_typed_partial",
    "C41_total",
    "C41_insert",
    "C41_edits_partial",
    "C41_diff_partial",
    "C41_read_item_partial",
    "C41_read_root_partial",
    "C41_read_ref",
    "C41_read_enum_partial",
    "C41_set_enum",
    "C41_read_list",
    "C41_read_root_list",
    "C41_ref_refuted",
    "C41_inserted_refuted",
    "C41_null_refuted",
    "C41_table_refuted",
    "C41_enum_refuted",
    "C41_copied_refuted",
    "C41_open_refuted"
   ],
   "note": "Proved: what setting and writing a parameter does, of items and of the root; what the generated functions read; programs of calls keep documents typed, do not panic and give correct differences. False for references, which are set unchecked, for inserted items with required references or an enum, for defaults that are not allowed, and for lists that can be undefined, which opening defines."
  },
  {
   "property": "C50",
   "status": "partial",
   "theorems": [
    "C50_reads",
    "C50_total",
    "C50_unique",
    "C50_tables",
    "C50_utf8",
    "C50_values",
    "C50_typed_partial",
    "C50_json_partial",
    "C50_line",
    "C50_infinite_refuted",
    "C50_numbers_refuted",
    "C50_strings_refuted",
    "C50_keys_refuted",
    "C50_line_refuted"
   ],
   "note": "What is read is proved to be exactly a grammar written as inductive relations, for every text; texts are never a panic; JSON texts are read as JSON but for what the specification lists. False as JSON5: infinities, signed and long hexadecimal numbers, escapes in keys, surrogate pairs, U+2028 and U+2029 in strings."
  },
  {
   "property": "C49",
   "status": "partial",
   "theorems": [
    "C49_text",
    "C49_back_partial",
    "C49_items_refuted",
    "C49_lost_refuted",
    "C49_text_refuted",
    "C49_numbers_refuted"
   ],
   "note": "False as documented: no document with an item in a list can be read back, tables and constant lists are not printed, strings are not escaped. Proved: clean values are read as what they are, and a document with empty lists comes back with its members, current values, definitions (up to numbering) and old names."
  },
  {
   "property": "C54",
   "status": "partial",
   "theorems": [
    "C54_compiles_partial",
    "C54_calls",
    "C54_members",
    "C54_root",
    "C54_item",
    "C54_ids",
    "C54_by_id",
    "C54_enum",
    "C54_methods_refuted",
    "C54_structs_refuted",
    "C54_identifiers_refuted",
    "C54_variants_refuted",
    "C54_empty_refuted",
    "C54_types_refuted",
    "C54_from_refuted"
   ],
   "note": "False for every document: names collide in many ways. Proved for all documents whose names are in snake case and not made from others (tame): the declarations are as the compiler asks, every member has its methods, and setters, getters, ids and enums do what they say. The calls fit the document whatever its names. The types of expressions in the text are C67."
  },
  {
   "property": "C55",
   "status": "partial",
   "theorems": [
    "C55_current_partial",
    "C55_archives_partial",
    "C55_loads_partial",
    "C55_history",
    "C55_source_refuted",
    "C55_update_refuted",
    "C55_archive_refuted",
    "C55_lost_refuted",
    "C55_panic_refuted",
    "C55_alias_refuted"
   ],
   "note": "Proved if no source is edited while a process uses it. False otherwise: sources are read once per process, another source for a known folder is ignored, and the new archive is put into the folder of the old hash, so that saved files are loaded as other documents."
  },
  {
   "property": "C56",
   "status": "partial",
   "theorems": [
    "C56_listed",
    "C56_files",
    "C56_otherwise",
    "C56_path",
    "C56_project_partial",
    "C56_saved_partial",
    "C56_removed_partial",
    "C56_folder_refuted",
    "C56_order_refuted",
    "C56_crash_refuted"
   ],
   "note": "What is listed is characterised exactly for every answer of the system. As claimed for projects without inner folders and errors; false otherwise: inner folders are listed as files, errors are reported or not depending on the listing order, and foreign names of 32 bytes end the program."
  },
  {
   "property": "C57",
   "status": "partial",
   "theorems": [
    "C57_serial",
    "C57_exclusive",
    "C57_ends",
    "C57_results",
    "C57_once",
    "C57_last",
    "C57_counter_partial",
    "C57_counter_refuted",
    "C57_order_refuted",
    "C57_torn_refuted",
    "C57_panic_refuted"
   ],
   "note": "Serialisation, termination, results and no unasked overwriting are proved for every interleaving. False: queued_threads counts only the thread that has the lock, threads are not served in order, a load during a save sees an empty file, and a panic blocks the folder."
  },
  {
   "property": "C58",
   "status": "partial",
   "theorems": [
    "C58_size",
    "C58_same_size",
    "C58_edits_partial",
    "C58_unchanged_refuted"
   ],
   "note": "The bound is proved for all documents, and with it C14 without a condition on the difference. False: a document that is loaded twice and not changed gives a difference with all its texts."
  },
  {
   "property": "C59",
   "status": "partial",
   "theorems": [
    "C59_load_partial",
    "C59_save_partial",
    "C59_source_partial",
    "C59_placed",
    "C59_moved_refuted",
    "C59_next_refuted"
   ],
   "note": "Proved for all sessions whose programs move no items and change no table of an enum, for definitions whose items with lists have at most 11 members, without lists of the root that may be undefined, and for documents below 32 GiB whose lists are not emptied and that do not differ in a next id only. False without these: moved items are where they were, and next ids differ."
  },
  {
   "property": "C60",
   "status": "partial",
   "theorems": [
    "C60_copies_partial",
    "C60_untouched",
    "C60_released",
    "C60_memory",
    "C60_ptr_eq",
    "C60_eq",
    "C60_next_refuted",
    "C60_kept_refuted",
    "C60_eq_refuted"
   ],
   "note": "Proved up to the next id of lists without items, which a copy sets back to 0 also for the original, and for calls that go through the document each time; false for items that are kept across a copy. contents_eq is right when true (for items without constant lists, up to order and next ids), and may be false for equal documents."
  },
  {
   "property": "C61",
   "status": "partial",
   "theorems": [
    "C61_loaded_partial",
    "C61_accepted_partial",
    "C61_value_partial",
    "C61_one_meaning_partial",
    "C61_order_partial",
    "C61_rows_refuted",
    "C61_number_refuted",
    "C61_next_refuted",
    "C61_undefined_refuted",
    "C61_marks_refuted",
    "C61_refs_refuted",
    "C61_id_refuted"
   ],
   "note": "Proved in both directions for tidy sources: no key, member name or row id twice, not both Ref and Enum in one object or in each other, natural numbers as ids and next ids, nothing after __InnerMutUndefined. Without them parts of the source may be dropped or changed without an error. Whole numbers as ids are refused."
  },
  {
   "property": "C62",
   "status": "partial",
   "theorems": [
    "C62_choice_partial",
    "C62_exists_partial",
    "C62_averages_partial",
    "C62_no_false_alarm_partial",
    "C62_refuted"
   ],
   "note": "Proved, as an equivalence with an unambiguous description in terms of the saves, if the total size times the number of saves is below 2^51; refuted for files above 2^53 bytes, where the rounded averages decide otherwise."
  },
  {
   "property": "C63",
   "status": "partial",
   "theorems": [
    "C63_depth",
    "C63_loads_partial",
    "C63_moved_partial",
    "C63_kept_partial",
    "C63_reported_partial",
    "C63_order_refuted"
   ],
   "note": "Proved for programs that move no items and change no table of an enum, roots without lists that can be undefined, items with lists of at most 11 members, up to next ids, if both processes iterate hash maps in the same order; refuted if they do not."
  },
  {
   "property": "C64",
   "status": "partial",
   "theorems": [
    "C64_ways_partial",
    "C64_value_partial",
    "C64_root_partial",
    "C64_reference_partial",
    "C64_enum_partial",
    "C64_iteration_partial",
    "C64_list_partial",
    "C64_value_panics_partial",
    "C64_reference_panics_partial",
    "C64_lists_total_partial",
    "C64_constant",
    "C64_enum_refuted",
    "C64_null_refuted",
    "C64_default_refuted"
   ],
   "note": "Proved for clean sources (different names of files and members, tidy in the sense of C61, different ids in each list) and for values the marks allow, with an exact description of all panics; refuted for null after Enum, null defaults without a mark and default references to missing rows."
  },
  {
   "property": "C65",
   "status": "partial",
   "theorems": [
    "C65_answers_partial",
    "C65_variants",
    "C65_history_partial"
   ],
   "note": "Proved for a reader whose process iterates hash maps as the writer while the source is loaded, sources without lists of the root that can be undefined, and programs that move no items and change no table of an enum (see C63_*_refuted and C59_*_refuted); next_id is left out. C65_variants has no such conditions."
  },
  {
   "property": "C66",
   "status": "proved",
   "theorems": [
    "C66_written",
    "C66_loaded",
    "C66_well_formed",
    "C66_rows_refuted"
   ],
   "note": "Row ids have to be words (C66_rows_refuted: they are not checked). All 17 accessors checked in under dochy_manual/src are reproduced byte for byte in CodeSamples.v."
  },
  {
   "property": "C67",
   "status": "proved",
   "theorems": [
    "C67_passes",
    "C67_text",
    "C67_from_refuted"
   ],
   "note": "Names have to be tame, as in C54; C67_from_refuted shows a loaded document with another name that does not pass. Lifetimes and use after move are not part of the type system (TypeSpec.v)."
  },
  {
   "property": "C68",
   "status": "proved",
   "theorems": [
    "C68_way",
    "C68_read",
    "C68_default",
    "C68_ref_id",
    "C68_enum_ids",
    "C68_root",
    "C68_new",
    "C68_ids",
    "C68_by_id",
    "C68_set",
    "C68_mut",
    "C68_set_ref",
    "C68_set_enum",
    "C68_root_set",
    "C68_root_mut",
    "C68_source_partial"
   ],
   "note": "Names have to be tame, as in C54. C68_source_partial joins it with C64 and has the conditions of C64. Evaluation is that of RunSpec.v; iterators of lists are not part of it."
  },
  {
   "property": "C69",
   "status": "proved",
   "theorems": [
    "C69_set",
    "C69_set_ref",
    "C69_set_enum",
    "C69_root_set",
    "C69_loaded"
   ],
   "note": "Names have to be tame, as in C54; the document is one whose members are as they are declared, which C69_loaded shows of loaded ones."
  },
  {
   "property": "C70",
   "status": "proved",
   "theorems": [
    "C70_list",
    "C70_moves"
   ],
   "note": "Inserting needs a free next id (see C09 and C43 for lists in which it is not) and a length that fits a machine. The calls are those of dochy_core; C71 is about the programs that make them."
  },
  {
   "property": "C71",
   "status": "proved",
   "theorems": [
    "C71_list",
    "C71_tells",
    "C71_new"
   ],
   "note": "Names have to be tame, as in C54; inserting has the conditions of C70. Iterators of lists are not part of it (C12)."
  },
  {
   "property": "C72",
   "status": "proved",
   "theorems": [
    "C72_cursors",
    "C72_runs",
    "C72_sweep",
    "C72_sweep_back",
    "C72_back",
    "C72_removed"
   ],
   "note": "Cursors of the raw list type (MListPtrIter); the list itself must not be moved in memory meanwhile. Using a cursor whose item was removed is undefined behaviour (C72_removed), as the code says."
  },
  {
   "property": "C73",
   "status": "proved",
   "theorems": [
    "C73_write",
    "C73_root_write"
   ],
   "note": "Names have to be tame, as in C54, and the declared default has to fit its declaration, as in C41. Writing to contents that are shared puts the new contents at another address, which stands for the copy Arc::make_mut makes."
  },
  {
   "property": "C74",
   "status": "proved",
   "theorems": [
    "C74_saved",
    "C74_history"
   ],
   "note": "The conditions are part of the statement; they are those of C65, and without them the claim is false (C59_*_refuted, C63_*_refuted). C74_saved takes the calls of the program to be ones whose arguments fit (ok_root_step) and that generated functions make (generated_root_step); C69, C70, C71 and C73 show that those of setters, list functions and references are. Of lists, what their functions tell (C75) is compared; the order of all items is C65."
  },
  {
   "property": "C75",
   "status": "proved",
   "theorems": [
    "C75_tells",
    "C75_picks",
    "C75_constant",
    "C75_inner_constant"
   ],
   "note": "C75_picks takes the ids of a list to be distinct, as they are in every list that can be reached (C08). Cursors are C12 and C72."
  },
  {
   "property": "C76",
   "status": "proved",
   "theorems": [
    "C76_root",
    "C76_items",
    "C76_inner",
    "C76_kept",
    "C76_file"
   ],
   "note": "C76_inner is for inner lists directly in items of lists of the root; in these, values survive only under names that the list around also has (see C43_inner). C76_file shares the conditions of C74_saved. C76_null_case: a null that the new version does not allow passes validation, and reading it panics (see C43_null_refuted)."
  },
  {
   "property": "C77",
   "status": "partial",
   "theorems": [
    "C77_reads",
    "C77_constant",
    "C77_inner_constant",
    "C77_writes",
    "C77_mut_prev_refuted"
   ],
   "note": "False only for prev of mutable iterators, which calls next (C77_mut_prev_refuted). C77_writes is about a loop whose body sets one member of each item; loops over an empty list have nothing to do and are left out."
  },
  {
   "property": "C78",
   "status": "partial",
   "theorems": [
    "C78_shared",
    "C78_panics",
    "C78_signature",
    "C78_copied",
    "C78_refuted"
   ],
   "note": "False of the types: items implement Copy, the guards of constant items Deref, so safe code with a shared reference may call set_x on a copy of an item (C78_copied, C78_refuted). True of the accessors: what never runs an accessor that takes &mut self changes nothing (C78_shared). passes of SharedSpec.v covers a part of what rustc accepts, enough for the refutation."
  },
  {
   "property": "C79",
   "status": "proved",
   "theorems": [
    "C79_sound",
    "C79_typed",
    "C79_time",
    "C79_accessors",
    "C79_performs"
   ],
   "note": "Type soundness of the evaluator of C68 for the typing rules of C67. Methods of the guards themselves are called by users of the accessors only and have no typing rules there; C68 and C69 to C77 say what they do."
  },
  {
   "property": "C80",
   "status": "proved",
   "theorems": [
    "C80_total",
    "C80_settled",
    "C80_call"
   ],
   "note": "Termination of the generated functions in the evaluator of C68, joined with the type soundness of C79."
  },
  {
   "property": "C81",
   "status": "proved",
   "theorems": [
    "C81_ends",
    "C81_fn",
    "C81_settled"
   ],
   "note": "Termination of typed programs over the generated functions in the evaluator of C68. Methods of the guards have no typing rules (C79) and are not called. The Example C81_needs shows a program outside of the claim that does not end."
  },
  {
   "property": "C82",
   "status": "proved",
   "theorems": [
    "C82_beside",
    "C82_accessors",
    "C82_total"
   ],
   "note": "The evaluator of C68 looks functions up by the name of the type; the Example C82_needs shows a block impl for a generated type that changes a call."
  },
  {
   "property": "C83",
   "status": "proved",
   "theorems": [
    "C83_passes",
    "C83_fn",
    "C83_ends"
   ],
   "note": "The number belongs to the name of a function, whatever its type. The argument of map is a closure written in place; closures elsewhere are never run. The Example C83_needs shows that the function of C81 that does not end has no number."
  }
 ]
}