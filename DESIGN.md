# Formal model of dochy in Coq 8.16

The model lives in `rocq/theories`. Files named `*Model.v` hold only definitions,
each citing the file and lines of `/repo` it models. Files named `*Spec.v` hold small
independent specifications. Files named `*Proofs.v` hold lemmas. Files named
`*Props.v` hold only the property theorems (each closed by `exact`), a non-vacuity
`Example` beside each, and `Print Assumptions`.

## Conventions

- Machine integers are `Z`, with an explicit range predicate when the code relies on
  the range. A wrap is written out where the code wraps. Bytes are `Z` in `0..255`.
- `Result`/`Option` stay data. A panic (overflow in a debug build, slice out of bounds,
  `unwrap` on `None`, `unreachable!`) is the explicit outcome `Panic`.
- `&mut` functions return the new value. Raw pointers are addresses in an explicit heap.
- Loops are structural recursion or recursion on fuel; running out of fuel is an
  explicit outcome which theorems exclude.
- Hash maps are association lists or finite functions; where the code iterates a hash
  map, the theorem quantifies over the iteration order.
- External behaviour (file system, threads, floating point average, snap compression,
  metrohash) is a `Section` variable or an explicit argument; its assumed behaviour is a
  hypothesis visible in the theorem statement.
- If a property is false of the faithful model, the theorem `..._refuted` proves a
  concrete counterexample and the property's status is `partial`, together with the
  strongest positive theorem proved.

## Plan per property

| id | model | method |
|----|-------|--------|
| C01 | `encode`/`decode` of KVal streams at bit level: tag bits MSB first, zero padded, data bytes | induction over the value list with a bit-reader invariant |
| C02 | same | corollaries of C01 with an arbitrary continuation |
| C03 | `comp_*` over exact integers, IEEE bit patterns (sign, exponent, fraction as `Z`) | arithmetic on bit patterns |
| C04 | `var_int` encode/decode as little endian base 256 with sign bit | induction on length, `Z` arithmetic |
| C05 | string compaction: regex matcher as a scanner, decimal printing | refuted by a witness; positive theorem for strings without the wild separator |
| C06 | b8/b6 conversion and the 64 letter alphabet | refuted by a witness; positive theorem gives the exact result |
| C07 | `decode` with explicit `Panic` for shift/add overflow and slice panics | refuted by a witness |
| C08-C13 | `LinkedMap` with an explicit heap of nodes and raw addresses | refinement to `list (id * value)`; invariant over all operation sequences |
| C14, C15, C17, C18 | documents as trees over definitions; `get_diff` and `apply_diff` | mutual induction on document depth; refuted for reordering |
| C16, C19, C20 | diff to KVal sequence and back | induction; refuted for number-encoded list ids |
| C21, C22 | file name printer and parser over character lists | induction on digits; refuted for tags |
| C23, C24 | hex printer/parser; 12 byte little endian | arithmetic |
| C25, C26 | `calc_next_phase`, `PhaseData` with an arbitrary comparison oracle | case analysis, invariant over saves |
| C27, C28, C29 | a history is a finite map from positions to files; save, derive, load | invariant over sequences of saves; refuted for non-cumulative branches |
| C30 | `HistoryRemover` tree and `keep` | refuted by a witness; positive theorem for linear histories |
| C31 | list of folders with counts | induction |
| C32 | `FileHistory` tree with sorted maps | induction |
| C33 | cache as at most one document per phase | coherence invariant |
| C34 | receiver loop over an arbitrary arrival sequence | induction over arrivals |
| C35 | small-step model of pool, lock and counter | invariant for order; refuted for vacancy |
| C36 | load path selection | refuted by a witness |
| C37, C38 | directory as a finite map; write as a sequence of crash points | case analysis; refuted for the archive file |
| C47 | the states a stop leaves in a source folder | case analysis; refuted by a witness |
| C39 | archive writer and reader on top of C01; threads as a step relation | invariant and measure over all interleavings; sorted maps |
| C40, C48 | the bytes fed to the hash | refuted by witnesses; cancellation |
| C41 | accessors over definitions and documents, programs of calls | case analysis; induction over programs, through C52 and C14 to differences; refuted for references, defaults and lists that can be undefined |
| C50 | texts over a grammar written as inductive relations | the rules read exactly the grammar, by induction over texts and derivations; nearest doubles characterised without the algorithm; refuted against JSON5 |
| C49 | documents printed, read by the reader of C50 and converted by the loader | round trip by induction over values and definitions, with what is lost in the relation; what cannot be read refuted for every document with an item |
| C54 | documents, names and the declarations generated from them | naming is injective on ordinary names, by induction over names; every declaration invariant under the traversal of definitions; methods run on documents give what C41 gives; collisions refuted with loaded documents |
| C55 | processes with their maps, sources on disk and projects, under any sequence of events | invariant over events: every known source is as on disk, every archive is that of its folder; with the differences of C14 as a parameter; refuted without the assumption that sources stay as they are while in use |
| C56 | what the system answers for a project folder, errors included | the iterator collects what an inductive relation says, by induction over entries; stable sorting characterised by filters; projects of C37 listed in any order; refuted for folders, the place of errors and foreign names |
| C57 | threads, a lock with poison, a counter and the project of C37, under any interleaving | invariant over steps: the log is what saving one by one gives; decreasing work for termination; refuted for the counter, the order of threads, loads during saves and panics |
| C58 | the lengths of what get_diff writes (model of C14), sizes of documents (SizeSpec) | induction over documents and differences; replaces the length condition of C14 by a bound on the documents; refuted for unchanged documents |
| C59 | the models of C52, C41, C14 and C28 put together: sessions of a process with objects, programs, saves and loads (WholeSpec) | invariant over sessions: every object and every file has grown from the source and from the file it is based on; the differences of C14 with the sizes of C58 are differences of a history; refuted for moved items and for ids of items that were inserted and removed |
| C60 | memory cells with reference counts, make_mut, drop and the accessor calls on them, comparison by identity (ArcModel) | refinement: programs on shared memory to programs on documents that share nothing, with the invariant that counts are right; same address and contents_eq imply the same document; refuted for the next id of empty lists, for pointers kept across a copy, and contents_eq is neither complete nor about order |
| C61 | the whole conversion of sources (JsonModel) against a relation between sources and documents (SaysSpec) | soundness, completeness and uniqueness of the meaning by induction over the nesting; refuted for rows with one id, ids and next ids that are not natural, Ref with Enum, names with two marks and what follows `__InnerMutUndefined` |
| C62 | `should_shift_to_parent_phase` with f64 division and order (AverageModel) inside `calc_next_phase` | rounding of quotients is monotone and its error bounded; induction over the path; refuted for files of 2^53 bytes |
| C63 | loading, the interface, differences, named files and the adjuster together (SavedModel translates between the two views of an object) | composes C37, C41, C43, C52 and C55; refuted for builds that iterate hash maps in another order |
| C64 | reading functions of dochy_core/intf and the code generated around them, on the loaded object | refinement to ways in the source (ReadSpec `leads`), both directions; composes C42 and C61; refuted for null enums and for defaults that are not validated |
| C65 | reading functions on the object saved and on the object loaded from the file | simulation of `ask` along ways; composes C63, C59 and C64's reading functions |
| C66 | the characters of the accessors, read by a lexer as a small Rust syntax tree | lines are proved one by one by reflection over pieces (known characters, unknown words, unknown texts), then composed along the traversal of definitions; the printer of the tree is the specification |
| C67 | the program of C66 and the signatures of dochy_core | a type system for the part of Rust of CodeSpec (TypeSpec.v); signatures are parsed from their text by `vm_compute`; one lemma per function, then along the declarations; programs that must be refused are refused |
| C68 | the program of C66, evaluated | an evaluator for the part of Rust of CodeSpec (RunSpec.v) over the functions of ReadModel and IntfModel (RunModel.v); rules for its steps; one lemma per function, then by induction along ways |
| C69 | setters, then readers, of the program of C66 | the effects of C68 are performed by the steps of IntfModel (`performs`); what the steps do is writing one content at one place (WroteProofs.v); by induction along ways, each question is answered as before unless it is the one that was set; ways that begin with the row do not depend on lists that can change |
| C70 | `list_do` of IntfModel, asked with the questions of ReadModel | the abstract list of C08 is described by the orders of ids (`new_order`, with `C70_moves` as a check on it); the call reaches one list (ListedStepProofs.v); by induction along ways each question is answered from the new list or as before (ListedAskProofs.v) |
| C71 | the methods of lists in the evaluator of C68 (`guard_fn`, `change_fn` of RunSpec.v), then C70 | evaluation gives the opened list and records the call; opening a list before changing it does not matter (`open_then` of CalledProofs.v), so that the recorded steps do what C70 says; the new item is written to with C69 |
| C72 | programs of list changes and cursor calls on the heap of C08 (CursorModel.v), against cursors that are ids in an ordered list (CursorSpec.v) | the hash map keeps the address of every item that stays (`address_kept` of CursorProofs.v); a cursor is the address the hash map has for its id; the loops by induction over the rest of the list |
| C73 | `*_mut` of members given by reference, in the evaluator of C68; writing is the step of C41 (ThroughSpec.v: `performs_through`) | the value at the place, or the default, is overwritten at that place only, as in C69; null and undefined stay |
| C74 | the evaluator of C68 on the saved and on the loaded document of C65 (AcrossSpec.v: `executes`, `reads_same`) | C68 says what the readers give in terms of the document; C65 says that the two documents answer the same |
| C75 | the evaluator of C68 on calls of functions of lists (ToldSpec.v: `reaches`, `informs`, `picks`) | the results are functions of the answer to the question for the ids of the items (`ask`), which does not mention accessors |
| C76 | the evaluator of C68 on the readers of the new version, in the document that `adjust_versions` gives (UpdateSpec.v: `read_as`, `moved_value`, `moved_member`) | the values are told from the old document and the two sources; the version adjuster is not mentioned but as the step in between |
| C77 | the iterators of LoopModel.v, driven by `visits` and `for_each` (LoopSpec.v), in the evaluator of C68 | which ids are met is told by `walk` from the ids of the list; the items by the generated functions that get an item by its id; what a loop wrote by the readers |
| C78 | the evaluator of C68 for the generated program and for `shared` of it, in which every function that takes `&mut self` is stuck | `quiet` looks at the text of a program only; `still` tells values that cannot change anything; `passes` are typing rules of Rust for safe programs, with `Deref` of guards and `Copy` of items |
| C79 | the evaluator of C68 (RunSpec.v) and the typing rules of C67 (TypeSpec.v); texts and truth values of documents and of programs are the same values, a `Box` is a value of its own | `of_type` says which values a type has; `timed` is the evaluator with another answer when time is over, so that `Err` is left for programs that are stuck; `plainly_named` (one `From` per type, functions not called like variants) is what the evaluator needs to find functions by name, and is proved of generated programs |
| C80 | the evaluator of C68 (RunSpec.v), where an amount of time is how deep evaluations nest | says `Ok` or `Panic` and never `Err`, which stands for too little time and for being stuck; the bound of ten is that of the generated functions, whatever the document |
| C81 | the evaluator of C68 (RunSpec.v) and the typing rules of C67 (TypeSpec.v), for programs written beside generated code; which programs: `plain` in EndSpec.v | calls of `map` whose argument is not written in place, and methods of the guards, are outside; the evaluator has no loops of Rust (`for`, `while`), which generated code has not either |
| C82 | the evaluator of C68 (RunSpec.v) on a program and on the same program followed by other items; `apart` in BesideSpec.v | other modules, `use` of other names and macros of the other code are not modelled: names are those of one module |
| C83 | the evaluator of C68 (RunSpec.v) and the typing rules of C67 (TypeSpec.v) on the generated items followed by other items; `layered` and `joins` in LayerSpec.v | recursion and loops in the other code are left out by the hypothesis; time is the depth to which evaluation nests; generic items and traits in the other code are not modelled |
| C42 | validation over documents, and over source files | induction over depth; conditions on a source carried through loading; refuted for defaults and repeated ids |
| C52 | source files to typed documents, through C42 and C14 | existence of a typed document by induction over depth; refuted for next ids |
| C53 | limits over recorded histories | induction over saves; refuted as documented |
| C43 | version adjuster | induction over depth; refuted for nested lists, whose items are described exactly (InnerSpec.v: `recast`, `counterpart`) |
| C44 | meta table | induction |
| C46 | newest of the last folder | refuted by a witness; positive theorem otherwise |
| C45 | name scanner | induction over the string |
| C51 | reading source files, hash map order as a parameter | simulation of two runs; refuted for members of lists |

## Trusted base

- The Coq 8.16.1 kernel.
- The axioms `Print Assumptions` lists for each property theorem: none. Every theorem
  reports "Closed under the global context". (`coqchk -o` lists only the
  `Coq.ssr.ssrunder.Under_rel` items that loading the standard library brings in.)
- The reading of the Rust source that the citations document. The code is not run.
- What the model takes for granted about the Rust standard library: integer printing and
  parsing, UTF-8 validity, `read_exact`, hash map semantics, the `bit-vec` byte order
  (most significant bit first).
- Threads: a channel delivers every message once; a panic in a spawned `rayon` task aborts
  the process; a panic in a plain thread ends only that thread; a `ThreadPool` of size one
  runs its jobs in the order of `execute`; a mutex admits one thread at a time; atomic
  operations are sequentially consistent (the code reads the counter with `Relaxed`).
- Snap decompresses what it compressed (a hypothesis of C39). Metrohash hashes its input as
  one stream (a hypothesis of C40).
- Files: creating a file empties it; a process that stops leaves the bytes it has written
  so far, in order, and nothing else. Losses of power that reorder writes are not covered.

## Modelled and not modelled

| part of the code | files | modelled | left out |
|---|---|---|---|
| dochy_compaction | Compaction*, Float*, StringCompaction*, VarIntProofs | the KVal stream encoder and decoder, integer, float and string compaction, base64-like text | allocation failure; snap compression |
| dochy_core linked_m, linked_map | Linked* | nodes, raw pointers, the hash map, cursors, copies, equality, drop. Undefined behaviour is `Panic`. Allocator addresses are arbitrary fresh numbers | allocation failure; in-place mutation of values through a cursor is a whole-value write |
| cursors of lists that change | Cursor* | `MListPtrIter` of mlist_ptr.rs with any number of cursors and changes in any order | two accessors at the same time on threads; the address of the list itself does not change |
| dochy_fs file names | FileName* | history file names, hash folder names, creation time files | the file system calls around them |
| dochy_core documents, dochy_diff | Doc*, Diff* | parameters, items, nested lists, definitions, meta tables; computing, writing, reading and applying differences. Nesting depth is a type index; every theorem holds for every depth. Hash map order is arbitrary. An `Arc` is an address with its content | the content of constant lists (a token); the JSON layer; reference counts |
| dochy_fs phases | Phase* | choosing the phase of the next save, recording sizes, reading and writing them | the comparison of the averages is an arbitrary oracle for C25, C26 and C53, and f64 division (AverageModel, IEEE-754 by hand, not Coq's floats) for C62 |
| dochy_fs file tree | Tree* | the tree of history files, its zipper, listing, newest file | errors of listing the directory |
| dochy_fs saving and loading histories | Hist*, Chain* | saving, deriving, loading, ancestors, dependencies, the cache, the base file of an object. The document and its differences are parameters with the behaviour C14 gives | errors of the operating system other than a missing file; path separators in tags |
| dochy_fs removing old files | Remove* | the remover, its flags and cues; removing files and source folders | a removal that fails is as if the file were not in the list (theorems hold for any part of the list) |
| dochy_fs applying files on threads | Apply* | the reading thread, the tasks, the channel, the receiving loop; any interleaving | the folder does not change while it is read |
| dochy_fs background saves | Queue* | the pool, the lock of a folder, the counter, conditional saves; any interleaving | what a save does (a parameter); poisoning by panics; `set_current_root_obj_info`; the gap between reading the counter and queueing |
| dochy_fs source folders and named files | Folder* | preparing the folder of a source version, saving, loading and removing named files, following relative paths, loading listed history entries | subfolders of source folders, links, paths out of the project folder; errors of the operating system other than a missing file; archives and version adjustment are parameters |
| dochy_archiver2 | Archive* | the files of a folder, converting and hashing on threads, writing and reading archives; any interleaving | links, names that are not UTF-8, failing allocations, converters that panic, folders that change while they are read; snap and metrohash are parameters |
| dochy_core json_to_rust | Json* | names, items, lists, attributes, references, the root, the member tables, joining the files of a folder. The iteration order of hash maps and the addresses of texts are parameters | the JSON5 parser is any function from text to values here (see Json5* for the real one); spans and error texts; table rows repeated under one id |
| loaded documents as documents that are edited and compared | Embed* | the relation between the values the loader makes and the typed values of the diff model | tables and const lists, which diffs ignore |
| dochy_core validation | Valid*, Load* | validating definitions, items, references, old names; visiting lists with repeated ids; loading with validation | error texts |
| dochy_core version_adjuster | Adjust* | moving root members, lists, items, inner lists and references to a new version, with and without validation | error texts |
| dochy_core intf (root, mitem, citem, mlist_ptr) and the functions dochy_intf generates to read members | Intf* | setting, reading and writing parameters, references, enums, lists; programs of calls | raw pointers, lifetimes, iterators over lists |
| dochy_json5 | Json5* | every rule of json5.pest, with pest's ordered choice and greedy repetition; numbers, strings, keys and values of de.rs and deserialize_item.rs; line numbers. The Unicode tables of pest (letters, parts of names) are parameters; that no blank, quotation mark, slash, colon, mark or closing brace is a letter is a hypothesis. `parse::<f64>` is assumed to round correctly | the depth of the call stack; spans and error texts |
| dochy_core printing | Print* | root_to_json_new_default, values, parameters, arrays, definitions, lists and items as JSON, and the pretty printer | `f64::to_string` is a parameter; the theorems assume of it what `shows` (PrintSpec.v) says: of all doubles the number is nearest to its text, whole numbers have no point and are exact up to 2^53, infinities and NaN are words. `exact_text` meets this (`exact_shows`) |
| dochy_intf | Gen* | the names of types, methods and variants; what the generated text declares: structs and their methods with the calls in them, enums of ids, references and kinds with the arms of their matches; running these | the text between the names (punctuation, `unsafe`, lifetimes: see C66), the types of expressions (see C67), writing the file. `well_formed` (GenSpec.v) says what is asked of a text that compiles |
| named files and versions together | Saved* | `save_dochy_file` and `load_dochy_file` with the models of differences, of loading and of the adjuster for their parameters | both processes have the same addresses of texts (`addr`) and, but for C63_order_refuted, the same iteration order; reading the archive is `unpack` (see C39) |
| reading a loaded document | Read* | citem.rs, mitem.rs, clist.rs, table.rs, mlist_const.rs, root.rs get functions; the bodies that param_source.rs, ref_source.rs, refs_source.rs, cil_source.rs, mil_source.rs, clist_source.rs, mlist_source.rs and table_source.rs generate | pointers are the values they point to (memory: C60); the linked map is a list of ids and items (C08); names of generated functions are the names of members (C54) |
| everything generated functions tell | Again* | get_ref_id and get_enum bodies of ref_source.rs L54-62 and refs_source.rs L28-30; the rest in Read* | next_id of lists is left out (C12, C59); first, last, len and contains_key follow from the items |
| the text of accessors | Code* | all of structs/*_source.rs and source_builder.rs, character by character; compared byte for byte with the 17 accessors checked in under dochy_manual/src (CodeSamples.v) | writing the file. `lex` and the syntax tree (CodeSpec.v) cover the part of Rust that is generated: words, text literals without escapes, lifetimes, marks; precedence of operators is in the tree, not in the tokens |
| the types of accessors | Api*, Type* | the signatures of the functions accessors call, word for word, of intf/root.rs, mitem.rs, citem.rs, table.rs, the const and mut guards, structs/qv.rs and null_or.rs | the rules of Rust are those of TypeSpec.v: lifetimes and that a moved value is not used again are left out, inference is `the types can be filled in`; signatures of `Option`, `Box` and `str` are those of the standard library |
| running accessors | Run* | the functions of intf/root.rs, mitem.rs, citem.rs, table.rs by the names the text calls them, the guards of mlist_const.rs, mlist_mut.rs, clist_const.rs with the methods of lists (iterators: next row), conversions of structs/qv.rs and null_or.rs | the evaluator of RunSpec.v stands for Rust; references are values, the document does not change while one expression is evaluated, calls that change it are recorded in order; what setters tell (a bool accessors ignore) is arbitrary |
| iterators of lists | Loop* | `MListIterConst`, `MListIterMut` and `CListIterConst` with next, prev, is_end and their starting positions (mlist_iter_const.rs, mlist_iter_mut.rs, clist_iter_const.rs), in loops whose body is evaluated | a loop is a relation, not a Rust `for` in the evaluator; the body sets members of the item met; changing the list itself during a loop is C72 |
| dochy_fs sources of a process | Source* | the maps of sources, folders and histories, and their poisoning by panics; opening, forced updates, saving and preparing with what the maps hold | reading a source (a parameter: its document and hash, an error or a panic); what spelling of a path leads where (a parameter) |
| dochy_fs listing saved files | Listing* | the iterator over folders and files, its errors, sorting, paths of listed files | names that are not UTF-8 (`to_string_lossy` changes them); folders that change while they are listed |
| dochy_fs saving from threads | Threads* | the lock of a folder and its poisoning, the counter, the two steps of writing a file; any interleaving | the forced update of the map, which drops the lock; removing files meanwhile; writes in parts (the file is empty, then complete); the relaxed order of the counter |
| dochy_core memory behind documents | Arc* | cells with counts, `Arc::make_mut`, `clone`, `drop`, the accessor calls on them, comparison by identity; any allocator that gives unused addresses | constant lists, definitions, meta tables (never written); overflow of counts; steps of threads in parts; the item or list that is being written is out of its container in the meantime |
| dochy_fs stopped processes | Crash* | a save of a history file, or the preparation of a folder, that stops after any number of bytes | writes that the operating system reorders |

## Findings

Places where the code does not do what the property says. Each has a `_refuted` theorem.

- C05/C06: compacting a number with a separator, or one extra byte in URL text, is lossy.
- C07: malformed streams panic in debug builds (lengths, shifts).
- C08: inserting at an id in use leaves a dangling pointer.
- C09: a copy of an emptied list restarts its ids.
- C12: `is_last` of the safe cursors calls `is_first`; `prev` of the mutable list cursor calls `next`.
- C14: the diff loses a change of a next id alone, the sign of a zero, the removal of the
  old reference when `set_enum` switches tables, and the values of a removed item whose id
  is reused. Defining a list of the root that may be undefined makes `get_diff` panic.
- C15: moves inside a list are not part of a diff.
- C16: when the member numbers of an item are written one by one (few, large numbers), the
  reader rejects a changed list among them, so the diff file cannot be applied.
- C18: a NaN differs from itself, so a document with a NaN never has an empty diff.
- C21: names with a tag are written but never read back. An empty tag, or one ending in a
  multi-byte character, panics the listing. Numbers of nine or more digits are ignored.
  Names with leading zeros are read but not restored.
- C23: a 32 byte folder name with, for example, a capital letter panics instead of being rejected.
- C25: `limit_nth` larger than the number of phases is accepted by the builder and panics the third save.
- C27: a file saved with a tag is invisible to the next save, which reuses its number and,
  with the same tag, overwrites it. A first save with a tag writes the file but reports an
  error. The same overwriting happens once control numbers have nine digits.
- C28: without cumulative files, continuing a branch of the last phase writes a file that
  cannot be loaded.
- C29: a file of the last phase that is not the newest cannot be saved from when there is
  only one phase, or when it continued a branch.
- C32: of two files at the same position with different previous control numbers only one is listed.
- C30: with the default options, a history that is only ever continued from its newest
  file can lose its newest version: keep the newest file right after a save of the phase
  above the last, save once more, keep the newest again. The item flag that means "needs
  its siblings" is set one phase too high. Branches and single-phase histories lose files
  at the first removal.
- C46: `get_newest_file_data` finds nothing when the newest source folder has no files yet.
- C34: loading on several threads aborts the whole process where loading on one thread
  returns an error: when a file cannot be decoded, or when one cannot be applied while a
  task still has to send its result.
- C35: `save_history_file_nb_if_vacant` looks at a counter that is raised only once the lock
  is held. A save that is queued or waits for the lock is not seen, so the new save is
  queued too. A running load is counted, so a save can be skipped with no save under way.
- C36: `load_history_file_data` compares the current source with itself instead of with the
  source of the entry. An entry of an older source version is looked up in the folder of the
  current one: another file of that name is loaded, or none.
- C37: `remove_dochy_file` with "./src.archive" removes the archive. `save_dochy_file` with
  the overwrite flag replaces it. Files saved before are then lost to later source versions.
- C38: an interrupted save with a tag can destroy an earlier tagged file. With one phase
  only, the incomplete file prevents saving from the newest complete version.
- C47: an archive left incomplete by an interruption or an error is never completed, since
  only its existence is checked. All files saved from then on cannot be loaded once the
  source changes.
- C40: paths and contents are hashed one after the other without lengths or separators.
  Moving a file's path and text into a comment at the end of the file before it keeps the
  version hash, so the change of the source goes unnoticed.
- C48: the path of a file enters the hash as the caller wrote it. The same folder given as
  "src" and as "./src" makes two versions, each with its own save folder.
- C44: a root object with the members "a" and "a?" makes loading panic: the second takes
  the place of the first but keeps the number 1 of a table of size one. A file named like a
  member of the root object replaces it under the number that the next file gets too; the
  table then knows only one of the two, and changes of the other cannot be written.
- C42: the values and references of a definition are not validated, so an item can refer by
  default to a row that does not exist, and a member that allows no null can be null by default.
- C42: two items of a list with one id are read; validation then follows a link to an item
  that was dropped (a panic here). Ids written as 1.0 and 1.5 are one id, and so are a written id and
  the position of an item without one.
- C52: the next id of a source list is never compared with the ids in it. With an item of id
  1 and no `NextID`, the first inserted item takes the id 1, the old one is dropped while its
  neighbours still point at it.
- C52: the `NextID` of a list without items is lost when the list is built.
- C53: the documentation says the files of the cumulative phase must be fewer than
  `limit_count` and smaller than the nth largest file. They can be as many as
  `limit_count`, and the last of them can make them larger. With `max_phase` 1 and
  `update_phase_0` off, which the builder accepts, neither limit has any effect.
- C41: `set_ref` checks nothing: references that are not declared are accepted, and null
  where it is not allowed; reading that panics.
- C41: an inserted item has no references. The generated functions for its enum, and for a
  reference without a default, panic.
- C41: the default of a member may be null although null is not allowed (`["Int", null]`);
  the generated function panics. A default reference need not name a row, nor need the table
  exist; reading it panics.
- C41: an enum with two references set is the one the hash map happens to give first.
- C41: the functions giving a mutable reference to a member set it to its default first, even
  when they then answer that there is none; `is_unmodified` changes.
- C41: opening an undefined list for editing defines it.
- C50: `Infinity` and `NaN` are in the grammar and `parse_number` has cases for them, but the
  test for integers comes first and takes them, so they are always rejected.
- C50: hexadecimal integers with a sign, or of more than 32 bits, are rejected.
- C50: keys are not unescaped: `"a"` and `"\u0061"` are two keys of one object, and a key given
  twice is found only when it is written twice in the same way.
- C50: `\u` escapes of surrogate pairs are rejected, so a character outside the basic plane
  cannot be escaped; U+2028 and U+2029 are not allowed in strings, unlike in JSON and JSON5.
- C50: `-0` is the integer 0; integers of more than 64 bits are rejected, not made doubles.
- C50: line numbers in messages count line feeds only, although a carriage return ends a
  comment.
- C49: a document with an item in a list cannot be read back: the number of the item is printed
  as `"ID" : 0`, which the reader gives as an integer, and `get_id` accepts texts and doubles only.
- C49: tables and constant lists are not printed; `undefined` lists and the mark of lists that
  can be undefined are lost, also old names of references and next ids of inner lists.
- C49: strings are printed without escapes: with a quotation mark or a line end the text is not
  read, with a backslash it is read as another string.  Infinities, NaN and whole numbers from
  2^63 are printed but not read; integers beyond 2^53 are rounded; the negative zero is zero.
- C54: different names become one method (`fooBar` and `foo_bar`, `@a` and `ata`, an old `a` and
  `a_old`, `a` and `set_a`, rows `r` and `r_us`, references `x` and `idX`), and members may be
  called `new` or `deconstruct`: the generated text does not compile.
- C54: lists of one name inside two lists, or inside a list of that name, become the same struct.
- C54: rows `foo_1` and `foo1`, `foo__bar` and `foo_bar` become the same variant.
- C54: names that are words of Rust, `_`, and ids of rows, which may be any text, are used as
  identifiers; quotation marks in ids end the literals they are put in.
- C54: a table without rows, an enum without references, a reference that may be null to a table
  that is not there, and a member `from` of a table give text that does not compile.
- C55: a folder that was opened with one source is silently opened with that source again when
  another one is asked for (`save_cache_map.rs` does not compare; histories do).
- C55: a forced update does not read the source again: the process keeps what it read first.
- C55: a source that is edited after it was read puts its new archive into the folder of its old
  hash; files saved there are differences to the old version and are loaded as other documents.
- C55: a source that panics poisons the maps: all folders of the process panic from then on.
- C55: a folder has one lock and one source per spelling of its path.
- C56: folders in the folder of a version are listed as files.
- C56: an error before the first folder of a version fails the listing, the same error after it
  is passed over: whether an unreadable folder is reported depends on the order of `read_dir`.
- C56: a folder of another program with a name of 32 bytes, such as 32 times `A`, ends the
  program (the panic of C23).
- C57: `queued_threads` counts the thread that has the lock, not those that wait for it: it is 0
  before threads begin and between two of them, and never more than 1.
- C57: threads are not served in order, so the document saved first can be the one that remains.
- C57: loading takes no lock, and a save empties the file before it writes: a load meanwhile
  reads an empty file.
- C57: a document whose difference panics (C14) poisons the lock of the folder: later saves panic
  too and their callbacks are never called.
- C58: texts, integer arrays and binaries are compared by address.  A document that is loaded
  twice and not changed gives a difference that holds all of them; the difference of a document
  with itself is 5 bytes.
- C59: an object whose items were moved is saved without an error; the file loaded again has the
  old order.
- C59: after an item was inserted and removed again, the document that is loaded gives another id
  to the next item than the one that was saved.
- C60: making a copy is visible to the original: a list that is empty while a copy exists starts its
  ids at 0 again when it is written.
- C60: an item that was got before the copy was made (generated items are `Copy` and have no
  lifetime) writes into the copy, too.
- C60: `contents_eq` is false for equal documents whose texts were written one by one, and true for
  documents whose items are in another order.
- C61: of two rows of a table with the same `ID` only the last is kept; the source is not refused.
- C61: `ID: 3`, as the manual writes it (efficiency.md), is refused although the message asks for a
  string or a number; only `ID: 3.0` is accepted. Fractions, negative numbers and NaN are accepted and
  rounded to a natural number.
- C61: `["NextID", -1]` sets the next id to 2^64 - 1.
- C61: in a definition or an item inside a list the members "v" and "v?" are the same; the last
  replaces the first.
- C61: an empty `Enum` before a `Ref` is dropped, after it it is an error.
- C61: everything after `"__InnerMutUndefined"` is ignored.
- C62: beyond 2^53 bytes the rounded averages decide otherwise than exact ones, in both directions. Below
  a total size times number of files of 2^51 they never do, so this is of no practical importance.
- C63: members of lists are numbered in the order in which a hash map is iterated, and diff files
  contain the numbers. The hash of the source does not depend on this order. If a program is built with
  another version of the standard library or for another architecture so that the order changes, files
  saved before are loaded with the values of one member given to another, without an error
  (C63_order_refuted; FnvHashMap has a fixed hash function, so within one build the order is stable).
- C64: an item of a list with `Enum: { "t?": null }` may say `Enum: { t: null }`. Validation accepts it
  (one variant, null is allowed), and the generated `get_enum` panics, since it unwraps the first variant
  that has a value (C64_enum_refuted). Likewise the generated functions panic on defaults that validation
  does not look at: null without a mark, references to rows that do not exist (C64_null_refuted,
  C64_default_refuted).
- C66: ids of rows are not checked: a row called `\` is loaded, and the generated text has no
  tokens at all.
- C67: in a document with a member `from` (C54) no program that belongs to the declarations
  passes: the methods of rows call it instead of the conversion.
- C78: the generated items derive `Copy` (`mitem_source.rs` L36), and `MItemConst` implements `Deref`
  (`mlist_const.rs` L83-89). So safe code that has only `&RootIntf` may write
  `{ *root.list().get_item(0).unwrap() }.set_x(7)` and change the document behind a shared reference
  (C78_copied, C78_refuted). The signatures of the accessors alone do not show this (C78_signature).
- C43: the items of inner lists are adjusted with the definition of the outer list
  (`adjust_mut_list_item_sabun.rs` L53), so their values are lost, or, where the outer
  definition has an inner list that can be undefined, the document cannot be moved at all,
  not even to the same definitions.
- C43: members of lists that can be undefined become undefined although both versions have
  them (the root checks for this, lists do not).
- C43: validation accepts nulls in the root that the new version does not allow; the generated
  reader of such a member panics (`C76_null_case`).
- C43: the next id of a list without items becomes 0.
- C43: adding an Enum variant that can be undefined makes old items invalid.
- C43: a value whose member has become a list is dropped without a report.
- C51: the members of a list are numbered in the iteration order of a hash map, which is not
  part of the source. Diff files contain these numbers.
