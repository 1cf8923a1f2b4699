# A formal model of dill in Rocq (Coq)

Code: `/repo` (uqfoundation/dill, pinned commit), Python, read as text, never run.
Proof assistant: Coq 8.16.1, standard library only. (This file is generated by `tools/design.py`
from `tools/design_head.md`, `tools/design_how.txt`, `tools/design_areas.md` and the claim table;
MANIFEST.json and properties.jsonl are generated by `tools/manifest.py` and `tools/props.py`.)

## Layout and conventions

`rocq/theories/` holds one group of files per area of the code:

* `XModel.v` – executable Gallina functions, one per Python function, each with a comment citing the
  lines modelled and the simplifications made; no proofs.
* `XSpec.v` – the independent specification, when it is more than a few lines; otherwise the
  specification definitions stand just above the theorem that uses them.
* `XProofs.v` (and `CoreSim`, `CoreStep`, `CoreReduce`, `CoreObj`, `CoreProc`, `CoreMain`, `CoreReach`,
  `CoreTerm`, `CoreTotal` for the pickling core) – lemmas.
* `XProps.v`, `XExamples.v` – the property theorems, and beside each an `Example` showing a concrete,
  non-trivial case that meets its hypotheses.
* `PyDict.v` – Python dictionaries as insertion-ordered association lists with unique keys.

A theorem is named after its property (`C17_...`). Where the code violates the property as stated, a
theorem `C.._refuted` gives the witness (or the class of all witnesses), and the strongest true statement
that could be proved carries the suffix `_partial`; the property is then `partial` in MANIFEST.json. A
theorem without suffix inside a partial claim is exact (it says what the code does, in all cases).

Theorems have been tested against wrong programs: `seeded/LOG.jsonl` lists, for each seeded bug, the
definition edited, the claim it breaks, the theorems that failed and the theorems tightened because of it.

## Trusted base

* Coq's kernel (8.16.1) and `coqc`. No kernel check is switched off; no axioms, no `Admitted`, no functors,
  no plugins.
* `Print Assumptions` on every theorem listed in MANIFEST.json says "Closed under the global context":
  `ASSUMPTIONS.txt`, written by `tools/assumptions.py`, has the line for each. (The `library_axioms`
  vcheck reports, `Coq.ssr.ssrunder.Under_rel.*`, are the fields of a module type inside the standard library's
  ssreflect, loaded by `Lia`'s dependencies; no theorem here depends on them.)
* The reading of the Python code. The model is written by hand; each definition cites what it models, and
  the simplifications are stated there and collected below.
* The facts about CPython that the models take over: pickle.py 3.11 (pickler, unpickler, framing, opcodes),
  `open`/`os.open`/`os.fdopen`, `_thread` locks, `type.__new__` and the C3 linearisation,
  `collections.namedtuple`, `warnings` filters, `logging`, `dis`, weak reference reprs. Each is stated
  where it is used.

## Properties

**C01 — loads(dumps(x)) rebuilds the whole object graph** (proved). Pickler and unpickler over object heaps at the level of opcodes (`CoreModel`); isomorphism of graphs in `CoreSpec`. A simulation: for every call of `save`, running the opcodes written pushes the copy and extends the correspondence (induction on the recursion depth, invariants on memo, postproc stack and heap). `C01_total`: with acyclic construction order and definable functions and classes the dump also succeeds within a computed recursion depth. Bytes (`BytesModel`): encoder and decoder of every opcode, memo renumbering by memoized names, framing; `lex` inverts `enc` for every opcode, and the byte loader simulates the opcode machine.
Theorems: `C01_total`, `C01_roundtrip`, `C01_roundtrip_stream`, `C01_bytes`, `C01_written`, `C01_encoded`. C01_total: of the opcodes; C01_bytes: of the bytes (decimal, two's complement, UTF-8, memo and framing of every protocol; compared with CPython's own output in cpython_bytes), C01_written: every successful dump of a graph with ASCII names can be written, booleans, floats (from protocol 1) and bytes (from protocol 3; before, a reduce value) included; C01_encoded: fewer than 2^31 opcodes with constants the format can hold have bytes; a set's elements keep their order and identity; instances with list items reachable from their own class or arguments excepted, see C56.

**C02 — recursive closures are tied to the copy, empty cells stay empty** (proved). Corollary of C01: paths in the source graph and in the copy lead to corresponding objects.
Theorems: `C02_paths`, `C02_closure_cells`.

**C03 — the result does not depend on the pickle protocol** (proved). Corollary of C01: composition of isomorphisms.
Theorems: `C03_protocol_independent`, `C03_iso_compose`, `C03_bytes`.

**C04 — a truncated pickle never loads** (proved). STOP is the last opcode written and only there; the machine yields a value only at STOP. Bytes: reading is monotone in what follows, so a prefix that loaded would make the whole pickle leave bytes unread.
Theorems: `C04_bytes`, `C04_prefix_never_loads`. C04_bytes: cut anywhere in the bytes; C04_prefix_never_loads: between opcodes.

**C05 — pickles written one after another are read back one after another** (proved). Same invariant, induction over the list of dumps.
Theorems: `C05_bytes`, `C05_sequence`, `C05_load_leaves_rest`.

**C06 — functions that shared a globals dictionary still share it** (partial). Same model; witness for copied globals, equality of module dictionaries for the others.
Theorems: `C06_module_globals_partial`, `C06_copied_globals_refuted`. REFUTED: functions sharing a dictionary that is not a module's get separate copies (C06_copied_globals_refuted, example ex_C06); proved for module dictionaries.

**C07 — dumps terminates on every well-founded graph** (proved). `save` with the recursion depth as fuel; measure (objects not in the memo, rank in the construction order).
Theorems: `C07_depth`, `C07_only_depth`, `C07_cell_needs_itself`. Dumps never runs out of a recursion budget computed from the number of reachable objects when the must-be-built-first relation is acyclic; C07_cell_needs_itself shows the hypothesis is needed (a cell whose content is a tuple holding the cell).

**C08 — a pickle by reference always means the very same object** (proved). `NamesModel`: a store of modules and attributes, `_locate_function`, `_import_module`, `save_global`, `find_class`; case analysis, induction on dotted names.
Theorems: `C08_function_reference_denotes`, `C08_class_reference_denotes`, `C08_function_reference_loads`, `C08_class_reference_loads`, `C08_main_by_value`, `C08_locate_exact`, `C08_byref_classes`, `C08_importable_by_reference`. Loading theorem assumes names not redirected by the unpickler, parents of nested names themselves by reference (protocol<4), and inverse Python-2 tables (protocol<3).

**C09 — every class is saved by the class saver, whatever its metaclass** (proved). `DispatchModel`: the two tables and every history of pickle/register/extend calls; induction over histories.
Theorems: `C09_dispatch_lookup`.

**C10 — extend(False) undoes extend(True)** (partial). `DispatchModel`: the two tables and every history of pickle/register/extend calls; induction over histories.
Theorems: `C10_revert_exact`, `C10_revert_partial`, `C10_revert_refuted`. REFUTED in full generality (user-registered savers stay in pickle's table) by C10_revert_refuted; exact behaviour C10_revert_exact; proved for dill's own savers by C10_revert_partial.

**C11 — explicit keyword beats settings, settings beat built-in defaults, at call time** (proved). `SettingsModel`: settings and keyword arguments as records; every call decided by its effective arguments.
Theorems: `C11_dump`, `C11_load`, `C11_copy`, `C11_dump_module`, `C11_pickler_fixed`, `C11_defaults`.

**C12 — class lookup on load redirects only the documented names** (proved). `NamesModel`: a store of modules and attributes, `_locate_function`, `_import_module`, `save_global`, `find_class`; case analysis, induction on dotted names.
Theorems: `C12_find_class_plain`, `C12_find_class_plain_old`, `C12_find_class_redirected`, `C12_load_repoints`.

**C13 — function attributes survive** (partial). `FuncModel`: the tuple stored, FunctionType, BUILD; every attribute of the copy computed.
Theorems: `C13_attributes`, `C13_qualname_partial`, `C13_qualname_refuted`, `C13_doc_refuted`, `C13_type_params_refuted`. Every attribute of the copy is given exactly; REFUTED for __qualname__ on 3.11+ when __qualname__ == __name__ but the code has another qualified name, for __doc__ = None when the code has a docstring, and for __type_params__.

**C14 — code objects round-trip on every supported Python version** (proved). `CodeModel`: the six layouts of CodeType, the argument tuples and `_create_code`'s matching; for all field values and all 36 pairs.
Theorems: `C14_same_version`, `C14_version_detected`. All six CodeType layouts.

**C15 — code objects keep their meaning across Python versions** (proved). `CodeModel`: the six layouts of CodeType, the argument tuples and `_create_code`'s matching; for all field values and all 36 pairs.
Theorems: `C15_across_versions`, `C15_common_fields`, `C15_text_fields`. All 36 ordered pairs of layouts.

**C16 — line-number tables are never handed over in the wrong format** (partial). `CodeModel`: the six layouts of CodeType, the argument tuples and `_create_code`'s matching; for all field values and all 36 pairs.
Theorems: `C16_line_table_partial`, `C16_lnotab_as_linetable_refuted`, `C16_linetable_as_lnotab_refuted`, `C16_linetable_as_lnotab_37_refuted`. REFUTED for 3.8/3.9 to 3.10+, 3.10 to 3.8/3.9, and 3.10 to 3.7 with an empty co_lnotab; proved for every other pair. The linetables of 3.10 and 3.11+ count as one format.

**C17 — attribute lookup on a rebuilt class is unchanged** (partial). `ClassModel`: class dictionaries, C3 linearisation, type.__new__'s own entries, slots and name mangling; lookup lemma by induction on the hierarchy.
Theorems: `C17_single_inheritance_partial`, `C17_multiple_inheritance_partial`, `C17_unshared_names`, `C17_exact`, `C17_new_classes_ok`, `C17_multiple_bases_refuted`, `C17_diamond_refuted`, `C17_hash_refuted`. REFUTED for multiple inheritance (entries identical to a direct base's are dropped although another class comes first in the MRO) and for __hash__ next to __eq__; proved for single inheritance of any depth and, with any inheritance, for names not dropped; C17_exact says exactly when an inherited or defined name is found as before, for every hierarchy.

**C18 — rebuilt classes keep their slots** (partial). `ClassModel`: class dictionaries, C3 linearisation, type.__new__'s own entries, slots and name mangling; lookup lemma by induction on the hierarchy.
Theorems: `C18_slots_kept_partial`, `C18_private_slots_refuted`. REFUTED: no class with a private slot can be loaded; proved for all others.

**C19 — a namedtuple class comes back with its own fields** (partial). `NamedtupleModel`.
Theorems: `C19_fresh_partial`, `C19_importable_same`, `C19_name_taken_refuted`, `C19_rename_refuted`, `C19_methods_refuted`. REFUTED when the name leads to another class or module at load time, and for fields made by rename=True; proved when the name is free.

**C20 — HANDLE_FMODE reopens the file by name and mode** (proved). `FilesModel`: a file system of plain files, open modes, positions, `_create_filehandle`; case analysis over modes, for all contents and positions.
Theorems: `C20_handle_reopens`, `C20_reported_mode`. Mode is the one the handle reports: a handle opened w+b reports rb+.

**C21 — CONTENTS_FMODE never destroys existing data and clamps the position** (proved). `FilesModel`: a file system of plain files, open modes, positions, `_create_filehandle`; case analysis over modes, for all contents and positions.
Theorems: `C21_existing_files_unchanged`, `C21_position`, `C21_existing_loads`, `C21_missing_created`. Text positions are taken to be byte offsets.

**C22 — FILE_FMODE restores contents, mode and position** (partial). `FilesModel`: a file system of plain files, open modes, positions, `_create_filehandle`; case analysis over modes, for all contents and positions.
Theorems: `C22_contents_restored_partial`, `C22_loads_partial`, `C22_contents_exact`, `C22_dumps`, `C22_wb_refuted`, `C22_wb_always_refuted`, `C22_x_refuted`, `C22_newlines_refuted`. REFUTED for mode wb (file emptied, TypeError), for x modes (always UnpicklingError) and for contents with carriage returns; proved for every other mode and text contents without carriage returns. C22_contents_exact: for all text contents the file gets them with line feeds for line ends; C22_dumps: which handles can be dumped.

**C23 — standard streams and errors of file handles** (proved). `FilesModel`: a file system of plain files, open modes, positions, `_create_filehandle`; case analysis over modes, for all contents and positions.
Theorems: `C23_standard_streams`, `C23_errors`, `C23_missing_reads_temporary`, `C23_closed_stream_closes`, `C23_strictio_refuted`. Also shown: a standard stream that was closed when pickled closes the loading process's stream; with strictio a missing file raises FileNotFoundError.

**C24 — locks come back in the same state and usable** (partial). `LocksModel`: lock states and owner threads.
Theorems: `C24_lock_copy`, `C24_rlock_saved_state`, `C24_rlock_copy_partial`, `C24_unlocked_rlock_refuted`. REFUTED for unlocked RLocks (copy can never be acquired) by C24_unlocked_rlock_refuted; proved for Lock and for RLocks owned by the loading thread.

**C25 — session files are never opened through a symlink** (proved). `SafeOpenModel`: one path with adversary moves before and between system calls; for all schedules.
Theorems: `C25_write_never_through_symlink`, `C25_read_never_through_symlink`, `C25_no_nofollow_partial`, `C25_no_nofollow_refuted`. On systems with O_NOFOLLOW; without it there is a race: C25_no_nofollow_refuted.

**C26 — session files written by dill are private** (partial). `SafeOpenModel`: one path with adversary moves before and between system calls; for all schedules.
Theorems: `C26_created_private_partial`, `C26_existing_keeps_mode_refuted`. A new session file is 0600 less the bits of the umask; REFUTED for an existing file, which keeps its mode.

**C27 — the module name in a session file is identified without consuming it** (proved). `IdentifyModel`: bytes of the session header for every protocol, `pickletools.genops` on the peeked bytes; printer/parser lemma over UTF-8 and raw-unicode-escape.
Theorems: `C27_identify`, `C27_not_consumed`, `C27_first_256`, `C27_unpeekable`, `C27_any_pickle`, `C27_any_case`, `C27_buffer_boundary_refuted`. Byte level, all protocols, UTF-8 and raw-unicode-escape included; C27_buffer_boundary_refuted: a buffered reader whose buffer ends inside the header is refused although the header is within 256 bytes; sessions of dill._dill itself not covered.

**C28 — load_module refuses a mismatched module and leaves no trace in sys.modules** (proved). `LoadModel`: sys.modules and failures as values; every path through load_module and load_module_asdict.
Theorems: `C28_valueerror_iff_mismatch`, `C28_refused_unchanged`, `C28_sysmodules`, `C28_no_runtime_entry_left`, `C28_loads_module_object`, `C28_creates_module_object`, `C28_loads_imported_module`, `C28_unidentified`, `C28_unpeekable_unchecked`, `C28_stale_module_refuted`, `C28_runtime_entry_deleted_refuted`. The two _refuted theorems show why the statement excludes stale module objects and pre-existing __runtime__ entries.

**C29 — load_module_asdict leaves sys.modules and the live module untouched** (partial). `LoadModel`: sys.modules and failures as values; every path through load_module and load_module_asdict.
Theorems: `C29_sysmodules_restored_partial`, `C29_returns_saved_contents_partial`, `C29_runtime_session_refuted`, `C29_submodule_refuted`, `C29_update_imports_refuted`. Proved for update=False and sessions of top-level importable modules; REFUTED for sessions of module-type objects (always KeyError), submodules (loaded into the live module) and update=True.

**C30 — refimported sessions restore every name** (proved). `StashModel`: induction on the namespace, on top of NamesModel.
Theorems: `C30_each_name_once`, `C30_restored`, `C30_stored_name`, `C30_stored_as`. Restoring in the same interpreter state; __builtins__ and __loader__ are never saved; names with dots and redirected module names excluded by sane_world.

**C31 — a failed dump_module does not lose the previous session** (partial). `DumpModuleModel`: the file's content at each failure point.
Theorems: `C31_dump_module_effect_partial`, `C31_outcome`, `C31_stream_outcome`, `C31_stream_not_closed`, `C31_previous_session_lost_refuted`. Exact effect proved; REFUTED: a failed dump truncates the previous session.

**C33 — globalvars finds exactly the globals a function needs** (partial). `GlobalsModel`: code objects as trees, functions and namespaces as graphs, fuel for the recursion; induction, with the line format of dis in `GlobalsLine`.
Theorems: `C33_bindings`, `C33_complete`, `C33_methods`, `C33_sees_partial`, `C33_closed_partial`, `C33_only_used`, `C33_names_read`, `C33_class_body_refuted`, `C33_closure_shadows_builtin_refuted`. REFUTED for globals read in a class body inside the function (missed) and for a builtin shadowed by a global of another module's function in the closure; exact for functions of one module.

**C34 — globalvars terminates** (partial). `GlobalsModel`: code objects as trees, functions and namespaces as graphs, fuel for the recursion; induction, with the line format of dis in `GlobalsLine`.
Theorems: `C34_terminates_partial`, `C34_cycles_refuted`, `C34_mutual_recursion_refuted`, `C34_inner_recursion_refuted`. REFUTED for mutually recursive functions and recursive inner functions; terminates when no infinite chain of references starts at the function, global self-recursion allowed.

**C35 — freevars and nestedcode report exactly what is there** (proved). `GlobalsModel`: code objects as trees, functions and namespaces as graphs, fuel for the recursion; induction, with the line format of dis in `GlobalsLine`.
Theorems: `C35_freevars`, `C35_nestedcode`, `C35_nestedcode_depth_one`, `C35_nestedglobals`.

**C37 — parents/children return a shortest reference chain** (partial). `ChainModel`: breadth-first search over any reference graph; search invariant.
Theorems: `C37_find_chain`, `C37_start_matches`, `C37_parents`, `C37_children`, `C37_parent`, `C37_none_refuted`. Proved for every object but None, every graph, predicate and depth, with termination; REFUTED for children(None, ...), whose chain leaves None out.

**C38 — parents/children honour their documented arguments and order** (partial). `ChainModel`: breadth-first search over any reference graph; search invariant.
Theorems: `C38_children_ignore_partial`, `C38_parents_ignore_refuted`, `C38_ignored_parent_found_refuted`, `C38_children_single_ignore_refuted`, `C38_parents_order_refuted`, `C38_children_order_refuted`. REFUTED: parents does not use its ignore argument, a single object with a length is not ignored, and the documented orders are reversed; proved: children never goes through an object in a tuple passed as ignore.

**C39 — pickles() tells the truth** (partial). `PicklesModel`: exceptions as values, warning filters as a list.
Theorems: `C39_true`, `C39_exact_partial`, `C39_all_refuted`, `C39_accepts`, `C39_answer`, `C39_answer_all`, `C39_copy_fails`, `C39_escapes`. REFUTED for objects with an all() method (arrays): exact=True compares only the two values of all(); everything else proved.

**C40 — pickles() leaves the warning filters as they were** (partial). `PicklesModel`: exceptions as values, warning filters as a list.
Theorems: `C40_filters_iff`, `C40_unchanged_partial`, `C40_user_filter_lost_refuted`, `C40_filter_left_refuted`. Exact condition proved; REFUTED when the user has the filter ('ignore', None, Warning, None, 0) or == raises.

**C41 — baditems lists exactly the items that fail to pickle** (partial). `PicklesModel`: exceptions as values, warning filters as a list.
Theorems: `C41_only_failing`, `C41_all_failing_partial`, `C41_once`, `C41_single`, `C41_equal_to_none_refuted`. REFUTED for failing items that compare equal to None after a good item; proved for all others, each class of equal items once and in order (C41_once).

**C42 — indent then outdent is the identity** (partial). `IndentModel`: strings as lists of code points; induction on lines.
Theorems: `C42_inverse_partial`, `C42_exact`, `C42_exact_case`, `C42_indent`, `C42_less_indented_refuted`, `C42_leading_newline_refuted`. REFUTED when a line is less indented than the first or the code starts with an empty line; proved for all other code indented without tabs, any n; C42_exact gives the exact condition (a line with no indentation at all does no harm).

**C43 — outdent removes only leading whitespace** (partial). `IndentModel`: strings as lists of code points; induction on lines.
Theorems: `C43_outdent_partial`, `C43_text_partial`, `C43_first_line_partial`, `C43_indented`, `C43_exact`, `C43_text_iff`, `C43_one_tab`, `C43_tabs_refuted`. REFUTED for code indented with tabs, which loses text; proved for everything else; C43_exact gives the result for every code (as many characters as columns), C43_text_iff says exactly when text is lost.

**C44 — dump_source/load_source agree on the object's name** (partial). `TempModel`: sources as strings, standard streams and programs.
Theorems: `C44_name_partial`, `C44_dumped_alias`, `C44_dumped_own_name`, `C44_alias`, `C44_no_name_partial`, `C44_latin1_refuted`, `C44_unicode_refuted`, `C44_unnamed_refuted`. Proved for ASCII source and names; REFUTED for any other character (written in Latin-1, read in UTF-8) and for objects getname cannot name (loaded as None).

**C45 — capture always restores the stream** (proved). `TempModel`: sources as strings, standard streams and programs.
Theorems: `C45_restored`, `C45_captured`, `C45_exception`, `exec_spec`. One thread; the captured text is characterised for programs that do not assign sys.<stream> themselves, restoration for all.

**C47 — change detection is exact** (partial). `DiffModel`: depth-first search with a cache over any object graph.
Theorems: `C47_exact_partial`, `C47_unchanged`, `C47_force_rerecords`, `C47_unforced_keeps`, `C47_recorded`, `C47_has_changed_total`, `C47_memorise_total`, `C47_hidden_refuted`, `C47_stale_refuted`. REFUTED as stated: changes outside __dict__ and items are not seen (C47_hidden_refuted), and a child memorised earlier keeps its old record (C47_stale_refuted). Proved, for all graphs with cycles: if the memo was up to date when memorise(obj) was called, has_changed(obj) is true exactly if an object then reachable has had an attribute or its items changed; both calls terminate on every finite graph.

**C48 — the trace is a correctly nested tree** (partial). `TraceModel`: call trees of the pickler, frames and file positions; induction on trees.
Theorems: `C48_nested`, `C48_bytes`, `C48_transparent`, `C48_columns`, `C48_pipe_refuted`. Proved for every tree of save calls, framing, large objects and failed dumps, for files with a working tell or none; REFUTED for a file whose tell raises OSError (a pipe): tracing makes the dump fail.

**C49 — trace context managers restore level and handlers** (partial). `TraceModel`: call trees of the pickler, frames and file positions; induction on trees.
Theorems: `C49_handlers_partial`, `C49_level_partial`, `C49_level_program`, `C49_redirect`, `C49_redirect_reaches`, `C49_redirect_exact`, `C49_context_exact`, `C49_switch`, `C49_nested_refuted`, `C49_notset_refuted`, `C49_no_stderr_refuted`, `C49_reentered_refuted`. Proved: the set of handlers (if stderr's is among them) and the effective level are restored by every nesting; REFUTED: inside an outer redirection an inner one turns stderr on again, the logger's own NOTSET level becomes an explicit one, a missing stderr handler is installed, one manager entered twice leaks its handler and level.

**C50 — the size suffix shows the right unit** (partial). `TraceModel`: call trees of the pickler, frames and file positions; induction on trees.
Theorems: `C50_small_partial`, `C50_unit_refuted`, `C50_huge_refuted`. REFUTED: every size from 1 KiB to 1 PiB is shown with a unit 1024 times too large, and from 1 PiB on formatting raises IndexError; proved below 1 KiB (the logarithm taken as exact).

**C51 — a named capsule is found by its name** (partial). `CapsuleModel`.
Theorems: `C51_found_partial`, `C51_valid`, `C51_not_capsule_partial`, `C51_exact`, `C51_submodule_refuted`, `C51_class_attr_refuted`. REFUTED for every name with two or more dots unless the package happens to have the same attribute; proved for names with one dot; C51_exact gives the whole behaviour.

**C53 — cached functions, dictionary views, weak references keep their configuration** (partial). `WeakModel` on top of the core: corollaries of C01 with strong reachability.
Theorems: `C53_weakref`, `C53_weakproxy`, `C53_view`, `C53_lru_cache`, `C53_view39_shows`, `C53_lru38_refuted`, `C53_view39_refuted`. Proved for Python 3.10 and later; REFUTED on 3.8 (typed is lost) and before 3.10 (the view is of another dictionary). The target of a proxy is found by _proxy_helper, see C55; attributes added to the wrapper are not saved.

**C54 — only __main__'s own dictionary loads as __main__'s dictionary** (partial). `CapsuleModel`.
Theorems: `C54_module`, `C54_same_partial`, `C54_main`, `C54_copy_refuted`. REFUTED: the comparison is ==, an equal copy loads as __main__.__dict__; proved for other modules (identity) and if no other dictionary equals __main__'s.

**C55 — a weak proxy is pickled with the object it refers to** (partial). `ProxyModel`: strings and addresses.
Theorems: `C55_target_partial`, `C55_ordinary_str`, `C55_ordinary_case`, `C55_default_str`, `C55_dead`, `C55_not_proxy`, `C55_str_refuted`, `C55_untracked_refuted`, `C55_class_at_refuted`. REFUTED: a str() ending in a hexadecimal number is taken for the address (another object, or ReferenceError), an untracked target (a code object) is not found, a class named 'at' gives ValueError; proved for the inherited str() and for every str() that is not a number.

**C56 — the items of list-like and dict-like instances come back once each** (partial). The core model; corollary of C01 at instances, and a witness for the condition.
Theorems: `C56_items_partial`, `C56_items_twice_refuted`. REFUTED: an instance of a list subclass that its by-value class refers to (through a method's closure) comes back with its items twice, under every protocol; proved for key-value items always, and for list items if the instance is not reachable from its class or constructor arguments.

**C57 — a class saved by value keeps its bases** (partial). `BasesModel`: class statements, `types.new_class`, resolve_bases over C3 orders; the copy's bases are computed exactly, the general refutation follows from the order of definition.
Theorems: `C57_bases_kept_partial`, `C57_exact`, `C57_subclass_of_generic_refuted`. REFUTED: hasattr(obj, '__orig_bases__') is true of every subclass of a class written with an alias, e.g. class D(C) with class C(Generic[T]): the copy of D has C's bases and does not inherit from C; proved for classes that have __orig_bases__ themselves or do not inherit it.

**C58 — A module pickles by name if installed, with its contents if it is the user's** (partial). ModuleModel models the classification by file, the two reduce forms and BUILD on a module; the process (sys.modules, attributes) is the env of NamesModel; proofs by unfolding and the dotted-name lemmas
Theorems: `C58_installed_by_name`, `C58_dill_module`, `C58_user_with_contents`, `C58_runtime_name`, `C58_load_reverts`, `C58_prefix_refuted`, `C58_unregistered_refuted`, `C58_shadowed_refuted`. REFUTED: (1) a file belongs to the interpreter if its path starts with the characters of sys.prefix, so /usr2/project.py counts as installed under /usr and its contents are not saved (C58_prefix_refuted); (2) a module object that is not the registered one loads as the registered one or fails to import (C58_unregistered_refuted); (3) a class in the package with the submodule's name is loaded in its place (C58_shadowed_refuted). Proved: both halves of the statement for registered modules that are attributes of their packages; a load overwrites later changes of the same names (C58_load_reverts). Not modelled: how the values are copied (the copying is a parameter), PyPy branch, _main_modified..

**C59 — A slot or C descriptor comes back as its own class's entry** (partial). DescrModel: the repr of a descriptor, split at quotes, evaluation of a dotted name in a namespace, the fallbacks; proofs by induction on strings and paths
Theorems: `C59_own_entry_partial`, `C59_user_class`, `C59_other_class_refuted`, `C59_same_name`. REFUTED: the class's name is evaluated in dill's module first, so a class of the user's called int with a slot real comes back with the descriptor of the builtin int (C59_other_class_refuted). Proved: its own entry if the name means nothing in dill's module, or something without such an entry, or the class itself (C59_own_entry_partial); always an entry of that name (C59_same_name). Not modelled: Python 3.15 branch, non-ASCII names..

**C60 — Properties, static and class methods come back working and documented** (partial). DescrModel: property_init, property_copy, the __doc__ of property and abstractproperty, functools_wraps, and the reduce forms dill writes; induction on how a property was made
Theorems: `C60_functions`, `C60_doc`, `C60_doc_later`, `C60_getter_refuted`, `C60_none_refuted`, `C60_abstract_refuted`, `C60_wrapper_function`, `C60_wrapper_attributes`, `C60_wrapper_lost_refuted`. REFUTED: p.getter(g) of the copy keeps the old getter's documentation where the original takes g's (C60_getter_refuted); __doc__ set to None comes back from the getter (C60_none_refuted); abstractproperty with a documented getter gets the class's documentation (C60_abstract_refuted); attributes set on a staticmethod or classmethod object are lost (C60_wrapper_lost_refuted). Proved: functions, documentation of every property made by property() and getter/setter/deleter, also after setter/deleter on the copy; attributes of wrappers nobody changed. CPython 3.11's rules..

**C61 — check() tells whether another interpreter can load the pickle** (partial). CheckModel: str.split, repr of bytes, reading of a bytes literal, exec with a limit; the round trip of one byte by cases on its 8 bits, of a string by induction
Theorems: `C61_command_partial`, `C61_verdict_partial`, `C61_dump_failed`, `C61_silent`, `C61_space_refuted`, `C61_large_refuted`. REFUTED: with a space in the path of the interpreter another command is run (C61_space_refuted); a pickle longer than the system's limit for an argument makes check raise (C61_large_refuted). Proved for every byte string and every path without white space: the words of the command, the exactness of the literal, the verdict. Octal escapes of bytes literals, which repr does not write, are refused by the model's reader..

**C62 — badobjects, badtypes and errors report exactly what fails, to the depth asked for** (partial). DetectModel: the three functions over an abstract program; induction on the depth, with bad paths as the specification
Theorems: `C62_badobjects`, `C62_badobjects_top`, `C62_badtypes`, `C62_reports`, `C62_raising_attribute_refuted`, `C62_errors`, `C62_errors_top`, `C62_disagree_refuted`. REFUTED: an attribute that raises makes badobjects and badtypes raise (C62_raising_attribute_refuted); errors is not None for an object that pickles, if its copy has another type of the same repr, as instances of classes in __main__ do (C62_disagree_refuted). Proved: the exact contents of the reports at every depth, badtypes as the image of badobjects, errors' top level exactly. getattr, dir and pickles are taken to give the same answer when asked again..

**C63 — Builtin types pickle by name and come back the same** (partial). TypemapModel: the tables as dictionaries, the inversion as a fold; induction on the table
Theorems: `C63_same_python`, `C63_name_is_own`, `C63_other_python`, `C63_late_refuted`. REFUTED for the type of capsules: it is added to the table of names after the table was inverted, so it is not saved by its name (C63_late_refuted). Proved for every other entry, whatever aliases there are, and for other Pythons..

**C64 — Ranges come back with the same start, stop and step** (partial). RangeModel: repr of a range in decimal, the evaluation of the text; number of digits related to powers of ten via Coq's Decimal
Theorems: `C64_range`, `C64_long_refuted`, `C64_long_load_refuted`. REFUTED for numbers with more digits than sys.get_int_max_str_digits() (4300): dumps, or loads in a process with a lower limit, raises. Proved for all numbers |z| < 10^limit..

**C65 — Mapping proxies and dictionary views keep showing their mapping** (partial). MapProxyModel: the dispatch of the | operator with a helper of a subclass of dict, a heap of mappings, later item assignments
Theorems: `C65_contents`, `C65_untouched`, `C65_live_partial`, `C65_copy_refuted`, `C65_class_refuted`, `C65_no_copy_refuted`. REFUTED: for OrderedDict, defaultdict, UserDict, ChainMap and subclasses of dict the proxied mapping is a copy, so the copied proxy does not follow the copied mapping (C65_copy_refuted), for subclasses of dict it is a plain dict (C65_class_refuted); before Python 3.9 always a copy, and mappings without copy() fail (C65_no_copy_refuted). Proved: contents always, liveness for dict and for classes without | on dictionaries, no mapping changed..

**C66 — getimport gives a statement that imports the object** (partial). the text of the statement is produced by the model and run by a small interpreter of import statements (words split at spaces) over the NamesModel environment; induction on the length of the path
Theorems: `C66_longest`, `C66_constants`, `C66_none`, `C66_ellipsis_class`, `C66_forced`, `C66_unnamable`, `C66_unnamable_elsewhere`, `C66_own_object_partial`, `C66_builtin_partial`, `C66_module_partial`, `C66_verified_refuted`, `C66_collision_refuted`. REFUTED: with verify=True, when no part of the path provides the name (a function inside a function) the failing statement for the first part is returned (C66_verified_refuted, for every such tree); when a shorter package has another object of that name the statement binds that one (C66_collision_refuted). Proved for every module tree: the statement is the one for the longest providing part and binds exactly the target name to what it provides; an object where its namespace says is bound; builtins and top-level modules. The namespace (_namespace) and repr-derived name are parameters..

**C67 — dumpsource gives text that rebuilds the object** (partial). the text is produced by the model and run by a small interpreter of the statements it consists of (def, import, assignment, call, del, return) that parses the literal with CheckModel's reader; induction on the bytes for the literal, on lines for splitting and indenting
Theorems: `C67_enclosed_partial`, `C67_raises`, `C67_open_partial`, `C67_new_partial`, `C67_new_same_module_partial`, `C67_new_ignored`, `C67_new_length_refuted`, `C67_new_data_refuted`. REFUTED for new=True: the module's name is replaced within the bytes of the pickle but not its length (C67_new_length_refuted), and in unrelated data (C67_new_data_refuted); with enclose=True new is ignored (C67_new_ignored). Proved for every pickle and namespace: the exact effect of running the text with enclose=True and False, that it raises if the pickle does not load, and what new=True loads; the alias is not a keyword nor the name of the enclosing function (which is unbound). Text of the class (getsource) is left out of the new=True theorems..

**C68 — findsource finds the definition** (partial). the regular expressions as recognisers on strings with specifications as decompositions of the line; inductions on lines; the sort of candidates as a minimum in the order of tuples
Theorems: `C68_code`, `C68_function_partial`, `C68_history_partial`, `C68_history_decorated_partial`, `C68_class_toplevel_partial`, `C68_class_none`, `C68_class_nested_partial`, `C68_class_unique_partial`, `C68_async_refuted`, `C68_history_refuted`, `C68_variable_refuted`, `C68_two_functions_refuted`, `C68_tab_refuted`, `C68_docstring_refuted`. REFUTED: an async def gives an earlier function's line; in a session a later function whose name contains the name; classes: a variable classA, text of a docstring, the class of another function of the file, a tab against spaces. Proved for every text: what line is found (the nearest one above that is a def, decorator or lambda), that def/decorated/lambda functions are found where they start, the session search with its decorators, the last top-level class line, the least indented and first otherwise, IOError exactly if no line looks like the class, and that a class defined once is found. Lambdas of sessions (_matchlambda) are not modelled..

**C69 — Virtual subclasses survive a copy of the abstract base class** (partial). AbcModel: worlds of classes with MRO, bases, registry; pickles as class entries plus register calls; issubclass as an inductive relation; induction on its derivations in both directions
Theorems: `C69_kept_partial`, `C69_no_more`, `C69_others`, `C69_exact`, `C69_byref_refuted`, `C69_subclass_refuted`. REFUTED: a class saved by value that was registered with an abstract base class saved by reference (collections.abc.Sequence.register(C)) is not registered after loading (C69_byref_refuted); a class registered with a subclass that is not in the pickle is no longer a virtual subclass of the base (C69_subclass_refuted). Proved: every virtual subclass whose registrations and subclasses are in the pickle is kept, nothing is added, existing classes keep their registries, and the copy's registry exactly. No __subclasshook__; register always records; a class that overrides register is not modelled..

**C70 — A copied class has the original's attributes, whatever hooks its bases have** (partial). HooksModel: type_new's order (namespace, __set_name__, __init_subclass__ with keywords) in a world of classes, descriptors and a registry; inductions on parameters and namespaces
Theorems: `C70_loads_iff`, `C70_attributes`, `C70_kept_partial`, `C70_registry`, `C70_others`, `C70_names`, `C70_names_kept_partial`, `C70_keyword_refuted`, `C70_required_refuted`, `C70_prepare_refuted`, `C70_later_refuted`. REFUTED: the keywords of the class statement are not saved, so class C(Base, tag=5) comes back with the default (C70_keyword_refuted) or cannot be loaded (C70_required_refuted); metaclasses that need the namespace of their __prepare__, as EnumMeta, cannot create the class from a dictionary (C70_prepare_refuted); a descriptor assigned after the class statement is told its name in the copy only (C70_later_refuted). Proved: exactly when the class loads, exactly which attributes the copy has, how often it is recorded by the bases, which name each descriptor is told. Hooks are of the form 'store each parameter under its name, record the class'..

**C71 — The pickle of a function or class saved by value is self-contained** (partial). RecModel extends CoreModel with save_global where CoreModel has the failure Recursive, and the loader with undefined names; a judgement J on pickler actions (memo prefix, what is in the memo is complete or was saved by name, stack effect of the opcodes) is proved for every action by induction on the fuel; C71_by_name follows for every graph in which an object is inside what is needed to create it
Theorems: `C71_by_name`, `C71_no_name`, `C71_not_defined`, `C71_self_contained_refuted`, `C71_self_contained_refuted_function`, `C71_self_contained_partial`, `C71_extends`, `C71_own_globals_key_error`. REFUTED: a class one of whose attributes is (or contains) an instance of it or the class, or a function that is inside its own defaults, is written by name with only a PicklingWarning: the copy is created and discarded by POP, GET, and loads gives what '__main__.C' is in the loading process, or fails where it is not defined (C71_by_name: for every such object, every protocol; C71_no_name: without a name dumps fails). Proved: if no object is inside what is needed to create it, the pickle does not depend on names and loads rebuilds an isomorphic copy..

**C72 — Functions can be pickled with recurse=True from several threads** (partial). ThreadsModel: small steps of capture and nestedglobals, a schedule is a list of thread numbers; invariants over all schedules: who is inside and what its buffer holds (exclusive), a chain of saved streams (nested), a permutation (conserved)
Theorems: `C72_exclusive_partial`, `C72_one_thread`, `C72_conserved`, `C72_nested_partial`, `C72_globals_lost_refuted`, `C72_stdout_lost_refuted`, `C72_print_lost_refuted`. REFUTED: if two captures overlap, a function is pickled without its globals while the other thread gets them (C72_globals_lost_refuted); if the thread that entered first leaves first, sys.stdout stays a discarded buffer for ever and a disassembly is shown on the terminal (C72_stdout_lost_refuted); a line printed by another thread is swallowed, and read as a name if it contains _GLOBAL (C72_print_lost_refuted). Proved for any number of threads: if captures do not overlap with steps of other threads, all is right (C72_exclusive_partial), so always with one thread (C72_one_thread); if captures overlap but are nested, sys.stdout is restored (C72_nested_partial); under every schedule every printed line is in exactly one stream (C72_conserved)..

**C73 — importable gives text for the object it was asked for** (partial). ImportableModel: the loop with its two flags and the variable obj, the searches are parameters; proof by case analysis of the two rounds against an independent specification of imports and sources; the strings by induction
Theorems: `C73_ends`, `C73_import_first`, `C73_source_first_partial`, `C73_wrong_object`, `C73_refuted`, `C73_instance_class_iff`, `C73_instance_class_lost`, `C73_instance_refuted`. REFUTED: if the source of a global is not found (an open file), the variable obj has already been replaced by the dictionary of the globals, and the fallback imports that: importable(f) gives 'from builtins import dict' whatever f is (C73_wrong_object, C73_refuted). getsource strips a set of characters where a prefix is meant: for every class whose name has an underscore the text that is evaluated is not the expression for the class (C73_instance_class_iff: exactly those). Proved: importable ends after at most two rounds; import first: the text is for the object, exceptions only if both ways fail; source first: the same if the sources of all globals are found..

**C74 — getsource(enclosing=True) gives the outermost enclosing function** (partial). the loop as a function on positions, with the lengths of inspect.getblock as a parameter; a measure for termination, an invariant on the position for the outermost function
Theorems: `C74_ends`, `C74_has_it`, `C74_own`, `C74_enclosing_partial`, `C74_alone_partial`, `C74_method_refuted`, `C74_class_refuted`, `C74_comment_refuted`, `C74_async_refuted`, `C74_ex`. REFUTED in four ways: a decorated method whose text also occurs in an earlier function gives that function; so does a class; a comment with the word lambda before a class makes everything from the comment to the end of the class 'the enclosing function'; an enclosing async def is not given. Proved for every text: the search ends, what it gives has the source of the object in it, and begins at the reported line; outermost function for one-line decorators and code before it that has ended; the object's own source when no earlier block has its text in it..

**C75 — loads only ever changes the class of the object it returns** (partial). LoadClassModel models Unpickler.load's tail over a process with classes (module, name, qualname, layout, __setattr__) and objects; case analysis gives the exact effect, witnesses give the refutations.
Theorems: `C75_ignored`, `C75_other_modules`, `C75_repointed`, `C75_only_the_root`, `C75_state_kept`, `C75_fails`, `C75_class_partial`, `C75_nested_refuted`, `C75_same_class_refuted`, `C75_same_class_partial`, `C75_ex`. REFUTED: an instance of Outer.Inner gets main's unrelated top-level class Inner (C75_nested_refuted); of linked instances of one class only the root is re-pointed, so type(a) is not type(a.next) after loads (C75_same_class_refuted); a strict __setattr__ makes loads fail (C75_ex). Proved: the exact condition and effect, that only the root is touched, that attributes are kept, and both claims under honest names / when the root is the only instance..

**C76 — temp.load gives back what temp.dump wrote, for as long as the handle is kept** (proved). TempFileModel models files, buffered handles with delete-on-close and byte buffers as a transition system; an invariant of the kept handle is proved along every history.
Theorems: `C76_dumped`, `C76_load_back`, `C76_gone`, `C76_loadIO_back`, `C76_ex`. The pickle format enters as a parameter (self_delimiting), which C05 proves for dill's own..

**C77 — a failed temp.dump leaves no file behind** (partial). On TempFileModel; the exceptional path closes the handle.
Theorems: `C77_failed_partial`, `C77_failed_leftover`, `C77_failed_refuted`. REFUTED with delete=False: the file stays, holding a prefix of a pickle that does not load (C77_failed_refuted); C77_failed_leftover says exactly what is left. Proved for the default delete=True..

**C78 — one Pickler, several dumps** (proved). ReuseModel adds the Pickler's and Unpickler's state between calls to CoreModel; the simulation of C01 holds from any synchronised state, so it composes over dumps.
Theorems: `C78_one_reader`, `C78_earlier_untouched`, `C78_new_readers`, `C78_uncleared_refuted`, `C78_cleared_refuted`, `C78_ex`. The two other combinations are shown not to work: without clear_memo new Unpicklers fail or silently give other objects (C78_uncleared_refuted), with clear_memo one Unpickler gives wrong objects under protocols 4 and 5 (C78_cleared_refuted)..

**C79 — a Pickler can be used again after a failed dump and clear_memo()** (partial). CoreModel's actions return the Pickler's state also on failure; closure lemmas (CoreInd) lift invariants of that state to whole saves.
Theorems: `C79_success_partial`, `C79_failed_partial`, `C79_stale_partial`, `C79_reuse_refuted`, `C79_retry_refuted`, `C79_ex`. REFUTED: _postproc keeps the entry of the function or class whose dump failed, clear_memo does not remove it; a later dump of an unrelated closure is written without error but loads with None in its cell (C79_reuse_refuted), and the function itself is taken for recursive (C79_retry_refuted). Proved: after successful dumps; after any failure in a graph in which no function or class is stored by value; and after any failure whatsoever for graphs without non-empty cells, own-globals functions and earlier failed functions..

**C80 — Subclasses of dill.Pickler behave as dill.Pickler** (partial). Model: the decisions as functions of the pickler (class: module name, dill.Pickler among the bases; attributes or none), of the process's modules and dictionaries. Case analysis with a specification of the substring test.
Theorems: `C80_named_partial`, `C80_stock_plain`, `C80_locate_main`, `C80_elsewhere_partial`, `C80_main_dict_partial`, `C80_refuted`, `C80_letters_refuted`, `C80_stock`. REFUTED: is_dill(child=False) looks for the letters 'dill' in the name of the module of the pickler's class. A subclass elsewhere writes another reference for __main__'s dictionary, stores no session and has no indented trace (C80_refuted); a stock pickler in a module such as piccadilly is taken for dill's and raises AttributeError for every dictionary (C80_letters_refuted). Proved: nothing differs if the name has the letters; files, modules, recursive objects never differ; outside sessions functions do not, and dictionaries load as the same ones..

**C81 — Keys and set elements are complete when they are inserted on load** (partial). HashModel.hashed lists what each opcode of the unpickler hashes and the container it goes to (from CPython's load_* functions); the pickler and unpickler are CoreModel's. Proof: induction on the fuel of save with a strengthened simulation (HashBase to HashProc) that tracks which objects are still open, together with the set of cells whose contents are postponed.
Theorems: `C81_keys_complete_partial`, `C81_cells_refuted`, `C81_cycles_refuted`, `C81_case`. REFUTED as stated: the contents of all closure cells met while a function or class is being pickled are postponed to the end of the outermost one (save_cell 1556-1599), so a key whose class's __hash__ uses a variable of the function that made the class is hashed while the cell is still empty (C81_cells_refuted: the graph, the stream and the heap at the insertion). C81_cycles_refuted: the exemption of keys that lead back to their container is needed. Proved for all graphs: everything the key leads to without looking into the contents of cells is complete (C81_keys_complete_partial)..

**C82 — load_module restores the whole session or leaves the namespace as it was** (partial). SessModel: the pickle of a session is CoreModel's stream for the reduce value of save_module; the live namespace is the one before updated with what BUILD has stored in the module object. Proof: shape of the stream (session_shape), the simulation of CoreSim for the state before BUILD, and monotonicity of opcodes on instances (step_grows: attributes once set stay set). SessRestoreModel: _restore_modules with the namespace it leaves behind.
Theorems: `C82_all_or_nothing_partial`, `C82_values_kept_partial`, `C82_other_modules_refuted`, `C82_refimported_refuted`, `C82_keyerror_refuted`, `C82_case`, `C82_values_case`. REFUTED as stated: (1) modules of the user's stored inside the session are updated as soon as their own contents have been read, so a later failure leaves them changed (C82_other_modules_refuted); (2) with refimported=True a failing import leaves the saved values in, the imported names restored in part and dill's own lists among the module's names (C82_refimported_refuted); (3) a KeyError raised by an import is taken for the absence of the lists: load_module returns normally with names missing (C82_keyerror_refuted). Proved: for the session's own module loading is all-or-nothing at every opcode and complete at the end (C82_all_or_nothing_partial); the second phase never touches names that were not imported ones (C82_values_kept_partial)..

**C83 — Source text with an alias binds the alias** (partial). AliasModel: getsource's text, and an interpreter of Python statements (logical lines, decorators, def/class blocks, chained and annotated assignments); theorems compare executing the plain and the aliased text
Theorems: `C83_named_partial`, `C83_lambda_partial`, `C83_instance_partial`, `C83_outdent_partial`, `C83_no_alias`, `C83_named_case`, `C83_lambda_case`, `C83_instance_case`, `C83_outdent_case`, `C83_no_arguments_refuted`, `C83_annotated_refuted`, `C83_argument_refuted`, `C83_return_refuted`, `C83_wraps_refuted`, `C83_decorator_refuted`, `C83_async_refuted`, `C83_repr_refuted`, `C83_tabs_refuted`. REFUTED for lambdas without arguments (`g = <lambda>` is appended), annotated assignments, lambdas that are arguments or returned, functions whose __name__ was changed, decorators continued on a line with a lambda, async def with a lambda default, reprs that are no expressions, tab indentation; proved: for def/class sources whose __name__ is bound by the source, for assigned (or bare) lambdas over any number of targets and lines, and for instances whose repr is a call, executing the text binds the alias to the object and leaves every other variable as the plain source does.

**C84 — The name of a lambda is the variable it was assigned to** (partial). AliasModel.getname over the same texts and interpreter as C83
Theorems: `C84_getname_partial`, `C84_named`, `C84_case`, `C84_refuted`. REFUTED for lambdas that are keyword arguments, returned, annotated or in a one-line if (the result is not even an identifier); proved for every assignment statement, whatever the number of targets, lines and the indentation.

**C85 — getimport imports the object by its module and name** (partial). NamespaceModel: the parsing of str(module), composed with ImportModel (C66) and AliasModel (C84)
Theorems: `C85_namespace`, `C85_types`, `C85_repr_decides`, `C85_builtins_repr`, `C85_bracket_repr`, `C85_import_partial`, `C85_lambda_partial`, `C85_method_refuted`, `C85_repr_refuted`, `C85_case`, `C85_lambda_case`. REFUTED for methods (looked up in the module: the verified text binds another function of that name) and modules with a repr of their own; proved for every object of an ordinary module (not builtins, types, dill).

**C86 — outermost gives the function that encloses a closure** (partial). ClosureModel/ClosureProps: find over the globals, soundness and completeness both ways
Theorems: `C86_sound`, `C86_complete`, `C86_unique_partial`, `C86_lambdas_refuted`, `C86_method_refuted`. REFUTED: two lambdas in one line have the same source lines, the outermost function of the second is the first (C86_lambdas_refuted); a function made in a method has no outermost function, because methods are not globals (C86_method_refuted). Proved: what is given encloses it, None only if no global does, and the enclosing function itself if its source is unique. getsourcelines, globals are parameters (BlocksModel models getsourcelines and is used in the cases)..

**C87 — importable imports a function made by another function** (partial). ClosureModel: the regular expression as a scanner, proved equivalent to its reading (assigned_spec); the import by ImportModel's C66 lemmas
Theorems: `C87_closure_partial`, `C87_item_case`, `C87_wrapper_partial`, `C87_wrapper_elsewhere_partial`, `C87_wrapper_unassigned`, `C87_decorated_partial`, `C87_own`, `C87_unassigned`, `C87_importable`, `C87_last_refuted`, `C87_local_refuted`, `C87_prefix_refuted`. REFUTED: if the file has two functions made by the same one, f = outer(1) and g = outer(2), the statement for f imports g (C87_last_refuted); a later assignment to a local variable gives a statement that does not run (C87_local_refuted); a wrapper of a function whose name only begins the same is imported instead (C87_prefix_refuted). Proved: if no later line of the file has the call, the statement binds the name or alias to f, and importable returns it..

**C88 — Source text of closures defines all they refer to** (partial). Texts run by a small model of exec; texts run one after the other compose; induction over the graph of free variables; recursion by induction on the recursion limit.
Theorems: `C88_closure_partial`, `C88_decorated_partial`, `C88_recursive_refuted`, `C88_reused_refuted`, `C88_builtin_refuted`, `C88_case`, `C88_decorated_case`, `C88_recursive_case`. REFUTED: a (mutually) recursive nested function has no text at any recursion limit; a variable name used in two scopes gets the value of one of them; a builtin function that the function has as a global (from math import sin) is not defined by the text. Proved for every acyclic graph of closures in which each name stands for one object and no global is a builtin function, undecorated or decorated..

**C89 — Calling a wrapped function calls that function** (partial). Transition system with a shared namespace and one program counter per thread; invariant over all schedules.
Theorems: `C89_undisturbed_partial`, `C89_alone_partial`, `C89_threads_refuted`, `C89_names_partial`, `C89_names_refuted`, `C89_case`. REFUTED: for any two wrapped functions called in two threads there is a schedule in which the call of the first calls the second (one global _ between exec and call); a function that cannot be imported is executed as source in the namespace of dill.source and replaces what has its name there. Proved: in one thread, or in any schedule that does not disturb a thread between exec and call, every call calls its function; if the texts are imports as _, no other name changes, in any schedule..

**C90 — Shims load as the reader's own definition** (partial). stack machine for reduce values; the shims as reduce values over an environment of modules; induction over the argument list and a frame lemma for the machine
Theorems: `C90_shim`, `C90_no_default`, `C90_called`, `C90_not_callable`, `C90_direct`, `C90_published`, `C90_unpublished`, `C90_moved`, `C90_half_published`, `C90_half_moved`, `C90_again`, `C90_reload_refuted`, `C90_case`. REFUTED for the last clause: reloading dill._shims puts the earlier Reduce object into dill._dill in the place of the sentinel _CELL_EMPTY and fails; the shim loads as that object from then on (C90_reload_refuted; empty cells stay empty, since _create_cell compares with the same name). All other clauses proved..

**C91 — Slices, bound methods, super objects and contexts keep their parts** (partial). as C90; attribute lookup on super objects as a function of class, instance and name
Theorems: `C91_slice`, `C91_tuple`, `C91_method`, `C91_pypy_method`, `C91_super_exact`, `C91_super_partial`, `C91_context`, `C91_super_refuted`, `C91_case`. REFUTED for super(C, obj) if a class after C in the method resolution order defines __self__ (or __thisclass__): the attribute found there is stored instead (C91_super_refuted); C91_super_exact gives what is stored in every case. All other clauses proved..

**C92 — Constants come back as the reader's own objects** (proved). as C90
Theorems: `C92_dataclasses`, `C92_field_base_refuted`, `C92_sentinel_dumps`, `C92_sentinel_loads`, `C92_case`. Proved for the constants the dataclasses module has; an instance of _FIELD_BASE with a name of the user's own is dumped but cannot be loaded (C92_field_base_refuted).

**C93 — Parametrised types load as equal types** (partial). typing's subscription and __reduce__ modelled for both versions; induction over the construction of the type; subscription is idempotent on the arguments it stores
Theorems: `C93_same_version`, `C93_other_version_partial`, `C93_empty_upwards`, `C93_empty_downwards_refuted`, `C93_create`, `C93_case`. REFUTED only for Tuple[()] written by 3.11 or later and read before 3.11: the copy has __args__ == () and is not equal to the reader's Tuple[()] (C93_empty_downwards_refuted; leaving out the first case of _create_typing_tuple would repair it). Proved for everything in one version, everything without Tuple[()] between versions, and Tuple[()] from older to newer..

**C94 — getsource of an interactive lambda gives its own line** (partial). cutting of lines at 'lambda ' and ':' characterised independently; induction over the lines from the end
Theorems: `C94_found_partial`, `C94_sound`, `C94_closure`, `C94_closure_refuted`, `C94_constants_refuted`, `C94_no_arguments_refuted`, `C94_dummy_refuted`, `C94_comment_refuted`, `C94_case`, `C94_closure_case`, `C94_double_case`. REFUTED in five ways: lambdas are compared by bytecode, so a later one with other constants is found; one without arguments (lambda: g()) is not recognised and the first line of the history is given; one with a constant value matches any line that cannot be evaluated; a later line with the word lambda and no colon raises ValueError; a lambda with free variables in an indented line raises TypeError (bytes are split at a number). Proved for lambdas without free variables if every later lambda line evaluates to another bytecode, and what a line must be like to be found at all..

**C95 — numpy arrays keep their data and attributes, and classes their own pickling** (partial). classes as data that events change; invariant over the list of events; dictionaries of attributes with update
Theorems: `C95_array`, `C95_ufunc`, `C95_others`, `C95_own_reduce_partial`, `C95_history_partial`, `C95_registered`, `C95_contents`, `C95_attributes_partial`, `C95_dtype_class`, `C95_late_override_refuted`, `C95_copyreg_refuted`, `C95_deleted_attribute_refuted`, `C95_case`. REFUTED: a __reduce__ added to a class after one of its arrays has been dumped is ignored (the first dump registered the class for good); a function in copyreg's table is ignored for array classes; an attribute that __array_finalize__ sets and that had been deleted is back in the copy. Proved: everything else, for every history that does not change or register the class in between..

**C96 — dill.diff's import hook records every module in the state in which its import left it** (partial). Model of importlib as _imp sees it (sys.modules, bodies, exceptions, package attributes); invariant: no recorded object belongs to a module still being imported; induction over nested imports.
Theorems: `C96_covered`, `C96_partial`, `C96_next`, `C96_raised_partial`, `C96_circular_refuted`, `C96_raised_refuted`, `C96_submodule_refuted`. REFUTED for modules that import each other (the inner import records the outer module half-way, so it counts as changed at once), for a dotted import whose last part raises (the package stays in sys.modules and is never recorded: has_changed is true, whats_changed raises), and for a submodule imported after its package was recorded. Proved: every module a successful import brings in is recorded; in programs whose imports do not go round in circles the records are exact after each import, raised or not, of a top-level module or of a module directly in a package not imported before; a failed undotted import leaves no unrecorded module..

**C97 — importing dill.diff records what is loaded; release_gone forgets only, and all, objects nobody holds** (partial). release_gone as a filter over the records with the reference count as the interpreter computes it; startup as a fold of memorise.
Theorems: `C97_startup_partial`, `C97_keeps_held`, `C97_gone_refuted`, `C97_pypy_refuted`, `C97_underscore_refuted`. REFUTED: release_gone itself holds four references where it counts them, so `< 4` is never met and nothing is ever released (CPython 3.11); without reference counts (lambda x: 0) every record is dropped; importing dill.diff deletes builtins._, also one installed by gettext. Proved: no held object is dropped; after startup the records of all modules are exact..

**C98 — load_types loads exactly the types asked for** (partial). LoadtypesModel: the tables, dill.objects and the namespace of dill.types as dictionaries; the reload runs the loop of objtypes.py in the namespace as it is. Exact characterisation of get on both dictionaries; histories by induction on the calls
Theorems: `C98_objects`, `C98_types`, `C98_last_call_partial`, `C98_twice`, `C98_streamreader_refuted`, `C98_registered_refuted`. REFUTED: the name StreamReader does not contain Type, so it stays in dill.types after a call that does not ask for it (C98_streamreader_refuted); registered types are loaded even with pickleable=False (C98_registered_refuted). Proved: dill.objects exactly (C98_objects), dill.types exactly (C98_types), independence of the history for names that contain Type (C98_last_call_partial), idempotence (C98_twice).

**C99 — referrednested finds exactly the functions made from nested code** (partial). ReferredModel: a heap with identities, code objects with a value for ==, gc.get_referrers as the objects that refer directly; nestedcode against the transitive closure of `is a constant of` by induction on the depth, up to ==
Theorems: `C99_exact_partial`, `C99_sound`, `C99_methods`, `C99_code`, `C99_no_code`, `C99_terminates`, `C99_twins_refuted`. REFUTED for code objects that are equal but not identical (made with code.replace): nestedcode keeps one of them and the functions of the other are not found (C99_twins_refuted). Proved: exact for functions and frames without such twins (C99_exact_partial); what else can be in the result (C99_sound, C99_methods); termination (C99_terminates).

**C100 — importable of an instance: the import of its class and its repr** (partial). model _importable, getname, _isinstance and the namespace of instances on texts; Python's execution of the two lines (import, assignment of a call) as an evaluator over a namespace; equational reasoning on strings
Theorems: `C100_text`, `C100_instance_partial`, `C100_iff`, `C100_named`, `C100_named_verified`, `C100_named_case`, `C100_opaque`, `C100_source`, `C100_fails_iff`, `C100_fallback`, `C100_fallback_case`, `C100_case`, `C100_array_case`, `C100_qualified_refuted`, `C100_nested_refuted`, `C100_subclass_refuted`, `C100_scalar_refuted`, `C100_nan_refuted`, `C100_empty`. REFUTED for reprs that are not a call of a plain name of the module: re.compile(...) and instances of nested classes give a text that is a SyntaxError (C100_qualified_refuted, C100_nested_refuted), an instance of a subclass of tuple becomes a tuple (C100_subclass_refuted), a numpy array without dimensions becomes a call ndarray(5), a new array of that shape (C100_scalar_refuted), Decimal('NaN') is imported from numpy (C100_nan_refuted). Proved for reprs  Name(...): the text, what running it binds, and exactly when it runs (C100_text, C100_instance_partial, C100_iff); the rest for all objects..

**C101 — the import text of a builtin value is its repr** (partial). ConstModel: getimport with the tried import statement parsed as Python does; a reader of import lists proved equivalent to a declarative grammar
Theorems: `C101_constant_partial`, `C101_plain`, `C101_builtin`, `C101_literals`, `C101_angled`, `C101_none`, `C101_ellipsis`, `C101_string_refuted`, `C101_inf_refuted`, `C101_names_refuted`, `C101_unverified_refuted`, `C101_case`, `C101_literal_case`. REFUTED: a value with < and > in its repr, such as the string '<b>', is replaced by its class (C101_angled, C101_string_refuted); inf and nan become an import from numpy even without numpy (C101_inf_refuted); with builtin=True a tuple of names such as (Ellipsis, NotImplemented) becomes an import statement (C101_names_refuted), and without verification a number does (C101_unverified_refuted). Proved for every repr that begins with no name, with the exact condition for builtin=True (C101_constant_partial, C101_plain, C101_builtin, C101_literals), and for None, Ellipsis, NotImplemented..

**C102 — what its module and name lead to is stored by reference** (partial). NamesModel: _import_module and _locate_function with packages
Theorems: `C102_locate_exact_partial`, `C102_by_reference_partial`, `C102_unqualified`, `C102_shadowed_refuted`, `C102_case`, `C08_locate_exact`. REFUTED: if the package has a class under the submodule's name, the functions of the submodule are saved by value although they can be imported (C102_shadowed_refuted). Proved for every module whose package has it (or nothing that is a module or class) under its name, with the exact condition for objects without __qualname__ (C102_unqualified)..

**C103 — Loading a session from a stream reads exactly one session and leaves the stream usable** (partial). StreamModel: file objects by their methods and position, _make_peekable, _PeekableReader.peek step by step, io.BufferedReader fills, the try/finally of both functions; induction on the list of sessions.
Theorems: `C103_one_session`, `C103_many_sessions`, `C103_refused_untouched`, `C103_unpeekable`, `C103_raw_loads`, `C103_closed`, `C103_raw_refuted`, `C103_case`. REFUTED for a stream with readinto() but no tell/seek (a raw socket or pipe stream): io.BufferedReader is wrapped around it, which reads ahead of the session and closes the stream when collected (C103_raw_refuted, C103_raw_loads); C103_closed: exactly such streams get closed; everything else proved. The extent of one pickle (reads up to STOP) is a parameter of the model, C05_bytes proves it of the byte model..

**C104 — Old names of the session functions and arguments do the same as the new ones** (partial). ArgsModel: argument values with their truth value, the renaming loop, pop, the place of the file; case analysis over all keyword dictionaries.
Theorems: `C104_dump`, `C104_module`, `C104_dump_both`, `C104_both_refuted`, `C104_load`, `C104_load_both`, `C104_default_path`, `C104_asdict_refuted`, `C104_case`. REFUTED: dump_module tests the new argument by its truth value, so refimported=False with byref=True, or a module that counts as false with main, is accepted and the old name wins (C104_both_refuted; exact condition C104_dump_both); load_module_asdict refuses module but not main (C104_asdict_refuted). Not in the model: load_session drops the value load_module returns. All other clauses proved..

**C105 — globalvars(recurse=False) binds exactly the names the function and its closure list** (partial). GlobalsModel.globalvars with recurse=False; induction on the recursion depth with an inductive definition of the names that count.
Theorems: `C105_exact`, `C105_code`, `C105_other`, `C105_terminates`, `C105_inner_recursion_refuted`. REFUTED for termination: an inner function whose closure holds itself (every recursive inner function) recurses for ever (C105_inner_recursion_refuted); it returns whenever no function is reached again through closures (C105_terminates). The contents are exact..

**C106 — An object's module does not depend on what was asked before; isfrommain and isdynamic are exact** (partial). GetmoduleModel: objects, sys.modules, inspect's two caches as state, histories of imports and questions; invariant of the caches by induction over the history.
Theorems: `C106_says`, `C106_frommain`, `C106_frommain_module`, `C106_value`, `C106_none`, `C106_code`, `C106_code_none`, `C106_code_named`, `C106_class_none`, `C106_dynamic`, `C106_class_refuted`, `C106_script_refuted`, `C106_prompt_refuted`, `C106_case`. REFUTED: if a script was also imported under its own name, the code objects of __main__ belong to the other module, or to __main__ if this was asked before the import (C106_script_refuted); isdynamic of a class typed at the prompt raises OSError instead of answering (C106_class_refuted, C106_prompt_refuted). Proved: everything for objects that say their module and for values; code objects, frames and tracebacks if no two modules come from one file. inspect.getmodule and getfile of CPython 3.11 are part of the model..

**C107 — trace output arrives whatever the encoding of the stream** (partial). `FormatModel`: formatters decided at addHandler, streams with the characters they take, histories of events; invariant over histories; the ASCII drawing is shown injective
Theorems: `C107_utf8`, `C107_drawing`, `C107_ascii`, `C107_read_back`, `C107_streams`, `C107_printed_partial`, `C107_redirected`, `C107_sizes`, `C107_suffix`, `C107_case`, `C107_stderr_refuted`. REFUTED: if sys.stderr is replaced by a stream that is not UTF-8 after dill is imported, the lines are lost (logging reports UnicodeEncodeError instead) until a redirected context has been left (C107_stderr_refuted); proved, after any history, for redirected contexts and for a stderr that is UTF-8 or not as when dill last looked; sizes from 1 PiB on are C50.

**C108 — source is looked for where the object was written** (partial). `WhereModel`: findsource put together from inspect.getfile/getmodule (`GetmoduleModel`) and the searches of `FindModel`; case analysis and the cache invariant of C106
Theorems: `C108_function`, `C108_function_partial`, `C108_no_module_file`, `C108_class`, `C108_instance`, `C108_module`, `C108_value`, `C108_angles`, `C108_no_source`, `C108_typed`, `C108_typed_class`, `C108_no_history`, `C108_code`, `C108_any`, `C108_any_first`, `C108_typed_code_refuted`, `C108_typed_code_case`, `C108_case`, `C108_code_case`, `C108_wraps_refuted`, `C108_exec_refuted`. REFUTED: a function decorated with functools.wraps by another module is looked for in the file of the decorated function, at the line of the wrapper in the other file (C108_wraps_refuted: the source of another function is found); code of a file run at the prompt is looked for in the history (C108_exec_refuted); the code object of a typed function is not found (C108_typed_code_refuted). C108_function says exactly where a function is looked for; proved for functions whose code is of their module, classes, instances, modules, values, and for code objects, frames and tracebacks after any history. Which line of a class is found: C68.

**C109 — a pickle tells the object graph, not where its objects are** (partial). Two runs of the pickler side by side: a relation of memo, postproc stack and results kept by every action, by induction on the recursion depth; the converse and the fixpoint from C01.
Theorems: `C109_same_pickle`, `C109_same_bytes`, `C109_moved`, `C109_equal_pickles`, `C109_equal_paths`, `C109_copy_partial`, `C109_case`, `C109_copy_case`, `C109_equal_objects_refuted`, `C109_copy_refuted`. REFUTED (C109_copy_refuted): the copy of a function with globals of its own has '__builtins__' in them, and so another pickle; and (C109_equal_objects_refuted) objects that are merely equal have different pickles if equal strings in them are one object in one and two in the other. Proved: graphs that differ only in addresses have equal pickles (opcodes and bytes), or fail alike; equal pickles come from graphs isomorphic to one graph; the pickle of the copy is the pickle, for graphs whose equal strings are one object and whose functions have a module's globals. A set's elements are in the order they are iterated over, which the correspondence keeps (Python's order of a set may depend on addresses)..

**C110 — A restricted find_class restricts the whole pickle, and load ends on any bytes** (proved). RestrictProps.v: an invariant of the machine (every by-name atom on the stack, in the memo and in the heap satisfies P) kept by every opcode, with P := given by find_class; lex consumes at least one byte.
Theorems: `C110_ends`, `C110_more`, `C110_called`, `C110_result`, `C110_allowed`, `C110_case`. Find_class is a parameter of the byte model (any function). What the called functions themselves do - they are find_class's gift - is outside the model, except dill's own _create_* functions; Unpickler.load's change of __class__ is C75. A call of something that is not callable raises in Python; the model goes on with an opaque object, so it admits more than Python does..

**C111 — detect.at is the inverse of id** (partial). AtModel.v/AtProps.v: memory with addresses reused, live objects characterised on the history alone; invariant: addresses and serial numbers distinct.
Theorems: `C111_sound`, `C111_inverse_partial`, `C111_nothing`, `C111_not_an_address`, `C111_float`, `C111_module`, `C111_special`, `C111_untracked_refuted`, `C111_stale_refuted`, `C111_case`. REFUTED: without a module only objects tracked by the garbage collector are searched, so at(id(x)) raises ReferenceError for a live str, int or untracked tuple (C111_untracked_refuted); an address kept after its object is gone may name another object (C111_stale_refuted). Proved for every history for the tracked ones, soundness for all..

**C112 — The handle of a thread, copied** (partial). HandleModel.v/HandleProps.v: state machine of handles; the copy computed; invariant over histories.
Theorems: `C112_copy_partial`, `C112_loads`, `C112_fixed`, `C112_unstarted_refuted`, `C112_running_refuted`, `C112_case`. REFUTED: the copy of the handle of a thread that is not started yet is a running one: start raises, join waits for ever (C112_unstarted_refuted); the copy made in the same program is not told when the thread ends (C112_running_refuted). Proved for started threads. The handle's own operations are modelled after CPython 3.13's _threadmodule.c, from knowledge of it: this sandbox has only 3.11's library..

**C113 — nestedglobals gives exactly the globals the code names** (partial). DisModel.v/DisProps.v: the lines of dis.dis (3.11) as text; lemmas on substrings around separators; induction over nested code.
Theorems: `C113_complete`, `C113_sound`, `C113_exact_partial`, `C113_recurse`, `C113_letters_refuted`, `C113_case`. REFUTED: every printed line with the letters _GLOBAL is taken, so a local variable, an attribute or a function called MY_GLOBAL counts as a global, and a text constant such as 'set LOG_GLOBAL (os)' makes os one; globalvars, and with it a function dumped with recurse=True, then takes the module's unrelated object of that name along (C113_letters_refuted). recurse=False changes nothing (C113_recurse), since dis.dis goes into nested code. Proved: no name is ever missed; exact if the letters are nowhere else. C33 to C35 and C105 take the names on such lines as given..

**C114 — Enum classes and members** (partial). EnumModel.v/EnumProps.v: the memo and POP/GET interplay of save_type, save_reduce and Enum.__reduce_ex__ as a small stack program; construction of members with aliases; every by-value pickle contains the failing creation.
Theorems: `C114_members`, `C114_reference_partial`, `C114_list`, `C114_other_version`, `C114_value_refuted`, `C114_value_dumps`, `C114_nan_refuted`, `C114_case`. REFUTED: an enum class stored by value (one of __main__, or made in a function), or a member of one, never loads: its pickle calls EnumType with a plain dictionary, which has no _member_names (AttributeError); the dump itself succeeds whenever the class is found under its name (C114_value_refuted, C114_value_dumps). A member whose value is nan dumps and does not load (C114_nan_refuted). Proved for classes stored by reference (importable, or byref=True) and values equal to themselves. Left out: Flag's composite members, mixed-in data types, _missing_, metaclasses that override EnumType.__new__..

**C115 — A shared list, set or instance is stored once** (partial). on CoreModel: an invariant of every action of the pickler (objects in the memo are distinct; creations written = objects of the kind memoized), by induction on the recursion; on the unpickler, lists in the heap = list-creating opcodes run
Theorems: `C115_lists`, `C115_exactly`, `C115_sets`, `C115_sets_exactly`, `C115_instances_partial`, `C115_instances_exactly_partial`, `C115_no_fewer`, `C115_loaded`, `C115_case`, `C115_instances_refuted`, `C115_old_refuted`. Proved for lists (exactly as many are written, and loaded, as are reached), sets (exactly as many are written; at least as many load), and instances not reached from their own class and arguments (exactly as many are written; at least as many load); REFUTED for those that are (created twice), and before protocol 4 for the lists made for sets.

## What is modelled, and what is not

| area | files of the model | code modelled | simplified or left out |
|------|--------------------|---------------|------------------------|
| pickling core | `Core*` | `_dill.py`: `_create_type`, `_create_function`, `_create_cell`, `_setitems`, `_save_with_postproc`, `save_module_dict` (D2), `save_cell`, `save_type` (T2), `save_function` (F1); pickle.py: `save`, `memoize`, `save_reduce` with list and dict items, `save_tuple`, `save_list`, `save_dict`, `save_set`, `save_frozenset`, batches, `load_*` | one opcode for constants; by-value/by-reference decided elsewhere (Names); a set is the list of its elements in iteration order and an element is found again by identity (or as an equal constant), user-defined `__eq__` and `__hash__` are not run; `__orig_bases__`; the "saved as global" fallback for an object met while on the postproc stack is a failure |
| bytes of pickles | `Bytes*` | pickle.py: `save_bool`, `save_long`, `encode_long`, `save_float`, `save_bytes`, `save_str`, `put`, `get`, `save_global`, the framer; the unpickler's `load_int` … `load_frame` | a float is its 64 bits, and its text in protocol 0 (repr) is not modelled; bytes before protocol 3 are reduce values; bytearray; code points up to 255; extension codes; what module and name are written (Names); any cutting into frames |
| names | `Names*` | `_import_module`, `_getattribute`, `_locate_function`, `save_global`, `find_class`, `Unpickler.load` | |
| dispatch | `Dispatch*` | `MetaCatchingDict`, `Pickler.dispatch`, `pickle`, `register`, `_revert_extension`, `extend` | |
| settings | `Settings*` | `dump`, `dumps`, `load`, `loads`, `copy`, `Pickler.__init__`, `Unpickler.__init__`, `dump_module` arguments | |
| functions, code, classes, namedtuples | `Func*`, `Code*`, `Class*`, `Namedtuple*` | the saved tuples and what rebuilds objects from them | values stand for themselves and their copies (copying is the core's) |
| locks, files | `Locks*`, `Files*` | `_create_lock`, `_create_rlock`, `save_lock`, `save_rlock`, `_save_file`, `_create_filehandle` | text positions are byte offsets; one process |
| weak references, views, caches, proxies | `Weak*`, `Proxy*` | `save_weakref`, `save_weakproxy`, `save_dict_view`, `save_lru_cache`, `_proxy_helper`, `_locate_object` | PyPy branches |
| sessions | `SafeOpen*`, `DumpModule*`, `Load*`, `Stash*`, `Identify*` | all of `session.py` but the deprecated wrappers | |
| detect | `Globals*`, `Pickles*` | `nestedcode`, `code`, `freevars`, `nestedglobals`, `globalvars`, `baditems`, `badobjects`, `pickles` | frames, `outermost`, `varnames`, `referredglobals` |
| pointers | `Chain*` | `parent`, `parents`, `children`, `find_chain` | nothing runs while the graph is searched |
| source, temp | `Indent*`, `Temp*` | `indent`, `outdent`, `capture`, `dump_source`, `load_source`, `dumpIO_source`, `loadIO_source` | finding source code in files |
| bases, modules | `Bases*`, `Module*` | `_get_typedict_type`, `save_type` bases (`__orig_bases__`, `__bases__`), `save_module`, `_is_builtin_module`, `_is_imported_module` | PyPy branch, `_main_modified` |
| descriptors, properties | `Descr*` | `_getattr`, `save_wrapper_descriptor`, `save_property`, `save_classmethod` | Python 3.15 branch |
| check, detect reports | `Check*`, `Detect*` | `check`, `badobjects`, `badtypes`, `errors` | Windows |
| types by name, ranges, proxies | `Typemap*`, `Range*`, `MapProxy*` | `_create_typemap`, `_typemap`, `_load_type`, `save_singleton`, `_eval_repr`, `save_dictproxy`, `save_dict_view` | PyPy |
| import statements | `Import*` | `getimport`, `_getimport`, `_intypes`, the text and the running of `import` statements | `_namespace`, `getname`, repr-derived names (parameters) |
| dumping to source | `Dumpsource*` | `dumpsource`, `_enclose`, `indent` of unindented text, bytes literals, running the generated statements | text of classes (`getsource`), the rest of Python |
| finding source | `Find*` | the search of `findsource` for functions (file, session) and classes, its regular expressions | `linecache`/`readline`, `_matchlambda`, Unicode word characters |
| abstract base classes | `Abc*` | `_get_typedict_abc`, the calls of `register` after creation, `issubclass` | `__subclasshook__`, caches, overridden `register` |
| hooks of class creation | `Hooks*` | `_create_type` / `new_class` calls of `save_type`, `__init_subclass__` keywords, `__set_name__`, `__prepare__` | hooks of other forms |
| met again while being saved | `Rec*` | `_save_with_postproc`, `save_type`, `save_function`: the fallback to `Pickler.save_global`; loading undefined names | save_global is one opcode; attributes set on an object found by name are not recorded |
| threads | `Threads*` | `capture`, `nestedglobals` as small steps of concurrent threads | one stream; a print is one step; what dis.dis prints is a parameter |
| importable | `Importable*` | `importable` and its `_code_stitcher`, the class lookup of `getsource(force=True)` for instances | the searches (`_closuredimport`, `_closuredsource`, `globalvars`, `getsource` of one object) are parameters |
| enclosing source | `Blocks*` | `getblocks` (not lstrip), `getsourcelines`, `inspect.indentsize` | the length of the block at each line (inspect.getblock, or 1 on TokenError) is a parameter |
| class of the loaded object | LoadClassModel.v | Unpickler.load 452-460 | classes are records (module, names, layout, __setattr__ hook), __dict__-less layouts are a number |
| temp files | TempFileModel.v | temp.py dump, load, dumpIO, loadIO 120-195 | the pickle format is a parameter; file system without directories, links and quotas |
| Pickler reuse | ReuseModel.v | Pickler.dump 427-429, clear_memo, load 292-298, Unpickler.load | on CoreModel |
| picklers by class | Subclass* | is_dill and every place that asks it: save_module_dict, _locate_function, _save_file, save_module, trace_setup | the subclass calls the inherited __init__; one answer for pickler.__module__ |
| hashing during load | HashModel, HashSpec, HashBase, HashStep, HashObj, HashProc, HashProps, HashExamples | what SETITEM(S), DICT, ADDITEMS, FROZENSET and REDUCE of set/frozenset hash while the streams of CoreModel are loaded (CPython pickle.py 1463-1477, 1586-1590, 1686-1709) | __hash__ itself is not run: the theorem says what it can see; class dictionaries and the items copied into function globals have string keys and are covered by CoreModel |
| loading a session | SessModel, SessSpec, SessBase, SessProps, SessExamples, SessRestoreModel, SessRestore | save_module for the session module (_dill.py 1733-1745) as a CoreModel object; its load opcode by opcode (session.py 552); _restore_modules (session.py 175-184) with what it leaves behind | the module has no __setstate__ in its namespace; the namespace is a function of names; importing a module has no effect on the namespace being restored |
| aliases and names of source text | AliasModel, AliasProps, AliasExamples, NamespaceModel, NamespaceProps | getsource (alias, lstrip), _outdent, getname, _namespace, getimport of non-instances | lines found, reprs are given; an interpreter for the statements needed |
| closures | detect.py, source.py | outermost 32-58; _closuredimport 839-889 | what freevars, getsource, getsourcelines, findsource, getname, getmodule, getimport give are parameters; ASCII |
| source of closures | ClosrcModel | _closuredsource, with importable calling itself | what getsource and freevars give per object are parameters; the recursion limit is a fuel |
| wrapped functions | WrapModel | _wrap, threads calling wrapped functions | what executing the text of a function binds is a parameter; exec is one step, lookup and call another |
| shims, one-call objects (C90-C92) | CallModel, CallProps | _shims.py Reduce, Getattr, move_to, register_shim; save_slice, save_instancemethod0, save_super, save_context, Sentinel, dataclasses constants | memo left out (see CoreModel); super's isinstance check left out; other objects opaque |
| typing aliases (C93) | TypingModel, TypingProps | save_generic_alias, _create_typing_tuple | types opaque; TypeVarTuple left out; typing's own subscription and __reduce__ as environment |
| interactive lambdas (C94) | MatchModel, MatchProps | _matchlambda, findsource (stdin) | eval and bytecode are a parameter; readline history as list of lines |
| numpy (C95) | NumpyModel, NumpyProps | Pickler.save, ndarraysubclassinstance, numpyufunc, numpydtype, _create_array | numpy itself is environment (reconstruct, __array_finalize__); _create_dtypemeta not modelled |
| import hook | HookModel, HookProps | __diff.py _imp 214-224, module level 226-234, release_gone 123-126 | importlib as far as _imp sees it; one thread; module bodies are bindings, attribute assignments and imports |
| type registry | `Loadtypes*` | `load_types`, `objtypes.py` | the tables are arbitrary dictionaries; names that are not identifiers |
| referrers | `Referred*` | `code`, `nestedcode`, `referrednested` | what the collector reports is given by the direct referents; unhashable objects, methods that compare equal |
| importable of instances | InstanceModel, InstanceProps | source.py _importable 777-835, getname 605-630, _isinstance 448-465, _namespace 657-672, getimport 724-774 for instances | the object is a record of what Python tells about it; getsource is a parameter |
| getimport of builtin values | dill/source.py:605-672, 676-774 | _namespace, _getimport and getimport for values of builtin classes; the import statement that is tried, with name lists, brackets and keywords | what Python tells about the value is a record; only heads without a dot |
| stream argument of load_module | dill/session.py 327-361, 498-508, 552-561, 631-657 | _make_peekable, _PeekableReader, which handle is read from, closing | the extent of one pickle is a parameter (BytesModel has it); the checks on the module are a parameter (LoadModel has them); closing by io.BufferedReader.__del__ happens when the call returns |
| arguments of the session functions | dill/session.py 89-92, 277-306, 322-324, 488-508, 566-570, 629-638 | renamed functions and keywords, errors, warnings, where the file comes from | warnings are recorded, not turned into errors by a filter; what load_session returns (None) is left out |
| the module of an object | detect.py 22-30, source.py 35-49 | getmodule with force, isfrommain, isdynamic, inspect.getmodule and getfile of CPython 3.11 with their caches | __module__ is a str or None, empty __file__ counts as missing, abspath and realpath are functions |
| trace output | `FormatModel`, `FormatProps` | dill/logger.py 118-123, 170-215, 267-285 | codec lookup and the characters a stream takes are parameters; sys.stderr is never None; encodings are not changed by reconfigure() |
| findsource | `WhereModel`, `WhereProps` | dill/source.py 105-258 put together | not in IPython; getmodule(object, file) left out; linecache is a function of the file name; the search for a typed lambda is a parameter (see `MatchModel`) |
| address independence | AddrProps | (CoreModel, BytesModel) | as CoreModel |
| loading arbitrary bytes | RestrictProps.v (over BytesModel.v, CoreModel.v) | Unpickler.find_class as the only source of names, Unpickler.load on any bytes | the functions called are opaque except dill's own; a call of a non-callable is not refused |
| detect.at | AtModel.v, AtProps.v | _locate_object: the singletons, gc.get_objects() or the namespace of a module, hex and its errors | a module is true and has a namespace; memory is objects with addresses |
| thread handles (3.13) | HandleModel.v, HandleProps.v | save_thread_handle, _create_thread_handle | the state STARTING and the once flag of the handle are left out |
| nestedglobals on text | DisModel.v, DisProps.v | detect.nestedglobals reading the output of dis.dis; the line format and recursion of CPython 3.11 Lib/dis.py | empty lines and the exception table of the disassembly are left out (no _GLOBAL in them); PyPy's IndexError is not modelled |
| enum classes | EnumModel.v, EnumProps.v | save_type T2/T4 on enum classes, members through Enum.__reduce_ex__, _create_type; EnumType.__new__, Enum.__new__ and aliasing of CPython 3.11 Lib/enum.py | Flag composites, mixed-in types, _missing_ and the constants of the class dictionary are left out |
| sharing (C115) | OnceProps.v on CoreModel.v | the pickling core of C01, protocols 4 and 5: opcodes that create lists and sets are counted | as CoreModel |
| logger, diff, capsules | `Trace*`, `Diff*`, `Capsule*` | `TraceAdapter`, `TraceFormatter`, `TraceManager`, `memorise`, `whats_changed`, `_create_capsule`, `save_module_dict` (D1, D3) | import hook of `__diff` |

Not modelled at all: `_objects.py` and `objtypes` tables, `tests/`, `docs/`, `setup.py`, `source.py`'s
`_wrap`/`_closuredimport`/`_closuredsource` and the reading of files and of the history, `save_numpy*`, `ctypes` and
other C types' savers, PyPy branches.
