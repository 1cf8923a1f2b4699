{
 "claims": [
  {
   "property": "C01",
   "status": "proved",
   "theorems": [
    "C01_total",
    "C01_roundtrip",
    "C01_roundtrip_stream",
    "C01_bytes",
    "C01_written",
    "C01_encoded"
   ],
   "note": "C01_total: of the opcodes; C01_bytes: of the bytes (decimal, two's complement, UTF-8, memo and framing of every protocol; compared with CPython's own output in cpython_bytes), C01_written: every successful dump of a graph with ASCII names can be written, booleans, floats (from protocol 1) and bytes (from protocol 3; before, a reduce value) included; C01_encoded: fewer than 2^31 opcodes with constants the format can hold have bytes; a set's elements keep their order and identity; instances with list items reachable from their own class or arguments excepted, see C56"
  },
  {
   "property": "C02",
   "status": "proved",
   "theorems": [
    "C02_paths",
    "C02_closure_cells"
   ],
   "note": ""
  },
  {
   "property": "C03",
   "status": "proved",
   "theorems": [
    "C03_protocol_independent",
    "C03_iso_compose",
    "C03_bytes"
   ],
   "note": ""
  },
  {
   "property": "C04",
   "status": "proved",
   "theorems": [
    "C04_bytes",
    "C04_prefix_never_loads"
   ],
   "note": "C04_bytes: cut anywhere in the bytes; C04_prefix_never_loads: between opcodes"
  },
  {
   "property": "C05",
   "status": "proved",
   "theorems": [
    "C05_bytes",
    "C05_sequence",
    "C05_load_leaves_rest"
   ],
   "note": ""
  },
  {
   "property": "C06",
   "status": "partial",
   "theorems": [
    "C06_module_globals_partial",
    "C06_copied_globals_refuted"
   ],
   "note": "REFUTED: functions sharing a dictionary that is not a module's get separate copies (C06_copied_globals_refuted, example ex_C06); proved for module dictionaries"
  },
  {
   "property": "C07",
   "status": "proved",
   "theorems": [
    "C07_depth",
    "C07_only_depth",
    "C07_cell_needs_itself"
   ],
   "note": "dumps never runs out of a recursion budget computed from the number of reachable objects when the must-be-built-first relation is acyclic; C07_cell_needs_itself shows the hypothesis is needed (a cell whose content is a tuple holding the cell)"
  },
  {
   "property": "C08",
   "status": "proved",
   "theorems": [
    "C08_function_reference_denotes",
    "C08_class_reference_denotes",
    "C08_function_reference_loads",
    "C08_class_reference_loads",
    "C08_main_by_value",
    "C08_locate_exact",
    "C08_byref_classes",
    "C08_importable_by_reference"
   ],
   "note": "loading theorem assumes names not redirected by the unpickler, parents of nested names themselves by reference (protocol<4), and inverse Python-2 tables (protocol<3)"
  },
  {
   "property": "C09",
   "status": "proved",
   "theorems": [
    "C09_dispatch_lookup"
   ],
   "note": ""
  },
  {
   "property": "C10",
   "status": "partial",
   "theorems": [
    "C10_revert_exact",
    "C10_revert_partial",
    "C10_revert_refuted"
   ],
   "note": "REFUTED in full generality (user-registered savers stay in pickle's table) by C10_revert_refuted; exact behaviour C10_revert_exact; proved for dill's own savers by C10_revert_partial"
  },
  {
   "property": "C100",
   "status": "partial",
   "theorems": [
    "C100_text",
    "C100_instance_partial",
    "C100_iff",
    "C100_named",
    "C100_named_verified",
    "C100_named_case",
    "C100_opaque",
    "C100_source",
    "C100_fails_iff",
    "C100_fallback",
    "C100_fallback_case",
    "C100_case",
    "C100_array_case",
    "C100_qualified_refuted",
    "C100_nested_refuted",
    "C100_subclass_refuted",
    "C100_scalar_refuted",
    "C100_nan_refuted",
    "C100_empty"
   ],
   "note": "REFUTED for reprs that are not a call of a plain name of the module: re.compile(...) and instances of nested classes give a text that is a SyntaxError (C100_qualified_refuted, C100_nested_refuted), an instance of a subclass of tuple becomes a tuple (C100_subclass_refuted), a numpy array without dimensions becomes a call ndarray(5), a new array of that shape (C100_scalar_refuted), Decimal('NaN') is imported from numpy (C100_nan_refuted). Proved for reprs  Name(...): the text, what running it binds, and exactly when it runs (C100_text, C100_instance_partial, C100_iff); the rest for all objects."
  },
  {
   "property": "C101",
   "status": "partial",
   "theorems": [
    "C101_constant_partial",
    "C101_plain",
    "C101_builtin",
    "C101_literals",
    "C101_angled",
    "C101_none",
    "C101_ellipsis",
    "C101_string_refuted",
    "C101_inf_refuted",
    "C101_names_refuted",
    "C101_unverified_refuted",
    "C101_case",
    "C101_literal_case"
   ],
   "note": "REFUTED: a value with < and > in its repr, such as the string '<b>', is replaced by its class (C101_angled, C101_string_refuted); inf and nan become an import from numpy even without numpy (C101_inf_refuted); with builtin=True a tuple of names such as (Ellipsis, NotImplemented) becomes an import statement (C101_names_refuted), and without verification a number does (C101_unverified_refuted). Proved for every repr that begins with no name, with the exact condition for builtin=True (C101_constant_partial, C101_plain, C101_builtin, C101_literals), and for None, Ellipsis, NotImplemented."
  },
  {
   "property": "C102",
   "status": "partial",
   "theorems": [
    "C102_locate_exact_partial",
    "C102_by_reference_partial",
    "C102_unqualified",
    "C102_shadowed_refuted",
    "C102_case",
    "C08_locate_exact"
   ],
   "note": "REFUTED: if the package has a class under the submodule's name, the functions of the submodule are saved by value although they can be imported (C102_shadowed_refuted). Proved for every module whose package has it (or nothing that is a module or class) under its name, with the exact condition for objects without __qualname__ (C102_unqualified)."
  },
  {
   "property": "C103",
   "status": "partial",
   "theorems": [
    "C103_one_session",
    "C103_many_sessions",
    "C103_refused_untouched",
    "C103_unpeekable",
    "C103_raw_loads",
    "C103_closed",
    "C103_raw_refuted",
    "C103_case"
   ],
   "note": "REFUTED for a stream with readinto() but no tell/seek (a raw socket or pipe stream): io.BufferedReader is wrapped around it, which reads ahead of the session and closes the stream when collected (C103_raw_refuted, C103_raw_loads); C103_closed: exactly such streams get closed; everything else proved. The extent of one pickle (reads up to STOP) is a parameter of the model, C05_bytes proves it of the byte model."
  },
  {
   "property": "C104",
   "status": "partial",
   "theorems": [
    "C104_dump",
    "C104_module",
    "C104_dump_both",
    "C104_both_refuted",
    "C104_load",
    "C104_load_both",
    "C104_default_path",
    "C104_asdict_refuted",
    "C104_case"
   ],
   "note": "REFUTED: dump_module tests the new argument by its truth value, so refimported=False with byref=True, or a module that counts as false with main, is accepted and the old name wins (C104_both_refuted; exact condition C104_dump_both); load_module_asdict refuses module but not main (C104_asdict_refuted). Not in the model: load_session drops the value load_module returns. All other clauses proved."
  },
  {
   "property": "C105",
   "status": "partial",
   "theorems": [
    "C105_exact",
    "C105_code",
    "C105_other",
    "C105_terminates",
    "C105_inner_recursion_refuted"
   ],
   "note": "REFUTED for termination: an inner function whose closure holds itself (every recursive inner function) recurses for ever (C105_inner_recursion_refuted); it returns whenever no function is reached again through closures (C105_terminates). The contents are exact."
  },
  {
   "property": "C106",
   "status": "partial",
   "theorems": [
    "C106_says",
    "C106_frommain",
    "C106_frommain_module",
    "C106_value",
    "C106_none",
    "C106_code",
    "C106_code_none",
    "C106_code_named",
    "C106_class_none",
    "C106_dynamic",
    "C106_class_refuted",
    "C106_script_refuted",
    "C106_prompt_refuted",
    "C106_case"
   ],
   "note": "REFUTED: if a script was also imported under its own name, the code objects of __main__ belong to the other module, or to __main__ if this was asked before the import (C106_script_refuted); isdynamic of a class typed at the prompt raises OSError instead of answering (C106_class_refuted, C106_prompt_refuted). Proved: everything for objects that say their module and for values; code objects, frames and tracebacks if no two modules come from one file. inspect.getmodule and getfile of CPython 3.11 are part of the model."
  },
  {
   "property": "C107",
   "status": "partial",
   "theorems": [
    "C107_utf8",
    "C107_drawing",
    "C107_ascii",
    "C107_read_back",
    "C107_streams",
    "C107_printed_partial",
    "C107_redirected",
    "C107_sizes",
    "C107_suffix",
    "C107_case",
    "C107_stderr_refuted"
   ],
   "note": "REFUTED: if sys.stderr is replaced by a stream that is not UTF-8 after dill is imported, the lines are lost (logging reports UnicodeEncodeError instead) until a redirected context has been left (C107_stderr_refuted); proved, after any history, for redirected contexts and for a stderr that is UTF-8 or not as when dill last looked; sizes from 1 PiB on are C50"
  },
  {
   "property": "C108",
   "status": "partial",
   "theorems": [
    "C108_function",
    "C108_function_partial",
    "C108_no_module_file",
    "C108_class",
    "C108_instance",
    "C108_module",
    "C108_value",
    "C108_angles",
    "C108_no_source",
    "C108_typed",
    "C108_typed_class",
    "C108_no_history",
    "C108_code",
    "C108_any",
    "C108_any_first",
    "C108_typed_code_refuted",
    "C108_typed_code_case",
    "C108_case",
    "C108_code_case",
    "C108_wraps_refuted",
    "C108_exec_refuted"
   ],
   "note": "REFUTED: a function decorated with functools.wraps by another module is looked for in the file of the decorated function, at the line of the wrapper in the other file (C108_wraps_refuted: the source of another function is found); code of a file run at the prompt is looked for in the history (C108_exec_refuted); the code object of a typed function is not found (C108_typed_code_refuted). C108_function says exactly where a function is looked for; proved for functions whose code is of their module, classes, instances, modules, values, and for code objects, frames and tracebacks after any history. Which line of a class is found: C68"
  },
  {
   "property": "C109",
   "status": "partial",
   "theorems": [
    "C109_same_pickle",
    "C109_same_bytes",
    "C109_moved",
    "C109_equal_pickles",
    "C109_equal_paths",
    "C109_copy_partial",
    "C109_case",
    "C109_copy_case",
    "C109_equal_objects_refuted",
    "C109_copy_refuted"
   ],
   "note": "REFUTED (C109_copy_refuted): the copy of a function with globals of its own has '__builtins__' in them, and so another pickle; and (C109_equal_objects_refuted) objects that are merely equal have different pickles if equal strings in them are one object in one and two in the other. Proved: graphs that differ only in addresses have equal pickles (opcodes and bytes), or fail alike; equal pickles come from graphs isomorphic to one graph; the pickle of the copy is the pickle, for graphs whose equal strings are one object and whose functions have a module's globals. A set's elements are in the order they are iterated over, which the correspondence keeps (Python's order of a set may depend on addresses)."
  },
  {
   "property": "C11",
   "status": "proved",
   "theorems": [
    "C11_dump",
    "C11_load",
    "C11_copy",
    "C11_dump_module",
    "C11_pickler_fixed",
    "C11_defaults"
   ],
   "note": ""
  },
  {
   "property": "C110",
   "status": "proved",
   "theorems": [
    "C110_ends",
    "C110_more",
    "C110_called",
    "C110_result",
    "C110_allowed",
    "C110_case"
   ],
   "note": "find_class is a parameter of the byte model (any function). What the called functions themselves do - they are find_class's gift - is outside the model, except dill's own _create_* functions; Unpickler.load's change of __class__ is C75. A call of something that is not callable raises in Python; the model goes on with an opaque object, so it admits more than Python does."
  },
  {
   "property": "C111",
   "status": "partial",
   "theorems": [
    "C111_sound",
    "C111_inverse_partial",
    "C111_nothing",
    "C111_not_an_address",
    "C111_float",
    "C111_module",
    "C111_special",
    "C111_untracked_refuted",
    "C111_stale_refuted",
    "C111_case"
   ],
   "note": "REFUTED: without a module only objects tracked by the garbage collector are searched, so at(id(x)) raises ReferenceError for a live str, int or untracked tuple (C111_untracked_refuted); an address kept after its object is gone may name another object (C111_stale_refuted). Proved for every history for the tracked ones, soundness for all."
  },
  {
   "property": "C112",
   "status": "partial",
   "theorems": [
    "C112_copy_partial",
    "C112_loads",
    "C112_fixed",
    "C112_unstarted_refuted",
    "C112_running_refuted",
    "C112_case"
   ],
   "note": "REFUTED: the copy of the handle of a thread that is not started yet is a running one: start raises, join waits for ever (C112_unstarted_refuted); the copy made in the same program is not told when the thread ends (C112_running_refuted). Proved for started threads. The handle's own operations are modelled after CPython 3.13's _threadmodule.c, from knowledge of it: this sandbox has only 3.11's library."
  },
  {
   "property": "C113",
   "status": "partial",
   "theorems": [
    "C113_complete",
    "C113_sound",
    "C113_exact_partial",
    "C113_recurse",
    "C113_letters_refuted",
    "C113_case"
   ],
   "note": "REFUTED: every printed line with the letters _GLOBAL is taken, so a local variable, an attribute or a function called MY_GLOBAL counts as a global, and a text constant such as 'set LOG_GLOBAL (os)' makes os one; globalvars, and with it a function dumped with recurse=True, then takes the module's unrelated object of that name along (C113_letters_refuted). recurse=False changes nothing (C113_recurse), since dis.dis goes into nested code. Proved: no name is ever missed; exact if the letters are nowhere else. C33 to C35 and C105 take the names on such lines as given."
  },
  {
   "property": "C114",
   "status": "partial",
   "theorems": [
    "C114_members",
    "C114_reference_partial",
    "C114_list",
    "C114_other_version",
    "C114_value_refuted",
    "C114_value_dumps",
    "C114_nan_refuted",
    "C114_case"
   ],
   "note": "REFUTED: an enum class stored by value (one of __main__, or made in a function), or a member of one, never loads: its pickle calls EnumType with a plain dictionary, which has no _member_names (AttributeError); the dump itself succeeds whenever the class is found under its name (C114_value_refuted, C114_value_dumps). A member whose value is nan dumps and does not load (C114_nan_refuted). Proved for classes stored by reference (importable, or byref=True) and values equal to themselves. Left out: Flag's composite members, mixed-in data types, _missing_, metaclasses that override EnumType.__new__."
  },
  {
   "property": "C115",
   "status": "partial",
   "theorems": [
    "C115_lists",
    "C115_exactly",
    "C115_sets",
    "C115_sets_exactly",
    "C115_instances_partial",
    "C115_instances_exactly_partial",
    "C115_no_fewer",
    "C115_loaded",
    "C115_case",
    "C115_instances_refuted",
    "C115_old_refuted"
   ],
   "note": "proved for lists (exactly as many are written, and loaded, as are reached), sets (exactly as many are written; at least as many load), and instances not reached from their own class and arguments (exactly as many are written; at least as many load); REFUTED for those that are (created twice), and before protocol 4 for the lists made for sets"
  },
  {
   "property": "C12",
   "status": "proved",
   "theorems": [
    "C12_find_class_plain",
    "C12_find_class_plain_old",
    "C12_find_class_redirected",
    "C12_load_repoints"
   ],
   "note": ""
  },
  {
   "property": "C13",
   "status": "partial",
   "theorems": [
    "C13_attributes",
    "C13_qualname_partial",
    "C13_qualname_refuted",
    "C13_doc_refuted",
    "C13_type_params_refuted"
   ],
   "note": "every attribute of the copy is given exactly; REFUTED for __qualname__ on 3.11+ when __qualname__ == __name__ but the code has another qualified name, for __doc__ = None when the code has a docstring, and for __type_params__"
  },
  {
   "property": "C14",
   "status": "proved",
   "theorems": [
    "C14_same_version",
    "C14_version_detected"
   ],
   "note": "all six CodeType layouts"
  },
  {
   "property": "C15",
   "status": "proved",
   "theorems": [
    "C15_across_versions",
    "C15_common_fields",
    "C15_text_fields"
   ],
   "note": "all 36 ordered pairs of layouts"
  },
  {
   "property": "C16",
   "status": "partial",
   "theorems": [
    "C16_line_table_partial",
    "C16_lnotab_as_linetable_refuted",
    "C16_linetable_as_lnotab_refuted",
    "C16_linetable_as_lnotab_37_refuted"
   ],
   "note": "REFUTED for 3.8/3.9 to 3.10+, 3.10 to 3.8/3.9, and 3.10 to 3.7 with an empty co_lnotab; proved for every other pair. The linetables of 3.10 and 3.11+ count as one format"
  },
  {
   "property": "C17",
   "status": "partial",
   "theorems": [
    "C17_single_inheritance_partial",
    "C17_multiple_inheritance_partial",
    "C17_unshared_names",
    "C17_exact",
    "C17_new_classes_ok",
    "C17_multiple_bases_refuted",
    "C17_diamond_refuted",
    "C17_hash_refuted"
   ],
   "note": "REFUTED for multiple inheritance (entries identical to a direct base's are dropped although another class comes first in the MRO) and for __hash__ next to __eq__; proved for single inheritance of any depth and, with any inheritance, for names not dropped; C17_exact says exactly when an inherited or defined name is found as before, for every hierarchy"
  },
  {
   "property": "C18",
   "status": "partial",
   "theorems": [
    "C18_slots_kept_partial",
    "C18_private_slots_refuted"
   ],
   "note": "REFUTED: no class with a private slot can be loaded; proved for all others"
  },
  {
   "property": "C19",
   "status": "partial",
   "theorems": [
    "C19_fresh_partial",
    "C19_importable_same",
    "C19_name_taken_refuted",
    "C19_rename_refuted",
    "C19_methods_refuted"
   ],
   "note": "REFUTED when the name leads to another class or module at load time, and for fields made by rename=True; proved when the name is free"
  },
  {
   "property": "C20",
   "status": "proved",
   "theorems": [
    "C20_handle_reopens",
    "C20_reported_mode"
   ],
   "note": "mode is the one the handle reports: a handle opened w+b reports rb+"
  },
  {
   "property": "C21",
   "status": "proved",
   "theorems": [
    "C21_existing_files_unchanged",
    "C21_position",
    "C21_existing_loads",
    "C21_missing_created"
   ],
   "note": "text positions are taken to be byte offsets"
  },
  {
   "property": "C22",
   "status": "partial",
   "theorems": [
    "C22_contents_restored_partial",
    "C22_loads_partial",
    "C22_contents_exact",
    "C22_dumps",
    "C22_wb_refuted",
    "C22_wb_always_refuted",
    "C22_x_refuted",
    "C22_newlines_refuted"
   ],
   "note": "REFUTED for mode wb (file emptied, TypeError), for x modes (always UnpicklingError) and for contents with carriage returns; proved for every other mode and text contents without carriage returns. C22_contents_exact: for all text contents the file gets them with line feeds for line ends; C22_dumps: which handles can be dumped"
  },
  {
   "property": "C23",
   "status": "proved",
   "theorems": [
    "C23_standard_streams",
    "C23_errors",
    "C23_missing_reads_temporary",
    "C23_closed_stream_closes",
    "C23_strictio_refuted"
   ],
   "note": "also shown: a standard stream that was closed when pickled closes the loading process's stream; with strictio a missing file raises FileNotFoundError"
  },
  {
   "property": "C24",
   "status": "partial",
   "theorems": [
    "C24_lock_copy",
    "C24_rlock_saved_state",
    "C24_rlock_copy_partial",
    "C24_unlocked_rlock_refuted"
   ],
   "note": "REFUTED for unlocked RLocks (copy can never be acquired) by C24_unlocked_rlock_refuted; proved for Lock and for RLocks owned by the loading thread"
  },
  {
   "property": "C25",
   "status": "proved",
   "theorems": [
    "C25_write_never_through_symlink",
    "C25_read_never_through_symlink",
    "C25_no_nofollow_partial",
    "C25_no_nofollow_refuted"
   ],
   "note": "on systems with O_NOFOLLOW; without it there is a race: C25_no_nofollow_refuted"
  },
  {
   "property": "C26",
   "status": "partial",
   "theorems": [
    "C26_created_private_partial",
    "C26_existing_keeps_mode_refuted"
   ],
   "note": "a new session file is 0600 less the bits of the umask; REFUTED for an existing file, which keeps its mode"
  },
  {
   "property": "C27",
   "status": "proved",
   "theorems": [
    "C27_identify",
    "C27_not_consumed",
    "C27_first_256",
    "C27_unpeekable",
    "C27_any_pickle",
    "C27_any_case",
    "C27_buffer_boundary_refuted"
   ],
   "note": "byte level, all protocols, UTF-8 and raw-unicode-escape included; C27_buffer_boundary_refuted: a buffered reader whose buffer ends inside the header is refused although the header is within 256 bytes; sessions of dill._dill itself not covered"
  },
  {
   "property": "C28",
   "status": "proved",
   "theorems": [
    "C28_valueerror_iff_mismatch",
    "C28_refused_unchanged",
    "C28_sysmodules",
    "C28_no_runtime_entry_left",
    "C28_loads_module_object",
    "C28_creates_module_object",
    "C28_loads_imported_module",
    "C28_unidentified",
    "C28_unpeekable_unchecked",
    "C28_stale_module_refuted",
    "C28_runtime_entry_deleted_refuted"
   ],
   "note": "the two _refuted theorems show why the statement excludes stale module objects and pre-existing __runtime__ entries"
  },
  {
   "property": "C29",
   "status": "partial",
   "theorems": [
    "C29_sysmodules_restored_partial",
    "C29_returns_saved_contents_partial",
    "C29_runtime_session_refuted",
    "C29_submodule_refuted",
    "C29_update_imports_refuted"
   ],
   "note": "proved for update=False and sessions of top-level importable modules; REFUTED for sessions of module-type objects (always KeyError), submodules (loaded into the live module) and update=True"
  },
  {
   "property": "C30",
   "status": "proved",
   "theorems": [
    "C30_each_name_once",
    "C30_restored",
    "C30_stored_name",
    "C30_stored_as"
   ],
   "note": "restoring in the same interpreter state; __builtins__ and __loader__ are never saved; names with dots and redirected module names excluded by sane_world"
  },
  {
   "property": "C31",
   "status": "partial",
   "theorems": [
    "C31_dump_module_effect_partial",
    "C31_outcome",
    "C31_stream_outcome",
    "C31_stream_not_closed",
    "C31_previous_session_lost_refuted"
   ],
   "note": "exact effect proved; REFUTED: a failed dump truncates the previous session"
  },
  {
   "property": "C33",
   "status": "partial",
   "theorems": [
    "C33_bindings",
    "C33_complete",
    "C33_methods",
    "C33_sees_partial",
    "C33_closed_partial",
    "C33_only_used",
    "C33_names_read",
    "C33_class_body_refuted",
    "C33_closure_shadows_builtin_refuted"
   ],
   "note": "REFUTED for globals read in a class body inside the function (missed) and for a builtin shadowed by a global of another module's function in the closure; exact for functions of one module"
  },
  {
   "property": "C34",
   "status": "partial",
   "theorems": [
    "C34_terminates_partial",
    "C34_cycles_refuted",
    "C34_mutual_recursion_refuted",
    "C34_inner_recursion_refuted"
   ],
   "note": "REFUTED for mutually recursive functions and recursive inner functions; terminates when no infinite chain of references starts at the function, global self-recursion allowed"
  },
  {
   "property": "C35",
   "status": "proved",
   "theorems": [
    "C35_freevars",
    "C35_nestedcode",
    "C35_nestedcode_depth_one",
    "C35_nestedglobals"
   ],
   "note": ""
  },
  {
   "property": "C37",
   "status": "partial",
   "theorems": [
    "C37_find_chain",
    "C37_start_matches",
    "C37_parents",
    "C37_children",
    "C37_parent",
    "C37_none_refuted"
   ],
   "note": "proved for every object but None, every graph, predicate and depth, with termination; REFUTED for children(None, ...), whose chain leaves None out"
  },
  {
   "property": "C38",
   "status": "partial",
   "theorems": [
    "C38_children_ignore_partial",
    "C38_parents_ignore_refuted",
    "C38_ignored_parent_found_refuted",
    "C38_children_single_ignore_refuted",
    "C38_parents_order_refuted",
    "C38_children_order_refuted"
   ],
   "note": "REFUTED: parents does not use its ignore argument, a single object with a length is not ignored, and the documented orders are reversed; proved: children never goes through an object in a tuple passed as ignore"
  },
  {
   "property": "C39",
   "status": "partial",
   "theorems": [
    "C39_true",
    "C39_exact_partial",
    "C39_all_refuted",
    "C39_accepts",
    "C39_answer",
    "C39_answer_all",
    "C39_copy_fails",
    "C39_escapes"
   ],
   "note": "REFUTED for objects with an all() method (arrays): exact=True compares only the two values of all(); everything else proved"
  },
  {
   "property": "C40",
   "status": "partial",
   "theorems": [
    "C40_filters_iff",
    "C40_unchanged_partial",
    "C40_user_filter_lost_refuted",
    "C40_filter_left_refuted"
   ],
   "note": "exact condition proved; REFUTED when the user has the filter ('ignore', None, Warning, None, 0) or == raises"
  },
  {
   "property": "C41",
   "status": "partial",
   "theorems": [
    "C41_only_failing",
    "C41_all_failing_partial",
    "C41_once",
    "C41_single",
    "C41_equal_to_none_refuted"
   ],
   "note": "REFUTED for failing items that compare equal to None after a good item; proved for all others, each class of equal items once and in order (C41_once)"
  },
  {
   "property": "C42",
   "status": "partial",
   "theorems": [
    "C42_inverse_partial",
    "C42_exact",
    "C42_exact_case",
    "C42_indent",
    "C42_less_indented_refuted",
    "C42_leading_newline_refuted"
   ],
   "note": "REFUTED when a line is less indented than the first or the code starts with an empty line; proved for all other code indented without tabs, any n; C42_exact gives the exact condition (a line with no indentation at all does no harm)"
  },
  {
   "property": "C43",
   "status": "partial",
   "theorems": [
    "C43_outdent_partial",
    "C43_text_partial",
    "C43_first_line_partial",
    "C43_indented",
    "C43_exact",
    "C43_text_iff",
    "C43_one_tab",
    "C43_tabs_refuted"
   ],
   "note": "REFUTED for code indented with tabs, which loses text; proved for everything else; C43_exact gives the result for every code (as many characters as columns), C43_text_iff says exactly when text is lost"
  },
  {
   "property": "C44",
   "status": "partial",
   "theorems": [
    "C44_name_partial",
    "C44_dumped_alias",
    "C44_dumped_own_name",
    "C44_alias",
    "C44_no_name_partial",
    "C44_latin1_refuted",
    "C44_unicode_refuted",
    "C44_unnamed_refuted"
   ],
   "note": "proved for ASCII source and names; REFUTED for any other character (written in Latin-1, read in UTF-8) and for objects getname cannot name (loaded as None)"
  },
  {
   "property": "C45",
   "status": "proved",
   "theorems": [
    "C45_restored",
    "C45_captured",
    "C45_exception",
    "exec_spec"
   ],
   "note": "one thread; the captured text is characterised for programs that do not assign sys.<stream> themselves, restoration for all"
  },
  {
   "property": "C47",
   "status": "partial",
   "theorems": [
    "C47_exact_partial",
    "C47_unchanged",
    "C47_force_rerecords",
    "C47_unforced_keeps",
    "C47_recorded",
    "C47_has_changed_total",
    "C47_memorise_total",
    "C47_hidden_refuted",
    "C47_stale_refuted"
   ],
   "note": "REFUTED as stated: changes outside __dict__ and items are not seen (C47_hidden_refuted), and a child memorised earlier keeps its old record (C47_stale_refuted). Proved, for all graphs with cycles: if the memo was up to date when memorise(obj) was called, has_changed(obj) is true exactly if an object then reachable has had an attribute or its items changed; both calls terminate on every finite graph"
  },
  {
   "property": "C48",
   "status": "partial",
   "theorems": [
    "C48_nested",
    "C48_bytes",
    "C48_transparent",
    "C48_columns",
    "C48_pipe_refuted"
   ],
   "note": "proved for every tree of save calls, framing, large objects and failed dumps, for files with a working tell or none; REFUTED for a file whose tell raises OSError (a pipe): tracing makes the dump fail"
  },
  {
   "property": "C49",
   "status": "partial",
   "theorems": [
    "C49_handlers_partial",
    "C49_level_partial",
    "C49_level_program",
    "C49_redirect",
    "C49_redirect_reaches",
    "C49_redirect_exact",
    "C49_context_exact",
    "C49_switch",
    "C49_nested_refuted",
    "C49_notset_refuted",
    "C49_no_stderr_refuted",
    "C49_reentered_refuted"
   ],
   "note": "proved: the set of handlers (if stderr's is among them) and the effective level are restored by every nesting; REFUTED: inside an outer redirection an inner one turns stderr on again, the logger's own NOTSET level becomes an explicit one, a missing stderr handler is installed, one manager entered twice leaks its handler and level"
  },
  {
   "property": "C50",
   "status": "partial",
   "theorems": [
    "C50_small_partial",
    "C50_unit_refuted",
    "C50_huge_refuted"
   ],
   "note": "REFUTED: every size from 1 KiB to 1 PiB is shown with a unit 1024 times too large, and from 1 PiB on formatting raises IndexError; proved below 1 KiB (the logarithm taken as exact)"
  },
  {
   "property": "C51",
   "status": "partial",
   "theorems": [
    "C51_found_partial",
    "C51_valid",
    "C51_not_capsule_partial",
    "C51_exact",
    "C51_submodule_refuted",
    "C51_class_attr_refuted"
   ],
   "note": "REFUTED for every name with two or more dots unless the package happens to have the same attribute; proved for names with one dot; C51_exact gives the whole behaviour"
  },
  {
   "property": "C53",
   "status": "partial",
   "theorems": [
    "C53_weakref",
    "C53_weakproxy",
    "C53_view",
    "C53_lru_cache",
    "C53_view39_shows",
    "C53_lru38_refuted",
    "C53_view39_refuted"
   ],
   "note": "proved for Python 3.10 and later; REFUTED on 3.8 (typed is lost) and before 3.10 (the view is of another dictionary). The target of a proxy is found by _proxy_helper, see C55; attributes added to the wrapper are not saved"
  },
  {
   "property": "C54",
   "status": "partial",
   "theorems": [
    "C54_module",
    "C54_same_partial",
    "C54_main",
    "C54_copy_refuted"
   ],
   "note": "REFUTED: the comparison is ==, an equal copy loads as __main__.__dict__; proved for other modules (identity) and if no other dictionary equals __main__'s"
  },
  {
   "property": "C55",
   "status": "partial",
   "theorems": [
    "C55_target_partial",
    "C55_ordinary_str",
    "C55_ordinary_case",
    "C55_default_str",
    "C55_dead",
    "C55_not_proxy",
    "C55_str_refuted",
    "C55_untracked_refuted",
    "C55_class_at_refuted"
   ],
   "note": "REFUTED: a str() ending in a hexadecimal number is taken for the address (another object, or ReferenceError), an untracked target (a code object) is not found, a class named 'at' gives ValueError; proved for the inherited str() and for every str() that is not a number"
  },
  {
   "property": "C56",
   "status": "partial",
   "theorems": [
    "C56_items_partial",
    "C56_items_twice_refuted"
   ],
   "note": "REFUTED: an instance of a list subclass that its by-value class refers to (through a method's closure) comes back with its items twice, under every protocol; proved for key-value items always, and for list items if the instance is not reachable from its class or constructor arguments"
  },
  {
   "property": "C57",
   "status": "partial",
   "theorems": [
    "C57_bases_kept_partial",
    "C57_exact",
    "C57_subclass_of_generic_refuted"
   ],
   "note": "REFUTED: hasattr(obj, '__orig_bases__') is true of every subclass of a class written with an alias, e.g. class D(C) with class C(Generic[T]): the copy of D has C's bases and does not inherit from C; proved for classes that have __orig_bases__ themselves or do not inherit it"
  },
  {
   "property": "C58",
   "status": "partial",
   "theorems": [
    "C58_installed_by_name",
    "C58_dill_module",
    "C58_user_with_contents",
    "C58_runtime_name",
    "C58_load_reverts",
    "C58_prefix_refuted",
    "C58_unregistered_refuted",
    "C58_shadowed_refuted"
   ],
   "note": "REFUTED: (1) a file belongs to the interpreter if its path starts with the characters of sys.prefix, so /usr2/project.py counts as installed under /usr and its contents are not saved (C58_prefix_refuted); (2) a module object that is not the registered one loads as the registered one or fails to import (C58_unregistered_refuted); (3) a class in the package with the submodule's name is loaded in its place (C58_shadowed_refuted). Proved: both halves of the statement for registered modules that are attributes of their packages; a load overwrites later changes of the same names (C58_load_reverts). Not modelled: how the values are copied (the copying is a parameter), PyPy branch, _main_modified."
  },
  {
   "property": "C59",
   "status": "partial",
   "theorems": [
    "C59_own_entry_partial",
    "C59_user_class",
    "C59_other_class_refuted",
    "C59_same_name"
   ],
   "note": "REFUTED: the class's name is evaluated in dill's module first, so a class of the user's called int with a slot real comes back with the descriptor of the builtin int (C59_other_class_refuted). Proved: its own entry if the name means nothing in dill's module, or something without such an entry, or the class itself (C59_own_entry_partial); always an entry of that name (C59_same_name). Not modelled: Python 3.15 branch, non-ASCII names."
  },
  {
   "property": "C60",
   "status": "partial",
   "theorems": [
    "C60_functions",
    "C60_doc",
    "C60_doc_later",
    "C60_getter_refuted",
    "C60_none_refuted",
    "C60_abstract_refuted",
    "C60_wrapper_function",
    "C60_wrapper_attributes",
    "C60_wrapper_lost_refuted"
   ],
   "note": "REFUTED: p.getter(g) of the copy keeps the old getter's documentation where the original takes g's (C60_getter_refuted); __doc__ set to None comes back from the getter (C60_none_refuted); abstractproperty with a documented getter gets the class's documentation (C60_abstract_refuted); attributes set on a staticmethod or classmethod object are lost (C60_wrapper_lost_refuted). Proved: functions, documentation of every property made by property() and getter/setter/deleter, also after setter/deleter on the copy; attributes of wrappers nobody changed. CPython 3.11's rules."
  },
  {
   "property": "C61",
   "status": "partial",
   "theorems": [
    "C61_command_partial",
    "C61_verdict_partial",
    "C61_dump_failed",
    "C61_silent",
    "C61_space_refuted",
    "C61_large_refuted"
   ],
   "note": "REFUTED: with a space in the path of the interpreter another command is run (C61_space_refuted); a pickle longer than the system's limit for an argument makes check raise (C61_large_refuted). Proved for every byte string and every path without white space: the words of the command, the exactness of the literal, the verdict. Octal escapes of bytes literals, which repr does not write, are refused by the model's reader."
  },
  {
   "property": "C62",
   "status": "partial",
   "theorems": [
    "C62_badobjects",
    "C62_badobjects_top",
    "C62_badtypes",
    "C62_reports",
    "C62_raising_attribute_refuted",
    "C62_errors",
    "C62_errors_top",
    "C62_disagree_refuted"
   ],
   "note": "REFUTED: an attribute that raises makes badobjects and badtypes raise (C62_raising_attribute_refuted); errors is not None for an object that pickles, if its copy has another type of the same repr, as instances of classes in __main__ do (C62_disagree_refuted). Proved: the exact contents of the reports at every depth, badtypes as the image of badobjects, errors' top level exactly. getattr, dir and pickles are taken to give the same answer when asked again."
  },
  {
   "property": "C63",
   "status": "partial",
   "theorems": [
    "C63_same_python",
    "C63_name_is_own",
    "C63_other_python",
    "C63_late_refuted"
   ],
   "note": "REFUTED for the type of capsules: it is added to the table of names after the table was inverted, so it is not saved by its name (C63_late_refuted). Proved for every other entry, whatever aliases there are, and for other Pythons."
  },
  {
   "property": "C64",
   "status": "partial",
   "theorems": [
    "C64_range",
    "C64_long_refuted",
    "C64_long_load_refuted"
   ],
   "note": "REFUTED for numbers with more digits than sys.get_int_max_str_digits() (4300): dumps, or loads in a process with a lower limit, raises. Proved for all numbers |z| < 10^limit."
  },
  {
   "property": "C65",
   "status": "partial",
   "theorems": [
    "C65_contents",
    "C65_untouched",
    "C65_live_partial",
    "C65_copy_refuted",
    "C65_class_refuted",
    "C65_no_copy_refuted"
   ],
   "note": "REFUTED: for OrderedDict, defaultdict, UserDict, ChainMap and subclasses of dict the proxied mapping is a copy, so the copied proxy does not follow the copied mapping (C65_copy_refuted), for subclasses of dict it is a plain dict (C65_class_refuted); before Python 3.9 always a copy, and mappings without copy() fail (C65_no_copy_refuted). Proved: contents always, liveness for dict and for classes without | on dictionaries, no mapping changed."
  },
  {
   "property": "C66",
   "status": "partial",
   "theorems": [
    "C66_longest",
    "C66_constants",
    "C66_none",
    "C66_ellipsis_class",
    "C66_forced",
    "C66_unnamable",
    "C66_unnamable_elsewhere",
    "C66_own_object_partial",
    "C66_builtin_partial",
    "C66_module_partial",
    "C66_verified_refuted",
    "C66_collision_refuted"
   ],
   "note": "REFUTED: with verify=True, when no part of the path provides the name (a function inside a function) the failing statement for the first part is returned (C66_verified_refuted, for every such tree); when a shorter package has another object of that name the statement binds that one (C66_collision_refuted). Proved for every module tree: the statement is the one for the longest providing part and binds exactly the target name to what it provides; an object where its namespace says is bound; builtins and top-level modules. The namespace (_namespace) and repr-derived name are parameters."
  },
  {
   "property": "C67",
   "status": "partial",
   "theorems": [
    "C67_enclosed_partial",
    "C67_raises",
    "C67_open_partial",
    "C67_new_partial",
    "C67_new_same_module_partial",
    "C67_new_ignored",
    "C67_new_length_refuted",
    "C67_new_data_refuted"
   ],
   "note": "REFUTED for new=True: the module's name is replaced within the bytes of the pickle but not its length (C67_new_length_refuted), and in unrelated data (C67_new_data_refuted); with enclose=True new is ignored (C67_new_ignored). Proved for every pickle and namespace: the exact effect of running the text with enclose=True and False, that it raises if the pickle does not load, and what new=True loads; the alias is not a keyword nor the name of the enclosing function (which is unbound). Text of the class (getsource) is left out of the new=True theorems."
  },
  {
   "property": "C68",
   "status": "partial",
   "theorems": [
    "C68_code",
    "C68_function_partial",
    "C68_history_partial",
    "C68_history_decorated_partial",
    "C68_class_toplevel_partial",
    "C68_class_none",
    "C68_class_nested_partial",
    "C68_class_unique_partial",
    "C68_async_refuted",
    "C68_history_refuted",
    "C68_variable_refuted",
    "C68_two_functions_refuted",
    "C68_tab_refuted",
    "C68_docstring_refuted"
   ],
   "note": "REFUTED: an async def gives an earlier function's line; in a session a later function whose name contains the name; classes: a variable classA, text of a docstring, the class of another function of the file, a tab against spaces. Proved for every text: what line is found (the nearest one above that is a def, decorator or lambda), that def/decorated/lambda functions are found where they start, the session search with its decorators, the last top-level class line, the least indented and first otherwise, IOError exactly if no line looks like the class, and that a class defined once is found. Lambdas of sessions (_matchlambda) are not modelled."
  },
  {
   "property": "C69",
   "status": "partial",
   "theorems": [
    "C69_kept_partial",
    "C69_no_more",
    "C69_others",
    "C69_exact",
    "C69_byref_refuted",
    "C69_subclass_refuted"
   ],
   "note": "REFUTED: a class saved by value that was registered with an abstract base class saved by reference (collections.abc.Sequence.register(C)) is not registered after loading (C69_byref_refuted); a class registered with a subclass that is not in the pickle is no longer a virtual subclass of the base (C69_subclass_refuted). Proved: every virtual subclass whose registrations and subclasses are in the pickle is kept, nothing is added, existing classes keep their registries, and the copy's registry exactly. No __subclasshook__; register always records; a class that overrides register is not modelled."
  },
  {
   "property": "C70",
   "status": "partial",
   "theorems": [
    "C70_loads_iff",
    "C70_attributes",
    "C70_kept_partial",
    "C70_registry",
    "C70_others",
    "C70_names",
    "C70_names_kept_partial",
    "C70_keyword_refuted",
    "C70_required_refuted",
    "C70_prepare_refuted",
    "C70_later_refuted"
   ],
   "note": "REFUTED: the keywords of the class statement are not saved, so class C(Base, tag=5) comes back with the default (C70_keyword_refuted) or cannot be loaded (C70_required_refuted); metaclasses that need the namespace of their __prepare__, as EnumMeta, cannot create the class from a dictionary (C70_prepare_refuted); a descriptor assigned after the class statement is told its name in the copy only (C70_later_refuted). Proved: exactly when the class loads, exactly which attributes the copy has, how often it is recorded by the bases, which name each descriptor is told. Hooks are of the form 'store each parameter under its name, record the class'."
  },
  {
   "property": "C71",
   "status": "partial",
   "theorems": [
    "C71_by_name",
    "C71_no_name",
    "C71_not_defined",
    "C71_self_contained_refuted",
    "C71_self_contained_refuted_function",
    "C71_self_contained_partial",
    "C71_extends",
    "C71_own_globals_key_error"
   ],
   "note": "REFUTED: a class one of whose attributes is (or contains) an instance of it or the class, or a function that is inside its own defaults, is written by name with only a PicklingWarning: the copy is created and discarded by POP, GET, and loads gives what '__main__.C' is in the loading process, or fails where it is not defined (C71_by_name: for every such object, every protocol; C71_no_name: without a name dumps fails). Proved: if no object is inside what is needed to create it, the pickle does not depend on names and loads rebuilds an isomorphic copy."
  },
  {
   "property": "C72",
   "status": "partial",
   "theorems": [
    "C72_exclusive_partial",
    "C72_one_thread",
    "C72_conserved",
    "C72_nested_partial",
    "C72_globals_lost_refuted",
    "C72_stdout_lost_refuted",
    "C72_print_lost_refuted"
   ],
   "note": "REFUTED: if two captures overlap, a function is pickled without its globals while the other thread gets them (C72_globals_lost_refuted); if the thread that entered first leaves first, sys.stdout stays a discarded buffer for ever and a disassembly is shown on the terminal (C72_stdout_lost_refuted); a line printed by another thread is swallowed, and read as a name if it contains _GLOBAL (C72_print_lost_refuted). Proved for any number of threads: if captures do not overlap with steps of other threads, all is right (C72_exclusive_partial), so always with one thread (C72_one_thread); if captures overlap but are nested, sys.stdout is restored (C72_nested_partial); under every schedule every printed line is in exactly one stream (C72_conserved)."
  },
  {
   "property": "C73",
   "status": "partial",
   "theorems": [
    "C73_ends",
    "C73_import_first",
    "C73_source_first_partial",
    "C73_wrong_object",
    "C73_refuted",
    "C73_instance_class_iff",
    "C73_instance_class_lost",
    "C73_instance_refuted"
   ],
   "note": "REFUTED: if the source of a global is not found (an open file), the variable obj has already been replaced by the dictionary of the globals, and the fallback imports that: importable(f) gives 'from builtins import dict' whatever f is (C73_wrong_object, C73_refuted). getsource strips a set of characters where a prefix is meant: for every class whose name has an underscore the text that is evaluated is not the expression for the class (C73_instance_class_iff: exactly those). Proved: importable ends after at most two rounds; import first: the text is for the object, exceptions only if both ways fail; source first: the same if the sources of all globals are found."
  },
  {
   "property": "C74",
   "status": "partial",
   "theorems": [
    "C74_ends",
    "C74_has_it",
    "C74_own",
    "C74_enclosing_partial",
    "C74_alone_partial",
    "C74_method_refuted",
    "C74_class_refuted",
    "C74_comment_refuted",
    "C74_async_refuted",
    "C74_ex"
   ],
   "note": "REFUTED in four ways: a decorated method whose text also occurs in an earlier function gives that function; so does a class; a comment with the word lambda before a class makes everything from the comment to the end of the class 'the enclosing function'; an enclosing async def is not given. Proved for every text: the search ends, what it gives has the source of the object in it, and begins at the reported line; outermost function for one-line decorators and code before it that has ended; the object's own source when no earlier block has its text in it."
  },
  {
   "property": "C75",
   "status": "partial",
   "theorems": [
    "C75_ignored",
    "C75_other_modules",
    "C75_repointed",
    "C75_only_the_root",
    "C75_state_kept",
    "C75_fails",
    "C75_class_partial",
    "C75_nested_refuted",
    "C75_same_class_refuted",
    "C75_same_class_partial",
    "C75_ex"
   ],
   "note": "REFUTED: an instance of Outer.Inner gets main's unrelated top-level class Inner (C75_nested_refuted); of linked instances of one class only the root is re-pointed, so type(a) is not type(a.next) after loads (C75_same_class_refuted); a strict __setattr__ makes loads fail (C75_ex). Proved: the exact condition and effect, that only the root is touched, that attributes are kept, and both claims under honest names / when the root is the only instance."
  },
  {
   "property": "C76",
   "status": "proved",
   "theorems": [
    "C76_dumped",
    "C76_load_back",
    "C76_gone",
    "C76_loadIO_back",
    "C76_ex"
   ],
   "note": "The pickle format enters as a parameter (self_delimiting), which C05 proves for dill's own."
  },
  {
   "property": "C77",
   "status": "partial",
   "theorems": [
    "C77_failed_partial",
    "C77_failed_leftover",
    "C77_failed_refuted"
   ],
   "note": "REFUTED with delete=False: the file stays, holding a prefix of a pickle that does not load (C77_failed_refuted); C77_failed_leftover says exactly what is left. Proved for the default delete=True."
  },
  {
   "property": "C78",
   "status": "proved",
   "theorems": [
    "C78_one_reader",
    "C78_earlier_untouched",
    "C78_new_readers",
    "C78_uncleared_refuted",
    "C78_cleared_refuted",
    "C78_ex"
   ],
   "note": "The two other combinations are shown not to work: without clear_memo new Unpicklers fail or silently give other objects (C78_uncleared_refuted), with clear_memo one Unpickler gives wrong objects under protocols 4 and 5 (C78_cleared_refuted)."
  },
  {
   "property": "C79",
   "status": "partial",
   "theorems": [
    "C79_success_partial",
    "C79_failed_partial",
    "C79_stale_partial",
    "C79_reuse_refuted",
    "C79_retry_refuted",
    "C79_ex"
   ],
   "note": "REFUTED: _postproc keeps the entry of the function or class whose dump failed, clear_memo does not remove it; a later dump of an unrelated closure is written without error but loads with None in its cell (C79_reuse_refuted), and the function itself is taken for recursive (C79_retry_refuted). Proved: after successful dumps; after any failure in a graph in which no function or class is stored by value; and after any failure whatsoever for graphs without non-empty cells, own-globals functions and earlier failed functions."
  },
  {
   "property": "C80",
   "status": "partial",
   "theorems": [
    "C80_named_partial",
    "C80_stock_plain",
    "C80_locate_main",
    "C80_elsewhere_partial",
    "C80_main_dict_partial",
    "C80_refuted",
    "C80_letters_refuted",
    "C80_stock"
   ],
   "note": "REFUTED: is_dill(child=False) looks for the letters 'dill' in the name of the module of the pickler's class. A subclass elsewhere writes another reference for __main__'s dictionary, stores no session and has no indented trace (C80_refuted); a stock pickler in a module such as piccadilly is taken for dill's and raises AttributeError for every dictionary (C80_letters_refuted). Proved: nothing differs if the name has the letters; files, modules, recursive objects never differ; outside sessions functions do not, and dictionaries load as the same ones."
  },
  {
   "property": "C81",
   "status": "partial",
   "theorems": [
    "C81_keys_complete_partial",
    "C81_cells_refuted",
    "C81_cycles_refuted",
    "C81_case"
   ],
   "note": "REFUTED as stated: the contents of all closure cells met while a function or class is being pickled are postponed to the end of the outermost one (save_cell 1556-1599), so a key whose class's __hash__ uses a variable of the function that made the class is hashed while the cell is still empty (C81_cells_refuted: the graph, the stream and the heap at the insertion). C81_cycles_refuted: the exemption of keys that lead back to their container is needed. Proved for all graphs: everything the key leads to without looking into the contents of cells is complete (C81_keys_complete_partial)."
  },
  {
   "property": "C82",
   "status": "partial",
   "theorems": [
    "C82_all_or_nothing_partial",
    "C82_values_kept_partial",
    "C82_other_modules_refuted",
    "C82_refimported_refuted",
    "C82_keyerror_refuted",
    "C82_case",
    "C82_values_case"
   ],
   "note": "REFUTED as stated: (1) modules of the user's stored inside the session are updated as soon as their own contents have been read, so a later failure leaves them changed (C82_other_modules_refuted); (2) with refimported=True a failing import leaves the saved values in, the imported names restored in part and dill's own lists among the module's names (C82_refimported_refuted); (3) a KeyError raised by an import is taken for the absence of the lists: load_module returns normally with names missing (C82_keyerror_refuted). Proved: for the session's own module loading is all-or-nothing at every opcode and complete at the end (C82_all_or_nothing_partial); the second phase never touches names that were not imported ones (C82_values_kept_partial)."
  },
  {
   "property": "C83",
   "status": "partial",
   "theorems": [
    "C83_named_partial",
    "C83_lambda_partial",
    "C83_instance_partial",
    "C83_outdent_partial",
    "C83_no_alias",
    "C83_named_case",
    "C83_lambda_case",
    "C83_instance_case",
    "C83_outdent_case",
    "C83_no_arguments_refuted",
    "C83_annotated_refuted",
    "C83_argument_refuted",
    "C83_return_refuted",
    "C83_wraps_refuted",
    "C83_decorator_refuted",
    "C83_async_refuted",
    "C83_repr_refuted",
    "C83_tabs_refuted"
   ],
   "note": "REFUTED for lambdas without arguments (`g = <lambda>` is appended), annotated assignments, lambdas that are arguments or returned, functions whose __name__ was changed, decorators continued on a line with a lambda, async def with a lambda default, reprs that are no expressions, tab indentation; proved: for def/class sources whose __name__ is bound by the source, for assigned (or bare) lambdas over any number of targets and lines, and for instances whose repr is a call, executing the text binds the alias to the object and leaves every other variable as the plain source does"
  },
  {
   "property": "C84",
   "status": "partial",
   "theorems": [
    "C84_getname_partial",
    "C84_named",
    "C84_case",
    "C84_refuted"
   ],
   "note": "REFUTED for lambdas that are keyword arguments, returned, annotated or in a one-line if (the result is not even an identifier); proved for every assignment statement, whatever the number of targets, lines and the indentation"
  },
  {
   "property": "C85",
   "status": "partial",
   "theorems": [
    "C85_namespace",
    "C85_types",
    "C85_repr_decides",
    "C85_builtins_repr",
    "C85_bracket_repr",
    "C85_import_partial",
    "C85_lambda_partial",
    "C85_method_refuted",
    "C85_repr_refuted",
    "C85_case",
    "C85_lambda_case"
   ],
   "note": "REFUTED for methods (looked up in the module: the verified text binds another function of that name) and modules with a repr of their own; proved for every object of an ordinary module (not builtins, types, dill)"
  },
  {
   "property": "C86",
   "status": "partial",
   "theorems": [
    "C86_sound",
    "C86_complete",
    "C86_unique_partial",
    "C86_lambdas_refuted",
    "C86_method_refuted"
   ],
   "note": "REFUTED: two lambdas in one line have the same source lines, the outermost function of the second is the first (C86_lambdas_refuted); a function made in a method has no outermost function, because methods are not globals (C86_method_refuted). Proved: what is given encloses it, None only if no global does, and the enclosing function itself if its source is unique. getsourcelines, globals are parameters (BlocksModel models getsourcelines and is used in the cases)."
  },
  {
   "property": "C87",
   "status": "partial",
   "theorems": [
    "C87_closure_partial",
    "C87_item_case",
    "C87_wrapper_partial",
    "C87_wrapper_elsewhere_partial",
    "C87_wrapper_unassigned",
    "C87_decorated_partial",
    "C87_own",
    "C87_unassigned",
    "C87_importable",
    "C87_last_refuted",
    "C87_local_refuted",
    "C87_prefix_refuted"
   ],
   "note": "REFUTED: if the file has two functions made by the same one, f = outer(1) and g = outer(2), the statement for f imports g (C87_last_refuted); a later assignment to a local variable gives a statement that does not run (C87_local_refuted); a wrapper of a function whose name only begins the same is imported instead (C87_prefix_refuted). Proved: if no later line of the file has the call, the statement binds the name or alias to f, and importable returns it."
  },
  {
   "property": "C88",
   "status": "partial",
   "theorems": [
    "C88_closure_partial",
    "C88_decorated_partial",
    "C88_recursive_refuted",
    "C88_reused_refuted",
    "C88_builtin_refuted",
    "C88_case",
    "C88_decorated_case",
    "C88_recursive_case"
   ],
   "note": "REFUTED: a (mutually) recursive nested function has no text at any recursion limit; a variable name used in two scopes gets the value of one of them; a builtin function that the function has as a global (from math import sin) is not defined by the text. Proved for every acyclic graph of closures in which each name stands for one object and no global is a builtin function, undecorated or decorated."
  },
  {
   "property": "C89",
   "status": "partial",
   "theorems": [
    "C89_undisturbed_partial",
    "C89_alone_partial",
    "C89_threads_refuted",
    "C89_names_partial",
    "C89_names_refuted",
    "C89_case"
   ],
   "note": "REFUTED: for any two wrapped functions called in two threads there is a schedule in which the call of the first calls the second (one global _ between exec and call); a function that cannot be imported is executed as source in the namespace of dill.source and replaces what has its name there. Proved: in one thread, or in any schedule that does not disturb a thread between exec and call, every call calls its function; if the texts are imports as _, no other name changes, in any schedule."
  },
  {
   "property": "C90",
   "status": "partial",
   "theorems": [
    "C90_shim",
    "C90_no_default",
    "C90_called",
    "C90_not_callable",
    "C90_direct",
    "C90_published",
    "C90_unpublished",
    "C90_moved",
    "C90_half_published",
    "C90_half_moved",
    "C90_again",
    "C90_reload_refuted",
    "C90_case"
   ],
   "note": "REFUTED for the last clause: reloading dill._shims puts the earlier Reduce object into dill._dill in the place of the sentinel _CELL_EMPTY and fails; the shim loads as that object from then on (C90_reload_refuted; empty cells stay empty, since _create_cell compares with the same name). All other clauses proved."
  },
  {
   "property": "C91",
   "status": "partial",
   "theorems": [
    "C91_slice",
    "C91_tuple",
    "C91_method",
    "C91_pypy_method",
    "C91_super_exact",
    "C91_super_partial",
    "C91_context",
    "C91_super_refuted",
    "C91_case"
   ],
   "note": "REFUTED for super(C, obj) if a class after C in the method resolution order defines __self__ (or __thisclass__): the attribute found there is stored instead (C91_super_refuted); C91_super_exact gives what is stored in every case. All other clauses proved."
  },
  {
   "property": "C92",
   "status": "proved",
   "theorems": [
    "C92_dataclasses",
    "C92_field_base_refuted",
    "C92_sentinel_dumps",
    "C92_sentinel_loads",
    "C92_case"
   ],
   "note": "proved for the constants the dataclasses module has; an instance of _FIELD_BASE with a name of the user's own is dumped but cannot be loaded (C92_field_base_refuted)"
  },
  {
   "property": "C93",
   "status": "partial",
   "theorems": [
    "C93_same_version",
    "C93_other_version_partial",
    "C93_empty_upwards",
    "C93_empty_downwards_refuted",
    "C93_create",
    "C93_case"
   ],
   "note": "REFUTED only for Tuple[()] written by 3.11 or later and read before 3.11: the copy has __args__ == () and is not equal to the reader's Tuple[()] (C93_empty_downwards_refuted; leaving out the first case of _create_typing_tuple would repair it). Proved for everything in one version, everything without Tuple[()] between versions, and Tuple[()] from older to newer."
  },
  {
   "property": "C94",
   "status": "partial",
   "theorems": [
    "C94_found_partial",
    "C94_sound",
    "C94_closure",
    "C94_closure_refuted",
    "C94_constants_refuted",
    "C94_no_arguments_refuted",
    "C94_dummy_refuted",
    "C94_comment_refuted",
    "C94_case",
    "C94_closure_case",
    "C94_double_case"
   ],
   "note": "REFUTED in five ways: lambdas are compared by bytecode, so a later one with other constants is found; one without arguments (lambda: g()) is not recognised and the first line of the history is given; one with a constant value matches any line that cannot be evaluated; a later line with the word lambda and no colon raises ValueError; a lambda with free variables in an indented line raises TypeError (bytes are split at a number). Proved for lambdas without free variables if every later lambda line evaluates to another bytecode, and what a line must be like to be found at all."
  },
  {
   "property": "C95",
   "status": "partial",
   "theorems": [
    "C95_array",
    "C95_ufunc",
    "C95_others",
    "C95_own_reduce_partial",
    "C95_history_partial",
    "C95_registered",
    "C95_contents",
    "C95_attributes_partial",
    "C95_dtype_class",
    "C95_late_override_refuted",
    "C95_copyreg_refuted",
    "C95_deleted_attribute_refuted",
    "C95_case"
   ],
   "note": "REFUTED: a __reduce__ added to a class after one of its arrays has been dumped is ignored (the first dump registered the class for good); a function in copyreg's table is ignored for array classes; an attribute that __array_finalize__ sets and that had been deleted is back in the copy. Proved: everything else, for every history that does not change or register the class in between."
  },
  {
   "property": "C96",
   "status": "partial",
   "theorems": [
    "C96_covered",
    "C96_partial",
    "C96_next",
    "C96_raised_partial",
    "C96_circular_refuted",
    "C96_raised_refuted",
    "C96_submodule_refuted"
   ],
   "note": "REFUTED for modules that import each other (the inner import records the outer module half-way, so it counts as changed at once), for a dotted import whose last part raises (the package stays in sys.modules and is never recorded: has_changed is true, whats_changed raises), and for a submodule imported after its package was recorded. Proved: every module a successful import brings in is recorded; in programs whose imports do not go round in circles the records are exact after each import, raised or not, of a top-level module or of a module directly in a package not imported before; a failed undotted import leaves no unrecorded module."
  },
  {
   "property": "C97",
   "status": "partial",
   "theorems": [
    "C97_startup_partial",
    "C97_keeps_held",
    "C97_gone_refuted",
    "C97_pypy_refuted",
    "C97_underscore_refuted"
   ],
   "note": "REFUTED: release_gone itself holds four references where it counts them, so `< 4` is never met and nothing is ever released (CPython 3.11); without reference counts (lambda x: 0) every record is dropped; importing dill.diff deletes builtins._, also one installed by gettext. Proved: no held object is dropped; after startup the records of all modules are exact."
  },
  {
   "property": "C98",
   "status": "partial",
   "theorems": [
    "C98_objects",
    "C98_types",
    "C98_last_call_partial",
    "C98_twice",
    "C98_streamreader_refuted",
    "C98_registered_refuted"
   ],
   "note": "REFUTED: the name StreamReader does not contain Type, so it stays in dill.types after a call that does not ask for it (C98_streamreader_refuted); registered types are loaded even with pickleable=False (C98_registered_refuted). Proved: dill.objects exactly (C98_objects), dill.types exactly (C98_types), independence of the history for names that contain Type (C98_last_call_partial), idempotence (C98_twice)"
  },
  {
   "property": "C99",
   "status": "partial",
   "theorems": [
    "C99_exact_partial",
    "C99_sound",
    "C99_methods",
    "C99_code",
    "C99_no_code",
    "C99_terminates",
    "C99_twins_refuted"
   ],
   "note": "REFUTED for code objects that are equal but not identical (made with code.replace): nestedcode keeps one of them and the functions of the other are not found (C99_twins_refuted). Proved: exact for functions and frames without such twins (C99_exact_partial); what else can be in the result (C99_sound, C99_methods); termination (C99_terminates)"
  }
 ]
}