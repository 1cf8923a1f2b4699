{"id": "C01", "title": "loads(dumps(x)) rebuilds the whole object graph", "statement": "If dumps(x) succeeds, loads on its output succeeds and returns an object graph isomorphic to the one reachable from x: same atoms, same container contents and order, two references denote the same copy exactly when they denoted the same original object (sharing, aliasing and cycles preserved, nothing merged), for tuples, lists, dicts, sets, frozensets, reduce-built instances, functions saved by value, closure cells and dynamic classes; excepted are instances with list items reachable from their own class or constructor arguments (C56).", "quantifier": "every finite or infinite source heap, every root object, every shape of sharing and cycle, every recursion budget under which dumps succeeds", "why_tests_cant": "object graphs are unbounded in size, depth and cycle structure; tests sample a handful of shapes", "anchors": ["dill/_dill.py:dumps", "dill/_dill.py:loads", "dill/_dill.py:_save_with_postproc", "dill/_dill.py:save_function", "dill/_dill.py:save_cell", "dill/_dill.py:save_type", "dill/_dill.py:save_module_dict"]}
{"id": "C02", "title": "recursive closures are tied to the copy, empty cells stay empty", "statement": "For any function saved by value, after dumps/loads every closure cell of the copy holds the copy of what the original cell held; a cell that held the function itself (directly or through any containers or other functions) holds the copy, not the original and not None; a cell that was empty is empty.", "quantifier": "every closure nesting, every cycle through cells, every order in which cells and functions are met during the dump", "why_tests_cant": "the deferred cell updates are attached to an ordered stack of functions under construction; only all nesting orders together show that none is lost or run too early", "anchors": ["dill/_dill.py:save_cell", "dill/_dill.py:_create_cell", "dill/_dill.py:_save_with_postproc", "dill/_dill.py:save_function"]}
{"id": "C03", "title": "the result does not depend on the pickle protocol", "statement": "For every two protocols p, q in 0..5, whenever dumps(x, protocol=p) and dumps(x, protocol=q) succeed, loading the two pickles gives isomorphic object graphs.", "quantifier": "all objects, all pairs of protocols", "why_tests_cant": "the opcode sequences differ per protocol for tuples, lists, dicts and memo operations at every size and nesting", "anchors": ["dill/_dill.py:dump", "dill/_dill.py:Pickler"]}
{"id": "C04", "title": "a truncated pickle never loads", "statement": "If a dump is cut at any point (crash, full disk, short read), load on the prefix raises; it never returns an object.", "quantifier": "every dump, every strict prefix of it", "why_tests_cant": "there is one crash point per written opcode for every possible object", "anchors": ["dill/_dill.py:dump", "dill/_dill.py:load"]}
{"id": "C05", "title": "pickles written one after another are read back one after another", "statement": "After dump(x1,f) ... dump(xn,f) on one stream, n calls of load(f) from the start return copies of x1..xn in this order, and each load consumes exactly the pickle it returns, leaving what follows untouched.", "quantifier": "every list of objects and every trailing data", "why_tests_cant": "unbounded sequences and contents", "anchors": ["dill/_dill.py:dump", "dill/_dill.py:load", "dill/_dill.py:Pickler.dump"]}
{"id": "C06", "title": "functions that shared a globals dictionary still share it", "statement": "Two functions whose __globals__ is the same dictionary still have one common __globals__ dictionary after being dumped together and loaded, so an assignment through one is visible to the other.", "quantifier": "all sets of functions and globals dictionaries, module dictionaries and exec-created dictionaries alike", "why_tests_cant": "sharing is only visible in later writes; tests compare call results", "anchors": ["dill/_dill.py:save_function", "dill/_dill.py:_create_function"]}
{"id": "C07", "title": "dumps terminates on every well-founded graph", "statement": "dumps does not exceed a recursion depth computable from the number of reachable objects as long as no object needs itself to be constructed first; in particular cycles through lists, dicts, object state, function closures or function globals never exhaust the stack.", "quantifier": "all graphs whose construction-before edges are well-founded", "why_tests_cant": "recursion limits are only hit on inputs larger or more cyclic than tests use", "anchors": ["dill/_dill.py:save_cell", "dill/_dill.py:_save_with_postproc"]}
{"id": "C08", "title": "a pickle by reference always means the very same object", "statement": "Whenever dill stores a function or class by module and qualified name, looking that name up gives the identical object at dump time, so loading in the same environment returns the original object itself; objects of __main__ (or of the module being saved as a session) are never stored by reference by this rule.", "quantifier": "every object, every import state, every module and qualified name", "why_tests_cant": "import states and attribute paths are unbounded", "anchors": ["dill/_dill.py:_locate_function", "dill/_dill.py:_import_module", "dill/_dill.py:_getattribute", "dill/_dill.py:save_function", "dill/_dill.py:save_type"]}
{"id": "C09", "title": "every class is saved by the class saver, whatever its metaclass", "statement": "For any type key the dispatch lookup gives the function registered last for exactly that key; with none registered it gives dill's class saver when the key is a metaclass and nothing otherwise, both through indexing and through get with any default.", "quantifier": "all dispatch tables, all histories of registration, all keys", "why_tests_cant": "user registrations and metaclasses are unbounded", "anchors": ["dill/_dill.py:MetaCatchingDict", "dill/_dill.py:register", "dill/_dill.py:pickle"]}
{"id": "C10", "title": "extend(False) undoes extend(True)", "statement": "After any sequence of register/pickle/extend calls that ends with extend(use_dill=False), the standard pickle dispatch table is exactly what it was before dill was imported.", "quantifier": "all histories of registrations and extend calls", "why_tests_cant": "histories are unbounded", "anchors": ["dill/__init__.py:extend", "dill/_dill.py:_extend", "dill/_dill.py:_revert_extension", "dill/_dill.py:register"]}
{"id": "C11", "title": "explicit keyword beats settings, settings beat built-in defaults, at call time", "statement": "For dump/dumps/copy/load/loads each of protocol, byref, fmode, recurse, ignore takes the explicit argument when it is not None and otherwise the value dill.settings holds when the call is made; later changes of settings do not affect a pickler already built; dump_module always pickles with byref and recurse off and with the protocol from settings.", "quantifier": "all settings values, all argument combinations, all histories of settings changes", "why_tests_cant": "the combinations and histories are unbounded", "anchors": ["dill/_dill.py:dump", "dill/_dill.py:copy", "dill/_dill.py:Pickler.__init__", "dill/_dill.py:Unpickler.__init__", "dill/settings.py:settings", "dill/session.py:dump_module"]}
{"id": "C12", "title": "class lookup on load redirects only the documented names", "statement": "While unpickling, (__builtin__, __main__) gives the target main module's dictionary, (__builtin__, NoneType) gives type(None), module dill.dill is read as dill._dill, and every other (module, name) pair is looked up unchanged.  After load, an instance whose class lives in __main__ is repointed to the same-named class of the current main module exactly when ignore is false, such a class exists and Python allows the assignment; in every other case the object is returned as loaded.", "quantifier": "all module/name strings, all loaded objects, all main-module contents", "why_tests_cant": "strings and environments are unbounded", "anchors": ["dill/_dill.py:Unpickler.find_class", "dill/_dill.py:Unpickler.load"]}
{"id": "C13", "title": "function attributes survive", "statement": "For every function saved by value the copy has the same __name__, __qualname__, __module__, __doc__, __defaults__, __kwdefaults__, __annotations__, __dict__, code and closure.", "quantifier": "all functions with all combinations of attribute values, every supported Python version", "why_tests_cant": "each attribute takes arbitrary values, including None and values that differ from what the code object implies", "anchors": ["dill/_dill.py:save_function", "dill/_dill.py:_create_function"]}
{"id": "C14", "title": "code objects round-trip on every supported Python version", "statement": "On each of the supported versions (3.7, 3.8/3.9, 3.10, 3.11+, 3.11 alphas, PyPy 3.11) a code object dumped and loaded on that version has the same value in every constructor field.", "quantifier": "all field values on each version", "why_tests_cant": "field values are unbounded", "anchors": ["dill/_dill.py:save_code", "dill/_dill.py:_create_code", "dill/_dill.py:ALL_CODE_PARAMS"]}
{"id": "C15", "title": "code objects keep their meaning across Python versions", "statement": "A code object dumped on one supported version and loaded on any other keeps argcount, kwonlyargcount, nlocals, stacksize, flags, code, consts, names, varnames, filename, name, firstlineno, freevars and cellvars, keeps every other field both versions have, and gets the documented neutral default for fields only the loading version has.", "quantifier": "all code objects, all ordered pairs of versions", "why_tests_cant": "36 version pairs times unbounded field values; no test environment has them all", "anchors": ["dill/_dill.py:save_code", "dill/_dill.py:_create_code", "dill/_dill.py:match"]}
{"id": "C16", "title": "line-number tables are never handed over in the wrong format", "statement": "When a code object crosses versions, its line-number table is passed on only as the table format the loading version expects (lnotab below 3.10, linetable from 3.10).", "quantifier": "all code objects, all ordered pairs of versions", "why_tests_cant": "needs two interpreters and every table content", "anchors": ["dill/_dill.py:save_code", "dill/_dill.py:_create_code"]}
{"id": "C17", "title": "attribute lookup on a rebuilt class is unchanged", "statement": "For a dynamic class rebuilt from its pickle every attribute name resolves, along the method resolution order, to the same object as on the original class.", "quantifier": "all class hierarchies and class dictionaries", "why_tests_cant": "hierarchies and name clashes are unbounded", "anchors": ["dill/_dill.py:_get_typedict_type", "dill/_dill.py:save_type"]}
{"id": "C18", "title": "rebuilt classes keep their slots", "statement": "A class with __slots__ (string or sequence, private names included) is rebuilt with the same slots and without its member descriptors left in the class dictionary.", "quantifier": "all slot declarations and class names", "why_tests_cant": "name mangling depends on the class name and the slot name", "anchors": ["dill/_dill.py:save_type"]}
{"id": "C19", "title": "a namedtuple class comes back with its own fields", "statement": "Loading a pickled namedtuple class yields a class with the same name, fields and defaults as the one dumped.", "quantifier": "all namedtuple classes, all import states at load time", "why_tests_cant": "depends on what the target module holds at load time", "anchors": ["dill/_dill.py:_create_namedtuple", "dill/_dill.py:save_type"]}
{"id": "C20", "title": "HANDLE_FMODE reopens the file by name and mode", "statement": "With HANDLE_FMODE, loading a pickled file handle reopens the same name in the same mode with the position of a fresh open, closed if it was closed; nothing but what open() itself does happens to the file (a file missing at load time whose mode reads is replaced by an empty temporary file, see C23).", "quantifier": "all file contents, positions, modes, and all file-system changes between dump and load", "why_tests_cant": "file states between dump and load are unbounded", "anchors": ["dill/_dill.py:_save_file", "dill/_dill.py:_create_filehandle"]}
{"id": "C21", "title": "CONTENTS_FMODE never destroys existing data and clamps the position", "statement": "With CONTENTS_FMODE, loading never truncates or alters an existing file whatever the mode, creates a missing file empty when the handle's reported mode creates files (w, a, x), and sets the position to min(saved position, current end of file).", "quantifier": "all contents, positions and modes, all file-system changes between dump and load", "why_tests_cant": "unbounded file states", "anchors": ["dill/_dill.py:_create_filehandle"]}
{"id": "C22", "title": "FILE_FMODE restores contents, mode and position", "statement": "With FILE_FMODE, after loading, the named file has the contents it had at dump time, and the handle has the saved mode and position, whatever happened to the file in between.", "quantifier": "all contents, positions and modes, all file-system changes between dump and load", "why_tests_cant": "unbounded file states", "anchors": ["dill/_dill.py:_save_file", "dill/_dill.py:_create_filehandle"]}
{"id": "C23", "title": "standard streams and errors of file handles", "statement": "Open handles of stdin, stdout, stderr load as the process's own original standard streams, not repositioned or closed (fmode not FILE_FMODE); unless strictio is set, loading any other handle fails only with UnpicklingError, or TypeError for FILE_FMODE with mode wb, and a missing file opened for reading is replaced by an empty temporary file.", "quantifier": "all handles and file-system states", "why_tests_cant": "unbounded file states", "anchors": ["dill/_dill.py:_create_filehandle"]}
{"id": "C24", "title": "locks come back in the same state and usable", "statement": "A copied Lock is locked exactly when the original was; a copied RLock has the same owner and count, and a copy of an unlocked RLock can be acquired.", "quantifier": "all lock states, owners and recursion counts", "why_tests_cant": "depends on the whole lock state machine after load, including later acquire calls", "anchors": ["dill/_dill.py:save_lock", "dill/_dill.py:save_rlock", "dill/_dill.py:_create_lock", "dill/_dill.py:_create_rlock"]}
{"id": "C25", "title": "session files are never opened through a symlink", "statement": "On systems that provide O_NOFOLLOW, however another process creates, removes, replaces or relinks the session path between the system calls of dump_module or load_module, the file opened is never the target of a symbolic link at that path.", "quantifier": "all interleavings of the attacker with the system calls", "why_tests_cant": "race conditions: all schedules", "anchors": ["dill/session.py:_safe_open_for_writing", "dill/session.py:_safe_open_for_reading", "dill/session.py:_check_symlink"]}
{"id": "C26", "title": "session files written by dill are private", "statement": "The file dump_module writes to a given path has permissions 0600.", "quantifier": "all prior states of the path and all interleavings", "why_tests_cant": "depends on prior file states and schedules", "anchors": ["dill/session.py:_safe_open_for_writing"]}
{"id": "C27", "title": "the module name in a session file is identified without consuming it", "statement": "For every session written by dump_module with any protocol, if what the stream's peek(256) shows reaches the end of the stored module name (always so for a header within 256 bytes on a seekable stream or a freshly opened file), load_module identifies exactly that name; otherwise UnpicklingError is raised; either way nothing is consumed from the stream.", "quantifier": "all module names, protocols and contents", "why_tests_cant": "names and contents unbounded", "anchors": ["dill/session.py:_identify_module", "dill/session.py:_PeekableReader", "dill/session.py:_make_peekable"]}
{"id": "C28", "title": "load_module refuses a mismatched module and leaves no trace in sys.modules", "statement": "load_module raises ValueError exactly when the target module's kind (imported or module-type object) or name differs from the saved one; otherwise, when the target is a module-type object or is what sys.modules holds under its (undotted) name, it loads into that module, returning None when the target is __main__ or was passed in and the module otherwise; on success or failure at any point no __runtime__ entry remains in sys.modules and no other entry is changed except by importing.", "quantifier": "all saved names and kinds, all target modules, all sys.modules states, failures at any point", "why_tests_cant": "combinations and failure points unbounded", "anchors": ["dill/session.py:load_module"]}
{"id": "C29", "title": "load_module_asdict leaves sys.modules and the live module untouched", "statement": "For every saved session, load_module_asdict returns a dictionary with the saved contents and, whether it succeeds or raises at any point, sys.modules maps every name to what it mapped it to before.", "quantifier": "all sessions, all sys.modules states, failures at any point", "why_tests_cant": "failure points and module states unbounded", "anchors": ["dill/session.py:load_module_asdict"]}
{"id": "C30", "title": "refimported sessions restore every name", "statement": "For any module, splitting its namespace into imported references and saved values (refimported=True) and restoring it in the same environment gives back every name, bound to the same object for imported names and to the saved value otherwise; each name is handled exactly once.", "quantifier": "all module namespaces and all sets of imported modules", "why_tests_cant": "namespaces unbounded", "anchors": ["dill/session.py:_stash_modules", "dill/session.py:_restore_modules", "dill/session.py:_lookup_module", "dill/session.py:_module_map"]}
{"id": "C31", "title": "a failed dump_module does not lose the previous session", "statement": "If dump_module fails at any point (unpicklable object, full disk, crash), the previously saved session at the same path is still loadable; and every file dump_module opened is closed, a stream passed in is not.", "quantifier": "all failure points, all previous contents", "why_tests_cant": "one crash point per write", "anchors": ["dill/session.py:dump_module"]}
{"id": "C33", "title": "globalvars finds exactly the globals a function needs", "statement": "globalvars(f, recurse=True) returns a dictionary whose names are globals (or builtins, if asked) bound to the objects f sees, containing every global name mentioned in the code of f and its nested code that is bound, and closed under the same requirement for every function it reaches, so that a function dumped with recurse=True finds every global it uses.", "quantifier": "all functions, code nestings, closures and globals dictionaries", "why_tests_cant": "call graphs are unbounded", "anchors": ["dill/detect.py:globalvars", "dill/detect.py:nestedglobals"]}
{"id": "C34", "title": "globalvars terminates", "statement": "globalvars (and hence dumps with recurse=True) terminates for every function.", "quantifier": "all functions including mutually recursive ones", "why_tests_cant": "non-termination needs call-graph shapes tests do not contain", "anchors": ["dill/detect.py:globalvars"]}
{"id": "C35", "title": "freevars and nestedcode report exactly what is there", "statement": "freevars(f) maps exactly the free variables whose cells are not empty to the cell contents; nestedcode(f) is exactly the set of code objects nested at any depth (or depth one with recurse=False) in f's constants.", "quantifier": "all functions and code nestings", "why_tests_cant": "nesting depth unbounded", "anchors": ["dill/detect.py:freevars", "dill/detect.py:nestedcode"]}
{"id": "C37", "title": "parents/children return a shortest reference chain", "statement": "find_chain returns a chain of objects each referring to the next from a matching object to the start, of minimal length, not through ignored objects, whenever one of length at most depth exists, and [obj] otherwise.", "quantifier": "all reference graphs, predicates, depths, ignore sets", "why_tests_cant": "graphs unbounded", "anchors": ["dill/pointers.py:find_chain", "dill/pointers.py:parent"]}
{"id": "C38", "title": "parents/children honour their documented arguments and order", "statement": "parents(obj,...) ignores the objects passed as ignore and ends with obj; children(obj,...) ignores the objects passed as ignore and starts with obj.", "quantifier": "all reference graphs and ignore sets", "why_tests_cant": "graphs unbounded", "anchors": ["dill/pointers.py:parents", "dill/pointers.py:children"]}
{"id": "C39", "title": "pickles() tells the truth", "statement": "pickles(obj) returns True only if copying succeeded and the copy equals the original (exact=True) or equals it or has the same type (by identity or repr); it returns False when copying raises one of the trapped exceptions, and lets an exception escape only if safe is false and it is not one of the pickling-related ones.", "quantifier": "all objects, all outcomes of copy and comparison", "why_tests_cant": "outcomes of user-defined comparison and copy are unbounded", "anchors": ["dill/_dill.py:pickles"]}
{"id": "C40", "title": "pickles() leaves the warning filters as they were", "statement": "Calling pickles() never changes the user's list of warning filters.", "quantifier": "all filter lists, all comparison outcomes", "why_tests_cant": "depends on prior filters and on exceptions in user code", "anchors": ["dill/_dill.py:pickles"]}
{"id": "C41", "title": "baditems lists exactly the items that fail to pickle", "statement": "baditems(container) contains only items that fail to pickle, and every failing item has an equal item in the result.", "quantifier": "all containers and equality relations", "why_tests_cant": "container sizes and equality unbounded", "anchors": ["dill/detect.py:baditems", "dill/detect.py:badobjects"]}
{"id": "C42", "title": "indent then outdent is the identity", "statement": "outdent(indent(code, n), n) == code for every block of code that does not end in a whitespace-only line and uses spaces.", "quantifier": "all code blocks and all n", "why_tests_cant": "strings unbounded", "anchors": ["dill/source.py:indent", "dill/source.py:outdent", "dill/source.py:_outdent"]}
{"id": "C43", "title": "outdent removes only leading whitespace", "statement": "outdent(code) never removes a non-whitespace character, and removes from every line the same amount of indentation as from the first, or all of the line's indentation if it has less.", "quantifier": "all code blocks", "why_tests_cant": "strings unbounded", "anchors": ["dill/source.py:_outdent", "dill/source.py:outdent"]}
{"id": "C44", "title": "dump_source/load_source agree on the object's name", "statement": "For every source text and every name, the name load_source/loadIO_source reads back from what dump_source/dumpIO_source wrote is the name dumped, and an explicit alias overrides it.", "quantifier": "all source texts and names", "why_tests_cant": "strings unbounded", "anchors": ["dill/temp.py:dump_source", "dill/temp.py:load_source", "dill/temp.py:dumpIO_source", "dill/temp.py:loadIO_source"]}
{"id": "C45", "title": "capture always restores the stream", "statement": "After a capture(stream) block, however it ends and however blocks are nested, sys.<stream> is the object it was before, and the captured text is exactly what was written to it inside the block.", "quantifier": "all programs of nested blocks, writes and exceptions", "why_tests_cant": "nestings and exception points unbounded", "anchors": ["dill/temp.py:capture"]}
{"id": "C47", "title": "change detection is exact", "statement": "After memorise(obj), has_changed(obj) is true exactly if the object or something reachable from it has changed since.", "quantifier": "all object graphs, cyclic ones included, and all mutations", "why_tests_cant": "graphs unbounded", "anchors": ["dill/__diff.py:memorise", "dill/__diff.py:whats_changed"]}
{"id": "C48", "title": "the trace is a correctly nested tree", "statement": "For every dump with tracing on, entry and exit messages nest like brackets, each pair shows the same depth, depth returns to its starting value, and each reported size is the number of bytes written between the pair.", "quantifier": "all call trees and byte counts", "why_tests_cant": "trees unbounded", "anchors": ["dill/logger.py:TraceAdapter.trace", "dill/logger.py:TraceFormatter.format"]}
{"id": "C49", "title": "trace context managers restore level and handlers", "statement": "After any properly nested use of trace contexts, with or without redirection and however each block ends, the log level and the set of handlers are what they were.", "quantifier": "all nestings", "why_tests_cant": "nestings unbounded", "anchors": ["dill/logger.py:TraceManager"]}
{"id": "C50", "title": "the size suffix shows the right unit", "statement": "The trace's size suffix denotes, up to rounding down, the number of bytes it reports: n*1024^k bytes for n with the k-th binary prefix.", "quantifier": "all sizes", "why_tests_cant": "sizes unbounded", "anchors": ["dill/logger.py:TraceFormatter.format"]}
{"id": "C51", "title": "a named capsule is found by its name", "statement": "Loading a PyCapsule whose dotted name resolves to a valid capsule in the importing process returns that capsule, never a new capsule around the old process's pointer.", "quantifier": "all dotted names and module trees", "why_tests_cant": "module trees unbounded", "anchors": ["dill/_dill.py:_create_capsule"]}
{"id": "C53", "title": "cached functions, dictionary views, weak references keep their configuration", "statement": "A copied lru_cache wrapper has the same maxsize and typed setting; a copied dictionary view shows the same keys, values or items in the same order and is a live view of the copied dictionary; a copied weak reference is dead exactly if the original was dead or nothing else in the pickle refers to its target.", "quantifier": "all configurations, dictionaries and reference graphs", "why_tests_cant": "contents unbounded", "anchors": ["dill/_dill.py:save_lru_cache", "dill/_dill.py:save_dict_view", "dill/_dill.py:save_weakref", "dill/_dill.py:_create_weakref"]}
{"id": "C54", "title": "only __main__'s own dictionary loads as __main__'s dictionary", "statement": "A dictionary is restored as a reference to __main__.__dict__ (or a module's dictionary) only if it is that very dictionary.", "quantifier": "all dictionaries", "why_tests_cant": "contents unbounded", "anchors": ["dill/_dill.py:save_module_dict"]}
{"id": "C55", "title": "a weak proxy is pickled with the object it refers to", "statement": "Pickling a live weak proxy saves the object the proxy refers to, whatever the object's class is called and whatever it defines for str(); a dead proxy loads as a dead proxy.", "quantifier": "all targets, class names, addresses and strings", "why_tests_cant": "the target is found by reading an address off a string: strings unbounded", "anchors": ["dill/_dill.py:_proxy_helper", "dill/_dill.py:_locate_object", "dill/_dill.py:save_weakproxy"]}
{"id": "C56", "title": "the items of list-like and dict-like instances come back once each", "statement": "The copy of an instance whose reduce value carries list items or key-value items (subclasses of list and dict, deque, OrderedDict, defaultdict...) has the same number of items, in the same order, each the copy of the original's, also when the instance is among its own items, values or attributes.", "quantifier": "every object graph, every number of items, every cycle through items, attributes, class and constructor arguments, every protocol", "why_tests_cant": "batches and cycles are unbounded; an object met again while its class is being saved is the case the POP and GET of save_reduce is for", "anchors": ["dill/_dill.py:Pickler.save", "dill/_dill.py:save_type", "dill/_dill.py:_save_with_postproc"]}
{"id": "C57", "title": "a class saved by value keeps its bases", "statement": "The copy of a class that dill saves by value has the copies of the same bases in the same order, and therefore the same method resolution order; isinstance and issubclass hold of the copies as of the originals.", "quantifier": "all class hierarchies, classes written with typing aliases or other __mro_entries__ objects among their bases, saved by value or by reference", "why_tests_cant": "hierarchies are unbounded, and the choice of constructor depends on attributes inherited from any ancestor", "anchors": ["dill/_dill.py:save_type", "dill/_dill.py:_create_type"]}
{"id": "C58", "title": "A module pickles by name if installed, with its contents if it is the user's", "statement": "dumps of a module that comes with the interpreter or is installed records its dotted name only: loads gives the module registered under that name in the loading process and changes nothing there. dumps of any other module records its name and its namespace: loads gives the module of that name, with each name it had (except __builtins__ and __loader__) set to the copy of the value it had at dump, and every other name of it, every other module and sys.modules unchanged.", "quantifier": "every module name and file, every set of interpreter directories and extension suffixes, every namespace, every loading process, every copying of values", "why_tests_cant": "the classification depends on paths of the machine, the effect on the state of another process; tests use the modules at hand", "anchors": ["dill/_dill.py:save_module", "dill/_dill.py:_is_builtin_module", "dill/_dill.py:_is_imported_module", "dill/_dill.py:_import_module"]}
{"id": "C59", "title": "A slot or C descriptor comes back as its own class's entry", "statement": "loads(dumps(d)), for a member, getset, method, wrapper or classmethod descriptor d, is the entry d.__name__ of what d.__objclass__ loads as, whatever names the class has in other modules.", "quantifier": "every class name and entry name, every process that loads", "why_tests_cant": "the loader evaluates text taken from the repr of the descriptor in dill's own module, so the outcome depends on every name there and on the user's choice of names", "anchors": ["dill/_dill.py:_getattr", "dill/_dill.py:save_wrapper_descriptor"]}
{"id": "C60", "title": "Properties, static and class methods come back working and documented", "statement": "loads(dumps(p)) for a property p has the copies of its getter, setter and deleter and the same __doc__, and getter/setter/deleter calls on it give what they give on p; for a staticmethod or classmethod the copy wraps the copy of the function and has the same attributes.", "quantifier": "every property made by property() and getter/setter/deleter calls, every documentation, every static or class method and attribute", "why_tests_cant": "the documentation rules of property depend on how it was made; tests check one property", "anchors": ["dill/_dill.py:save_property", "dill/_dill.py:save_classmethod"]}
{"id": "C61", "title": "check() tells whether another interpreter can load the pickle", "statement": "check(obj, python=p, verbose=True) runs the interpreter p on a program that loads exactly the bytes of dumps(obj), and prints SUCCESS if that program ends normally, LOAD FAILED if not, DUMP FAILED if the dump raised.", "quantifier": "every pickle (every byte string), every path of an interpreter, every outcome of the other process", "why_tests_cant": "the pickle travels as source text in a command line: every byte must survive repr, splitting into words and the reading of the literal", "anchors": ["dill/_dill.py:check"]}
{"id": "C62", "title": "badobjects, badtypes and errors report exactly what fails, to the depth asked for", "statement": "badobjects(obj, depth) holds, under each path of depth attributes all of whose objects fail to pickle, the object at its end, and nothing else; badtypes holds the types of the same objects; errors holds the exceptions, also of attributes that cannot be had; with depth 0 they are None exactly if the object pickles.", "quantifier": "every object graph and its attributes, every depth, every outcome of pickling", "why_tests_cant": "recursion over arbitrary attribute graphs and depths; tests look at one object at depth 0 or 1", "anchors": ["dill/detect.py:badobjects", "dill/detect.py:badtypes", "dill/detect.py:errors"]}
{"id": "C63", "title": "Builtin types pickle by name and come back the same", "statement": "loads(dumps(t)) is t for every type that has a name in builtins or types or in dill's own table; in another Python it is the type that has this name there.", "quantifier": "every content of builtins, types and dill's table, aliases included, in the dumping and the loading Python", "why_tests_cant": "the table is inverted when several names mean one type, and it differs between Pythons", "anchors": ["dill/_dill.py:_create_typemap", "dill/_dill.py:_reverse_typemap", "dill/_dill.py:_typemap", "dill/_dill.py:_load_type", "dill/_dill.py:save_type"]}
{"id": "C64", "title": "Ranges come back with the same start, stop and step", "statement": "loads(dumps(r)) for a range r has the start, stop and step of r.", "quantifier": "all integers start, stop and step (not 0), every limit on digits in both processes", "why_tests_cant": "the range travels as text that is evaluated; all integers", "anchors": ["dill/_dill.py:save_singleton", "dill/_dill.py:_eval_repr"]}
{"id": "C65", "title": "Mapping proxies and dictionary views keep showing their mapping", "statement": "loads(dumps((m, p))) for a mappingproxy or a dictionary view p of m: the copy of p shows the copy of m, also after changes to it; m is not changed by pickling.", "quantifier": "every class of mapping as far as its | and copy() go, every heap of mappings, every later change", "why_tests_cant": "the mapping behind the proxy is got with the | operator, whose outcome depends on the class of the mapping", "anchors": ["dill/_dill.py:save_dictproxy", "dill/_dill.py:save_dict_view", "dill/_dill.py:_dictproxy_helper"]}
{"id": "C66", "title": "getimport gives a statement that imports the object", "statement": "With verify=True, getimport(obj, alias) gives the text of an import statement such that running it binds exactly the alias (or, with no alias, the object's name) to obj, for every object that is an attribute or submodule of the module it belongs to; the package used is the longest part of the module's path that provides the name. A builtin needs no import: the text binds the alias to it, or is its bare name. A text that fails when run is never returned, and a text binding some other object is never returned.", "quantifier": "every tree of modules and attributes, every dotted module path of any depth, every object name, every alias, with and without builtin=True", "why_tests_cant": "the search walks up a package path of any depth and the statements are verified against whatever modules exist; tests run a handful of imports of stdlib objects", "anchors": ["dill/source.py:getimport", "dill/source.py:_getimport", "dill/source.py:_namespace"]}
{"id": "C67", "title": "dumpsource gives text that rebuilds the object", "statement": "Running the text of dumpsource(obj, alias) binds alias to loads(dumps(obj)) and, with enclose=True (the default), binds no other global name; with enclose=False it binds only alias and dill. If the pickle does not load, running the text raises. With new=True the instance is rebuilt from the class text for use in the module where the text runs, whatever that module's name.", "quantifier": "every pickle (any bytes), every alias, every global namespace the text is run in, with and without enclose and new", "why_tests_cant": "the pickle is any byte string, written as a literal within generated, re-indented, text; tests run it for a handful of objects", "anchors": ["dill/source.py:dumpsource", "dill/source.py:_enclose", "dill/source.py:indent"]}
{"id": "C68", "title": "findsource finds the definition", "statement": "findsource(obj) gives the line where obj is defined: for a function of a file the line of its def statement (or its first decorator, or its lambda); for a function of an interactive session its last definition with its decorators; for a class the line of the class statement that defines it, or an IOError if the file has none.", "quantifier": "every file or history (any number of lines, any text), every name, every line a function may start at, every indentation", "why_tests_cant": "the search is by regular expressions over arbitrary text, and what it finds depends on all the other lines of the file", "anchors": ["dill/source.py:findsource"]}
{"id": "C69", "title": "Virtual subclasses survive a copy of the abstract base class", "statement": "After loading a pickle of abstract base classes and classes saved by value, issubclass of the copies answers as issubclass of the originals does: a class registered with an abstract base class is still a subclass of the copy (itself, or its copy if it is in the pickle too), nothing becomes a subclass that was none, and no existing class's registry changes.", "quantifier": "all worlds of classes (any MROs, bases, registries), all sets of classes saved by value, all choices of new identities, all pairs of classes", "why_tests_cant": "issubclass is a transitive search through registries and subclasses; tests try one registration at a time", "anchors": ["dill/_dill.py:_get_typedict_abc", "dill/_dill.py:save_type", "dill/_dill.py:_save_with_postproc"]}
{"id": "C70", "title": "A copied class has the original's attributes, whatever hooks its bases have", "statement": "After loading a class saved by value, every attribute of the copy's own dictionary is the copy of the original's, also if base classes define __init_subclass__ or values define __set_name__; every class that could be created can be loaded; loading leaves existing classes and base-class bookkeeping as they were.", "quantifier": "all sets of cooperative __init_subclass__ hooks with any parameters and defaults, all namespaces, class keywords, later assignments, metaclasses with and without a namespace of their own", "why_tests_cant": "hooks are user code run again at load; tests use classes without keywords", "anchors": ["dill/_dill.py:_create_type", "dill/_dill.py:save_type", "dill/_dill.py:_setitems"]}
{"id": "C71", "title": "The pickle of a function or class saved by value is self-contained", "statement": "If dumps of a function or class that is saved by value (not importable, or byref off and in __main__) succeeds, then loads rebuilds the object from the pickle and the importable things it refers to: the result does not depend on what the name of the function or class is bound to in the loading process.", "quantifier": "every object graph of tuples, lists, dicts, sets, frozensets, instances, functions, classes and cells, every protocol, every assignment of names to objects, every set of names defined in the loading process", "why_tests_cant": "The decision to fall back to a name depends on which objects are on the pickler's stack of deferred updates when an object is met again, so on the whole graph; tests load in the process that dumped, where the name is still defined.", "anchors": ["dill/_dill.py:_save_with_postproc", "dill/_dill.py:save_type", "dill/_dill.py:save_function", "dill/_dill.py:save_cell"]}
{"id": "C72", "title": "Functions can be pickled with recurse=True from several threads", "statement": "Whatever the thread schedule, dumps(f, recurse=True) (and globalvars) in one thread finds the globals f refers to; what other threads print in the meantime reaches the terminal and is not taken for names; and sys.stdout is the terminal again when all threads are done.", "quantifier": "any number of threads, each with any sequence of functions to pickle and lines to print, and every interleaving of their steps", "why_tests_cant": "The disassembly is captured by replacing sys.stdout, which all threads share; a wrong interleaving occurs rarely and no test can enumerate the schedules of any number of threads.", "anchors": ["dill/detect.py:nestedglobals", "dill/detect.py:globalvars", "dill/temp.py:capture"]}
{"id": "C73", "title": "importable gives text for the object it was asked for", "statement": "importable(obj, source=...) ends, and gives the import or the source text of obj with the sources of the globals it refers to, whichever of the two ways is tried first and works; it raises only if neither way works. getsource(instance, force=True) finds the class of the instance by name.", "quantifier": "every object, every outcome of the searches for imports and sources of the object, its closure and its globals, every class and module name", "why_tests_cant": "The fallback depends on which of many searches fail, and the failing search can be in the middle of a loop over the globals; class names are arbitrary strings.", "anchors": ["dill/source.py:importable", "dill/source.py:getsource"]}
{"id": "C74", "title": "getsource(enclosing=True) gives the outermost enclosing function", "statement": "dill.source.getsource(f, enclosing=True) ends for every text; the text it gives has the source of f in it and begins at the line number reported; it is the source of the outermost function around f, with that function's decorators; with no function around f, or without enclosing, it is the source of f alone.", "quantifier": "every file text (list of lines), every length of block, every position of the object in it, every nesting of functions and decorators", "why_tests_cant": "the search jumps over blocks and matches text, so which block wins depends on all the text before the object; tests use a few layouts", "anchors": ["dill/source.py:getblocks", "dill/source.py:getsourcelines"]}
{"id": "C75", "title": "loads only ever changes the class of the object it returns", "statement": "dill.loads (ignore=False) re-points the returned object's __class__ to the class of the same name in __main__, and does so only if the object's class belongs to __main__; it never touches any other object of the pickle, any class, or the object's attributes, and with ignore=True it changes nothing. Two objects that had the same class when dumped have the same class when loaded, and the object never ends up with an unrelated class.", "quantifier": "every process state (classes, objects, namespace of __main__, name of __main__), every loaded graph, both values of ignore", "why_tests_cant": "The effect depends on what __main__ of the loading process binds to the class's short name, on nesting, on __setattr__ hooks and on object layout; tests try one module.", "anchors": ["dill/_dill.py:Unpickler.load", "dill/_dill.py:loads"]}
{"id": "C76", "title": "temp.load gives back what temp.dump wrote, for as long as the handle is kept", "statement": "The file handle returned by dill.temp.dump (and the buffer of dumpIO) can be loaded at any later time and any number of times, through the handle or by the file's name, whatever else is done with it (reading, seeking, appending) and with other files, until it is closed; when the handle of a default dump is closed the file is gone.", "quantifier": "every history of dumps, writes, seeks, flushes (also partial ones by the stream's buffer), closes and unlinks, every pickle format that delimits itself", "why_tests_cant": "The claim is about all histories between the dump and the load, including what the buffered stream has not written out yet.", "anchors": ["dill/temp.py:dump", "dill/temp.py:load", "dill/temp.py:dumpIO", "dill/temp.py:loadIO"]}
{"id": "C77", "title": "a failed temp.dump leaves no file behind", "statement": "If dill.temp.dump raises because the object cannot be pickled, the directory is left as it was.", "quantifier": "every world, every object whose pickling fails after any number of writes, every buffer spill", "why_tests_cant": "What is left depends on how much had been written and spilled when the exception came, and on the keyword arguments.", "anchors": ["dill/temp.py:dump"]}
{"id": "C78", "title": "one Pickler, several dumps", "statement": "What is dumped in turn with one dill.Pickler is read back by one dill.Unpickler with as many loads: all the loaded values together are isomorphic to the originals, objects shared between different dumps included, and earlier results are not touched by later loads. If clear_memo() is called before every dump, each dump can be read on its own by a new Unpickler (dill.load).", "quantifier": "every list of values in every well-formed object graph, every protocol, every rest of the stream", "why_tests_cant": "Sharing across dumps works through memo entries that outlive a dump and through deferred updates; it must hold for every history of dumps.", "anchors": ["dill/_dill.py:Pickler", "dill/_dill.py:Pickler.dump", "dill/_dill.py:Unpickler.load", "dill/_dill.py:_save_with_postproc", "dill/_dill.py:load"]}
{"id": "C79", "title": "a Pickler can be used again after a failed dump and clear_memo()", "statement": "After a dump that raised (or succeeded), clear_memo() makes a dill.Pickler as good as new: the next dump writes exactly what a new Pickler would write.", "quantifier": "every object graph, every point of failure, every protocol, every earlier history", "why_tests_cant": "What a failed dump leaves in the Pickler depends on where it stopped; the damage shows only in later, unrelated dumps.", "anchors": ["dill/_dill.py:Pickler", "dill/_dill.py:_save_with_postproc", "dill/_dill.py:save_cell", "dill/_dill.py:save_function"]}
{"id": "C80", "title": "Subclasses of dill.Pickler behave as dill.Pickler", "statement": "A class that inherits from dill.Pickler, wherever it is defined, stores dictionaries, functions, modules and open files the way dill.Pickler with the same settings does; a pickler that does not inherit from it is never asked for dill's attributes.", "quantifier": "every module name the subclass may be defined in, every setting, every dictionary, module and function", "why_tests_cant": "whether a pickler counts as dill's depends on the letters of the name of the module that defines it; a test defines one subclass in one module", "anchors": ["dill/_dill.py:is_dill", "dill/_dill.py:save_module_dict", "dill/_dill.py:_locate_function", "dill/_dill.py:_save_file", "dill/_dill.py:save_module", "dill/logger.py:TraceAdapter.trace_setup"]}
{"id": "C81", "title": "Keys and set elements are complete when they are inserted on load", "statement": "While dill.loads rebuilds a pickle made by dill.dumps, every value that is hashed in order to insert it as a dictionary key or set element (in a dictionary, a set, a frozenset, or the mapping items of an instance) is the counterpart of a key or element of the same container in the dumped graph, and at that moment everything the key leads to (its attributes, the class it is an instance of, the methods of that class, their closures and globals) has already been restored, so a user-defined __hash__ or __eq__ sees the same state it saw when the object was dumped. Exempt: keys that lead back to the container they are in.", "quantifier": "all well-formed object graphs, all roots, all protocols 0-5, every insertion that happens while the resulting stream is loaded", "why_tests_cant": "__hash__ runs in the middle of the load, and what is complete at that point depends on the order in which the whole graph around the key (functions, classes, cells, recursive attributes) was traversed and on what was postponed; a test sees one graph and one order", "anchors": ["dill/_dill.py:_save_with_postproc", "dill/_dill.py:save_cell", "dill/_dill.py:save_function", "dill/_dill.py:save_type", "dill/_dill.py:save_module_dict", "dill/_dill.py:_setitems"]}
{"id": "C82", "title": "load_module restores the whole session or leaves the namespace as it was", "statement": "If dill.load_module stops early, at whatever opcode of the session file (the file is cut short, a class is missing, an object's constructor raises, the process is interrupted), every module's namespace is as it was before the call; if it returns, every saved name is bound to the loaded counterpart of its saved value (sharing and cycles between names included, the module's own functions using the live module's globals) and every other name is as before.", "quantifier": "all modules and object graphs, all protocols, every number of opcodes executed before the failure, every previous content of the namespace, every outcome of looking up the imported names (refimported=True)", "why_tests_cant": "the failure point ranges over every opcode of every session file; a test can cut a file at one place and look at one module", "anchors": ["dill/session.py:load_module", "dill/session.py:_restore_modules", "dill/_dill.py:save_module", "dill/_dill.py:save_module_dict"]}
{"id": "C83", "title": "Source text with an alias binds the alias", "statement": "dill.source.getsource(obj, alias=a) returns a text that, executed, binds the variable a to the object whose source it is, and binds every other variable as executing the plain source does.", "quantifier": "every callable, class or instance, every source text it may have (decorators, chained assignments, several physical lines), every alias and every namespace the text is executed in", "why_tests_cant": "the text is assembled by line-based string surgery; which branch is taken depends on the exact characters of user source, of which tests see a handful", "anchors": ["dill/source.py:getsource", "dill/source.py:_outdent"]}
{"id": "C84", "title": "The name of a lambda is the variable it was assigned to", "statement": "dill.source.getname(f) of a lambda is a name that executing its source binds to that lambda; of any other function or class it is its __name__.", "quantifier": "every source text of a lambda and every name", "why_tests_cant": "the name is cut out of the source text at the first '='; any text may stand there", "anchors": ["dill/source.py:getname", "dill/source.py:getsource"]}
{"id": "C85", "title": "getimport imports the object by its module and name", "statement": "For a function, class or assigned lambda that its module holds under its name, dill.source.getimport(obj, alias) returns `from module import name [as alias]`, and executing it binds that name (or the alias) to the very object.", "quantifier": "every dotted module name, object name, alias, module contents and builtin flag", "why_tests_cant": "the module's name is parsed out of the text of its repr and the statement is verified only for being executable, not for the object it binds", "anchors": ["dill/source.py:_namespace", "dill/source.py:getimport", "dill/source.py:getname"]}
{"id": "C86", "title": "outermost gives the function that encloses a closure", "statement": "detect.outermost(func), for every function or method, is a global of func's whose own source lines are exactly the enclosing source of func and whose name occurs in them; None is returned only if there is no such global; if only one global has that source it is the function that made func.", "quantifier": "every function, globals dictionary and source file", "why_tests_cant": "a test has one closure in one file; the claim is about every set of globals, including ones whose sources coincide or are missing", "anchors": ["dill/detect.py:outermost"]}
{"id": "C87", "title": "importable imports a function made by another function", "statement": "importable(f, alias, source=False), for a function f made by calling another (v = outer(...), v = outer(inner, ...) or @outer), gives a statement that, run in a process with the module, binds v, or the alias, to f.", "quantifier": "every file, module, closure and alias", "why_tests_cant": "the line that made the function is found by a regular expression over the whole file: the claim is about every file, not the ones of the test-suite", "anchors": ["dill/source.py:_closuredimport", "dill/source.py:importable", "dill/source.py:_getimport", "dill/detect.py:outermost"]}
{"id": "C88", "title": "Source text of closures defines all they refer to", "statement": "importable(f, alias, source=True) of a function, nested or decorated, gives a text that, executed, binds the function's name or the alias to the function, and binds every name the function refers to - its globals, its free variables, and those of the functions among its free variables - to the object it refers to.", "quantifier": "every graph of closures, every source text of the functions and variables, every alias, every namespace the text is executed in, every recursion limit", "why_tests_cant": "the text is assembled by recursion over the closure graph; whether it is right depends on all the names in all the scopes of the graph", "anchors": ["dill/source.py:_closuredsource", "dill/source.py:importable", "dill/detect.py:freevars"]}
{"id": "C89", "title": "Calling a wrapped function calls that function", "statement": "Calling dill.source._wrap(f) calls f - or raises ImportError for f if its text cannot be had or run - whatever wrapped functions f calls in turn, and in any number of threads; it changes no name of dill.source but _.", "quantifier": "every set of wrapped functions, every nesting of their calls, every number of threads and every schedule", "why_tests_cant": "the function is passed through one global variable of dill.source: whether a call gets its own depends on the interleaving of all threads and on all names the executed texts bind", "anchors": ["dill/source.py:_wrap", "dill/source.py:getimportable"]}
{"id": "C90", "title": "Shims load as the reader's own definition", "statement": "A compatibility shim of dill (an object or function dill keeps under a name for some Python versions, with a default for the others) loads, in every interpreter, as the definition that interpreter's dill has under the name, and as the default if it has none; used as the function of a pickled call, that is what is called with the reloaded arguments; calling it directly does the same in the current interpreter. A shim whose default is not callable is refused as a function when dumping. Registering publishes a definition in dill._dill under its name and changes nothing else, however often it is done.", "quantifier": "every shim name, default, definition, argument list, writing and reading interpreter", "why_tests_cant": "the reader may be any other Python and dill version; tests run one version, in which shims have no override", "anchors": ["dill/_shims.py: Reduce, _CallableReduce, Getattr, move_to, register_shim"]}
{"id": "C91", "title": "Slices, bound methods, super objects and contexts keep their parts", "statement": "For every slice, bound method and super object whose parts dill can copy, the copy is of the same kind with the copies of the same parts: start, stop and step; the very function and the instance, even if the instance has another attribute of that name; class and instance, or no instance for an unbound super. On PyPy a builtin method is the attribute of that name of the copied instance. A contextvars.Context is either refused when dumping or comes back equal.", "quantifier": "every part, any nesting, every attribute a class may define, CPython and PyPy", "why_tests_cant": "parts are arbitrary objects, and classes may define any attribute", "anchors": ["dill/_dill.py: save_slice, save_instancemethod0, save_super, save_context"]}
{"id": "C92", "title": "Constants come back as the reader's own objects", "statement": "MISSING, KW_ONLY, the default-factory marker and the field kinds of dataclasses load as the very constants of the reading interpreter, so identity tests against them keep their result; a Sentinel can be dumped exactly if its module holds it under its (dotted) name, and loads as what the reading interpreter has there.", "quantifier": "every constant, sentinel name and module, every writing and reading interpreter", "why_tests_cant": "identity in another interpreter; sentinels of any name", "anchors": ["dill/_dill.py: Sentinel, save_dataclasses_HAS_DEFAULT_FACTORY_CLASS, save_dataclasses_MISSING_TYPE, save_dataclasses_KW_ONLY_TYPE, save_dataclasses_FIELD_BASE"]}
{"id": "C93", "title": "Parametrised types load as equal types", "statement": "Every parametrised type that the typing module makes - Tuple, List, Dict and the like, generic classes with type variables or a ParamSpec, nested to any depth, with forward references, None, ellipses - loads as a parametrised type equal to it, in the same Python version, and in any other as the type that version makes for the same expression.", "quantifier": "every expression, depth, number of arguments, pair of Python versions (before 3.11 / from 3.11 on)", "why_tests_cant": "infinitely many types; two interpreter versions are needed", "anchors": ["dill/_dill.py: save_generic_alias, _create_typing_tuple"]}
{"id": "C94", "title": "getsource of an interactive lambda gives its own line", "statement": "For every lambda defined in an interactive session, and every history, dill.source.findsource gives the line of the history on which that lambda was written, or raises IOError.", "quantifier": "every history, lambda (with or without free variables), bytecode of any Python version", "why_tests_cant": "every history of an interactive session; the bytecodes of every Python version", "anchors": ["dill/source.py: _matchlambda, findsource"]}
{"id": "C95", "title": "numpy arrays keep their data and attributes, and classes their own pickling", "statement": "An array of numpy.ndarray or any subclass is dumped by dill's array function and loads with the same class, data and instance attributes; if its class overrides __reduce__ or __reduce_ex__, or has a function registered with dill or copyreg, that is used instead; ufuncs go by name; no other object is affected by numpy's presence; and none of this depends on what was dumped before.", "quantifier": "every class hierarchy, every sequence of registrations, class changes and dumps, every set of attributes, with and without numpy", "why_tests_cant": "the registration happens while dumping, so the result may depend on the whole history of the process", "anchors": ["dill/_dill.py: Pickler.save, ndarraysubclassinstance, numpyufunc, numpydtype, _create_array, MetaCatchingDict"]}
{"id": "C96", "title": "dill.diff's import hook records every module in the state in which its import left it", "statement": "After dill.diff has been imported, any import statement anywhere in the program leaves every module it brought into sys.modules memorised in the state it has when the import is over; from then on has_changed(module) is true exactly if something reachable from the module has been changed after the import.", "quantifier": "every program (module bodies, nesting of imports, packages, failing imports), every import, every later history of changes", "why_tests_cant": "programs can nest imports to any depth and in any order; a test imports one or two modules", "anchors": ["dill/__diff.py:_imp", "dill/__diff.py:memorise", "dill/__diff.py:has_changed"]}
{"id": "C97", "title": "importing dill.diff records what is loaded; release_gone forgets only, and all, objects nobody holds", "statement": "Importing dill.diff memorises every module in sys.modules in its present state and changes nothing else in the program; release_gone() drops the record of an object exactly if nothing but dill.diff's own tables refers to it.", "quantifier": "every heap, every set of loaded modules, every reference count", "why_tests_cant": "depends on reference counts of every object in the process", "anchors": ["dill/__diff.py:release_gone", "dill/__diff.py:memorise", "dill/__diff.py:_imp"]}
{"id": "C98", "title": "load_types loads exactly the types asked for", "statement": "After load_types(pickleable, unpickleable), whatever was loaded before, dill.types holds, for the objects of the two tables the last call asked for, their types under their names, and no other types of the tables; dill.objects holds the same objects; other entries of both stay; calling it twice is calling it once.", "quantifier": "every contents of the tables, every history of calls of load_types, every other contents of dill.objects and of the module dill.types", "why_tests_cant": "A test makes one or two calls with the tables of one interpreter; the claim is about all histories and all tables (they depend on version and platform).", "anchors": ["dill/__init__.py:load_types", "dill/objtypes.py", "dill/_objects.py"]}
{"id": "C99", "title": "referrednested finds exactly the functions made from nested code", "statement": "referrednested(func) ends and returns, of all live functions and frames, those whose code object is a constant of func's code (at any depth, or directly with recurse=False), and no others.", "quantifier": "every heap of functions, methods, frames, tracebacks, code objects and other objects, every func, recurse both ways", "why_tests_cant": "Which functions exist depends on what has been called before; a test builds a few. The claim is about every heap and nesting depth.", "anchors": ["dill/detect.py:referrednested", "dill/detect.py:nestedcode", "dill/detect.py:code"]}
{"id": "C100", "title": "importable of an instance: the import of its class and its repr", "statement": "dill.source.importable(obj, alias, source=False), for an instance of a class of an importable module, returns a text that imports what the repr calls and binds the alias to the value of the repr: run in any namespace it leaves the alias bound to the rebuilt object, and nothing else changed but the imported name. The text runs exactly if the module has what the repr calls and that call succeeds. An instance whose repr is in angle brackets is never given by its repr: its source is given, or an exception raised.", "quantifier": "all instances (module path, class, repr, alias), all sets of loaded modules, all namespaces the text is run in, all results of getsource", "why_tests_cant": "the texts depend on the repr, class and module of any user object; tests show a few classes", "anchors": ["dill/source.py: _importable, getname, _isinstance, _namespace, getimport"]}
{"id": "C101", "title": "the import text of a builtin value is its repr", "statement": "For a value of a builtin class (number, string, list, tuple, dict, range, ...), dill.source.getimport(value, alias) and importable(value, alias) return the line `alias = repr(value)` (or `repr(value)`), so that executing it binds the value.", "quantifier": "every value of every builtin class, every repr, alias, builtin flag and module contents", "why_tests_cant": "the text is chosen by parsing the repr for angle brackets and by trying an import statement made of the repr, so it depends on the text of the value", "anchors": ["dill/source.py:getimport", "dill/source.py:_getimport", "dill/source.py:_namespace", "dill/source.py:_closuredimport"]}
{"id": "C102", "title": "what its module and name lead to is stored by reference", "statement": "A function or class of an importable module other than __main__ (or the module being saved as a session), in a package or not, that its __module__ and __qualname__ lead to, is stored by reference and not copied; one they do not lead to is stored by value.", "quantifier": "every import state, package structure, dotted module name, qualified name and object", "why_tests_cant": "the module is found by attribute access on its package, whose attributes are arbitrary", "anchors": ["dill/_dill.py:_locate_function", "dill/_dill.py:_import_module", "dill/_dill.py:save_function", "dill/_dill.py:save_type"]}
{"id": "C103", "title": "Loading a session from a stream reads exactly one session and leaves the stream usable", "statement": "load_module and load_module_asdict, given an open file-like object that can be looked into (peek(), or working tell() and seek()), read exactly one session from it: several sessions written one after the other in one stream are loaded in turn by as many calls, and what follows stays to be read. A call that refuses the session (not identified, wrong module) has read nothing. A stream that cannot be looked into is refused untouched unless the module is named. A stream passed open stays open; a file opened for a path is closed in every outcome.", "quantifier": "every file-like object (any combination of peek, tell, seek, readinto; tell/seek working or raising OSError), every content, every number of sessions, every outcome of the call", "why_tests_cant": "tests load one session from one io.BytesIO or one path", "anchors": ["dill/session.py:_PeekableReader", "dill/session.py:_make_peekable", "dill/session.py:load_module", "dill/session.py:load_module_asdict"]}
{"id": "C104", "title": "Old names of the session functions and arguments do the same as the new ones", "statement": "dump_session and load_session, and the old argument names main and byref, ask for exactly what dump_module and load_module with module and refimported ask for, with a PendingDeprecationWarning each; giving an argument under both names is refused before any file is touched; the SecurityWarning about the default path in a world-writable directory is given exactly once by every call without a file name and by no other; load_module_asdict takes no module.", "quantifier": "every combination of arguments and keywords, every file argument", "why_tests_cant": "tests use one call of the old functions; the argument combinations (values that count as false, both names, further keywords for the pickler) are not enumerable", "anchors": ["dill/session.py:dump_module", "dill/session.py:dump_session", "dill/session.py:load_module", "dill/session.py:load_session", "dill/session.py:load_module_asdict", "dill/session.py:_warn_if_default_path"]}
{"id": "C105", "title": "globalvars(recurse=False) binds exactly the names the function and its closure list", "statement": "For functions of one module, globalvars(func, recurse=False, builtin) returns exactly the names listed by func's own code or by a function held, directly or not, in its closure that are bound in the module (or, with builtin=True, are builtins), each bound to what func sees under it, and no others: a global that is itself a function is not searched. For a code object it returns the builtins it names if builtin=True and {} otherwise; for anything else {}. It always returns.", "quantifier": "all object graphs, functions, methods, closures with empty cells, module dictionaries, builtins, and both values of builtin", "why_tests_cant": "ranges over unbounded graphs of closures; tests look at a few functions and at recurse=True", "anchors": ["dill/detect.py:globalvars", "dill/detect.py:referredglobals"]}
{"id": "C106", "title": "An object's module does not depend on what was asked before; isfrommain and isdynamic are exact", "statement": "getmodule(obj) of an object that has a __module__ (function, method, class, instance) is the module imported under that name, whatever was asked before, and isfrommain(obj) is true exactly if that module calls itself __main__; of a code object, frame or traceback it is the imported module that comes from its file, after any history of imports and questions. A value without a module (a number, a list) has none; with force=True it is builtins exactly for values shown by a name of builtins. isdynamic(obj) is true exactly for functions and methods of __main__ typed at the prompt, and false for everything else.", "quantifier": "all objects, module registries, files, symbolic links, and all histories of imports and questions (the caches of inspect outlive a call)", "why_tests_cant": "histories and registries are unbounded; tests ask once, about their own module", "anchors": ["dill/detect.py:getmodule", "dill/source.py:isfrommain", "dill/source.py:isdynamic"]}
{"id": "C107", "title": "trace output arrives whatever the encoding of the stream", "statement": "With tracing on, every traced line whose message the stream can write is written on each stream the trace goes to (sys.stderr, or the file of the trace context), the tree drawn with box characters on UTF-8 streams and in ASCII, with the same columns, on others.", "quantifier": "all histories of replacing sys.stderr, entering and leaving redirected contexts and tracing; all messages, depths, sizes, encodings", "why_tests_cant": "which characters are used is decided when a handler is attached, and the stream may be another one when the line is written; tests print to one stream", "anchors": ["dill/logger.py: TraceAdapter.addHandler, TraceFormatter, stderr_handler, TraceManager"]}
{"id": "C108", "title": "source is looked for where the object was written", "statement": "findsource(object), and so getsource, searches the file in which the object was written (for objects typed at the prompt, the history): a function, method, code object, frame or traceback is found at its first line in the file of its code, a class or an instance in the file of its module, a module at its start; values raise TypeError, objects whose file has no source IOError.", "quantifier": "all objects, module registries, histories of imports and questions, file contents", "why_tests_cant": "the file is found through what the object and sys.modules say, which decorators and exec change; tests look up functions in the file they are written in", "anchors": ["dill/source.py: findsource"]}
{"id": "C109", "title": "a pickle tells the object graph, not where its objects are", "statement": "dumps gives the same bytes for two object graphs that differ only in the addresses of their objects (another process, another run, other objects allocated before), at every protocol, and fails on both with the same exception or on neither. The other way round, two graphs with equal pickles are the same graph: the same constants at the end of every path, and two paths lead to one object in both or in neither. Loading a pickle and dumping what it gave gives the pickle again.", "quantifier": "every two object graphs with a one-to-one correspondence of their objects and of their string, bytes and global objects; every object graph; every protocol", "why_tests_cant": "a dependence on addresses (an order by id, a lookup by id that finds a reused address) shows only in some runs; equal pickles of different graphs cannot be searched for", "anchors": ["dill/_dill.py:dumps", "dill/_dill.py:Pickler", "dill/_dill.py:_save_with_postproc", "dill/_dill.py:save_function", "dill/_dill.py:save_cell"]}
{"id": "C110", "title": "A restricted find_class restricts the whole pickle, and load ends on any bytes", "statement": "Whatever the bytes given to load - a pickle, a damaged pickle, bytes somebody made up: reading them comes to an end (at most one opcode per byte), what follows the pickle in the stream has no influence, and every class, function or module dictionary that the pickle calls, instantiates or leaves in the result is one that Unpickler.find_class returned. So a subclass whose find_class refuses everything that is not on a list keeps everything else out. One thing comes in unasked: if find_class gives _create_function, a function with its own globals gets the builtins dictionary.", "quantifier": "all byte strings, all find_class functions, every point of the loading", "why_tests_cant": "a test tries a few hostile pickles; the claim is about every byte string", "anchors": ["dill/_dill.py:Unpickler.find_class", "dill/_dill.py:Unpickler.load", "dill/_dill.py:_create_function", "dill/_dill.py:loads"]}
{"id": "C111", "title": "detect.at is the inverse of id", "statement": "dill.detect.at(id(x)) is x, after any history of objects being made and dropped, as long as x is alive; for None, True and False always; with a module given, for every value of its namespace and nothing else. What at returns is a live object at that address, never another; when there is none an int gives ReferenceError and what is no address gives TypeError.", "quantifier": "all histories of making, dropping, tracking and untracking objects, all addresses of any type, all modules", "why_tests_cant": "a test looks up one object it holds; the claim is about every history and reused addresses", "anchors": ["dill/_dill.py:_locate_object", "dill/pointers.py:at"]}
{"id": "C112", "title": "The handle of a thread, copied", "statement": "On Python 3.13, a pickled thread handle loads, with the same ident, and is done and joinable at once exactly when the thread was over at the time of the dump; the copy cannot be told from the original then, and stays as it is whatever happens later.", "quantifier": "all handles a program can have, all histories of starting, ending and copying", "why_tests_cant": "needs threads in every state at every moment of the dump", "anchors": ["dill/_dill.py:_create_thread_handle", "dill/_dill.py:save_thread_handle"]}
{"id": "C113", "title": "nestedglobals gives exactly the globals the code names", "statement": "dill.detect.nestedglobals(func, recurse=True) returns exactly the names that the instructions of func's code, and of all code nested in it, load, store or delete as globals; with recurse=False only those of func's own code.", "quantifier": "all code objects: any instructions, constants, names and nesting; versions that show NULL and those that do not", "why_tests_cant": "the names are read off the printed disassembly, where other text may look the same; tests use ordinary names", "anchors": ["dill/detect.py:nestedglobals", "dill/detect.py:globalvars"]}
{"id": "C114", "title": "Enum classes and members", "statement": "An enum member loads as the very member of the same class with that value, an enum class as an equal class: dumping and loading a member of an importable enum gives the member itself, and an enum class defined in __main__ loads, in any process, with the same members.", "quantifier": "all enum classes (any members, aliases, unhashable values), all members, settings and loading processes", "why_tests_cant": "tests of dill use importable standard enums only; the claim is about every class and value", "anchors": ["dill/_dill.py:save_type", "dill/_dill.py:_create_type", "dill/_dill.py:_save_with_postproc", "dill/_dill.py:_locate_function"]}
{"id": "C115", "title": "A shared list, set or instance is stored once", "statement": "However often a list, a set or an instance is referred to, also from itself, dumps (protocol 4 and later, the default) writes it once: the pickle creates exactly one list for every list of the object graph and exactly one set for every set, calls cls.__new__ exactly once for every instance, and loading it creates exactly as many lists as there were, not even temporary ones more. So sharing cannot blow up a pickle.", "quantifier": "all object graphs (any heap of tuples, lists, dictionaries, sets, instances, functions, classes and cells, with any sharing and cycles), all protocols from 4, all results of dumps", "why_tests_cant": "the number of copies depends on the shape of sharing and cycles, of which there are infinitely many, through tuples, closures and deferred updates", "anchors": ["dill/_dill.py:Pickler.save", "dill/_dill.py:_save_with_postproc", "dill/_dill.py:save_cell", "dill/_dill.py:save_function", "dill/_dill.py:save_type"]}
