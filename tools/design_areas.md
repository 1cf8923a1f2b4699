## What is modelled, and what is not

| area | files of the model | code modelled | simplified or left out |
|------|--------------------|---------------|------------------------|
| pickling core | `Core*` | `_dill.py`: `_create_type`, `_create_function`, `_create_cell`, `_setitems`, `_save_with_postproc`, `save_module_dict` (D2), `save_cell`, `save_type` (T2), `save_function` (F1); pickle.py: `save`, `memoize`, `save_reduce` with list and dict items, `save_tuple`, `save_list`, `save_dict`, `save_set`, `save_frozenset`, batches, `load_*` | one opcode for constants; by-value/by-reference decided elsewhere (Names); a set is the list of its elements in iteration order and an element is found again by identity (or as an equal constant), user-defined `__eq__` and `__hash__` are not run; `__orig_bases__`; the "saved as global" fallback for an object met while on the postproc stack is a failure |
| bytes of pickles | `Bytes*` | pickle.py: `save_bool`, `save_long`, `encode_long`, `save_float`, `save_bytes`, `save_str`, `put`, `get`, `save_global`, the framer; the unpickler's `load_int` … `load_frame` | a float is its 64 bits, and its text in protocol 0 (repr) is not modelled; bytes before protocol 3 are reduce values; bytearray; code points up to 255; extension codes; what module and name are written (Names); any cutting into frames |
| names | `Names*` | `_import_module`, `_getattribute`, `_locate_function`, `save_global`, `find_class`, `Unpickler.load` | |
| dispatch | `Dispatch*` | `MetaCatchingDict`, `Pickler.dispatch`, `pickle`, `register`, `_revert_extension`, `extend` | |
| settings | `Settings*` | `dump`, `dumps`, `load`, `loads`, `copy`, `Pickler.__init__`, `Unpickler.__init__`, `dump_module` arguments | |
| functions, code, classes, namedtuples | `Func*`, `Code*`, `Class*`, `Namedtuple*` | the saved tuples and what rebuilds objects from them | values stand for themselves and their copies (copying is the core's) |
| locks, files | `Locks*`, `Files*` | `_create_lock`, `_create_rlock`, `save_lock`, `save_rlock`, `_save_file`, `_create_filehandle` | text positions are byte offsets; one process |
| weak references, views, caches, proxies | `Weak*`, `Proxy*` | `save_weakref`, `save_weakproxy`, `save_dict_view`, `save_lru_cache`, `_proxy_helper`, `_locate_object` | PyPy branches |
| sessions | `SafeOpen*`, `DumpModule*`, `Load*`, `Stash*`, `Identify*` | all of `session.py` but the deprecated wrappers | |
| detect | `Globals*`, `Pickles*` | `nestedcode`, `code`, `freevars`, `nestedglobals`, `globalvars`, `baditems`, `badobjects`, `pickles` | frames, `outermost`, `varnames`, `referredglobals` |
| pointers | `Chain*` | `parent`, `parents`, `children`, `find_chain` | nothing runs while the graph is searched |
| source, temp | `Indent*`, `Temp*` | `indent`, `outdent`, `capture`, `dump_source`, `load_source`, `dumpIO_source`, `loadIO_source` | finding source code in files |
| bases, modules | `Bases*`, `Module*` | `_get_typedict_type`, `save_type` bases (`__orig_bases__`, `__bases__`), `save_module`, `_is_builtin_module`, `_is_imported_module` | PyPy branch, `_main_modified` |
| descriptors, properties | `Descr*` | `_getattr`, `save_wrapper_descriptor`, `save_property`, `save_classmethod` | Python 3.15 branch |
| check, detect reports | `Check*`, `Detect*` | `check`, `badobjects`, `badtypes`, `errors` | Windows |
| types by name, ranges, proxies | `Typemap*`, `Range*`, `MapProxy*` | `_create_typemap`, `_typemap`, `_load_type`, `save_singleton`, `_eval_repr`, `save_dictproxy`, `save_dict_view` | PyPy |
| import statements | `Import*` | `getimport`, `_getimport`, `_intypes`, the text and the running of `import` statements | `_namespace`, `getname`, repr-derived names (parameters) |
| dumping to source | `Dumpsource*` | `dumpsource`, `_enclose`, `indent` of unindented text, bytes literals, running the generated statements | text of classes (`getsource`), the rest of Python |
| finding source | `Find*` | the search of `findsource` for functions (file, session) and classes, its regular expressions | `linecache`/`readline`, `_matchlambda`, Unicode word characters |
| abstract base classes | `Abc*` | `_get_typedict_abc`, the calls of `register` after creation, `issubclass` | `__subclasshook__`, caches, overridden `register` |
| hooks of class creation | `Hooks*` | `_create_type` / `new_class` calls of `save_type`, `__init_subclass__` keywords, `__set_name__`, `__prepare__` | hooks of other forms |
| met again while being saved | `Rec*` | `_save_with_postproc`, `save_type`, `save_function`: the fallback to `Pickler.save_global`; loading undefined names | save_global is one opcode; attributes set on an object found by name are not recorded |
| threads | `Threads*` | `capture`, `nestedglobals` as small steps of concurrent threads | one stream; a print is one step; what dis.dis prints is a parameter |
| importable | `Importable*` | `importable` and its `_code_stitcher`, the class lookup of `getsource(force=True)` for instances | the searches (`_closuredimport`, `_closuredsource`, `globalvars`, `getsource` of one object) are parameters |
| enclosing source | `Blocks*` | `getblocks` (not lstrip), `getsourcelines`, `inspect.indentsize` | the length of the block at each line (inspect.getblock, or 1 on TokenError) is a parameter |
| class of the loaded object | LoadClassModel.v | Unpickler.load 452-460 | classes are records (module, names, layout, __setattr__ hook), __dict__-less layouts are a number |
| temp files | TempFileModel.v | temp.py dump, load, dumpIO, loadIO 120-195 | the pickle format is a parameter; file system without directories, links and quotas |
| Pickler reuse | ReuseModel.v | Pickler.dump 427-429, clear_memo, load 292-298, Unpickler.load | on CoreModel |
| picklers by class | Subclass* | is_dill and every place that asks it: save_module_dict, _locate_function, _save_file, save_module, trace_setup | the subclass calls the inherited __init__; one answer for pickler.__module__ |
| hashing during load | HashModel, HashSpec, HashBase, HashStep, HashObj, HashProc, HashProps, HashExamples | what SETITEM(S), DICT, ADDITEMS, FROZENSET and REDUCE of set/frozenset hash while the streams of CoreModel are loaded (CPython pickle.py 1463-1477, 1586-1590, 1686-1709) | __hash__ itself is not run: the theorem says what it can see; class dictionaries and the items copied into function globals have string keys and are covered by CoreModel |
| loading a session | SessModel, SessSpec, SessBase, SessProps, SessExamples, SessRestoreModel, SessRestore | save_module for the session module (_dill.py 1733-1745) as a CoreModel object; its load opcode by opcode (session.py 552); _restore_modules (session.py 175-184) with what it leaves behind | the module has no __setstate__ in its namespace; the namespace is a function of names; importing a module has no effect on the namespace being restored |
| aliases and names of source text | AliasModel, AliasProps, AliasExamples, NamespaceModel, NamespaceProps | getsource (alias, lstrip), _outdent, getname, _namespace, getimport of non-instances | lines found, reprs are given; an interpreter for the statements needed |
| closures | detect.py, source.py | outermost 32-58; _closuredimport 839-889 | what freevars, getsource, getsourcelines, findsource, getname, getmodule, getimport give are parameters; ASCII |
| source of closures | ClosrcModel | _closuredsource, with importable calling itself | what getsource and freevars give per object are parameters; the recursion limit is a fuel |
| wrapped functions | WrapModel | _wrap, threads calling wrapped functions | what executing the text of a function binds is a parameter; exec is one step, lookup and call another |
| shims, one-call objects (C90-C92) | CallModel, CallProps | _shims.py Reduce, Getattr, move_to, register_shim; save_slice, save_instancemethod0, save_super, save_context, Sentinel, dataclasses constants | memo left out (see CoreModel); super's isinstance check left out; other objects opaque |
| typing aliases (C93) | TypingModel, TypingProps | save_generic_alias, _create_typing_tuple | types opaque; TypeVarTuple left out; typing's own subscription and __reduce__ as environment |
| interactive lambdas (C94) | MatchModel, MatchProps | _matchlambda, findsource (stdin) | eval and bytecode are a parameter; readline history as list of lines |
| numpy (C95) | NumpyModel, NumpyProps | Pickler.save, ndarraysubclassinstance, numpyufunc, numpydtype, _create_array | numpy itself is environment (reconstruct, __array_finalize__); _create_dtypemeta not modelled |
| import hook | HookModel, HookProps | __diff.py _imp 214-224, module level 226-234, release_gone 123-126 | importlib as far as _imp sees it; one thread; module bodies are bindings, attribute assignments and imports |
| type registry | `Loadtypes*` | `load_types`, `objtypes.py` | the tables are arbitrary dictionaries; names that are not identifiers |
| referrers | `Referred*` | `code`, `nestedcode`, `referrednested` | what the collector reports is given by the direct referents; unhashable objects, methods that compare equal |
| importable of instances | InstanceModel, InstanceProps | source.py _importable 777-835, getname 605-630, _isinstance 448-465, _namespace 657-672, getimport 724-774 for instances | the object is a record of what Python tells about it; getsource is a parameter |
| getimport of builtin values | dill/source.py:605-672, 676-774 | _namespace, _getimport and getimport for values of builtin classes; the import statement that is tried, with name lists, brackets and keywords | what Python tells about the value is a record; only heads without a dot |
| stream argument of load_module | dill/session.py 327-361, 498-508, 552-561, 631-657 | _make_peekable, _PeekableReader, which handle is read from, closing | the extent of one pickle is a parameter (BytesModel has it); the checks on the module are a parameter (LoadModel has them); closing by io.BufferedReader.__del__ happens when the call returns |
| arguments of the session functions | dill/session.py 89-92, 277-306, 322-324, 488-508, 566-570, 629-638 | renamed functions and keywords, errors, warnings, where the file comes from | warnings are recorded, not turned into errors by a filter; what load_session returns (None) is left out |
| the module of an object | detect.py 22-30, source.py 35-49 | getmodule with force, isfrommain, isdynamic, inspect.getmodule and getfile of CPython 3.11 with their caches | __module__ is a str or None, empty __file__ counts as missing, abspath and realpath are functions |
| trace output | `FormatModel`, `FormatProps` | dill/logger.py 118-123, 170-215, 267-285 | codec lookup and the characters a stream takes are parameters; sys.stderr is never None; encodings are not changed by reconfigure() |
| findsource | `WhereModel`, `WhereProps` | dill/source.py 105-258 put together | not in IPython; getmodule(object, file) left out; linecache is a function of the file name; the search for a typed lambda is a parameter (see `MatchModel`) |
| address independence | AddrProps | (CoreModel, BytesModel) | as CoreModel |
| loading arbitrary bytes | RestrictProps.v (over BytesModel.v, CoreModel.v) | Unpickler.find_class as the only source of names, Unpickler.load on any bytes | the functions called are opaque except dill's own; a call of a non-callable is not refused |
| detect.at | AtModel.v, AtProps.v | _locate_object: the singletons, gc.get_objects() or the namespace of a module, hex and its errors | a module is true and has a namespace; memory is objects with addresses |
| thread handles (3.13) | HandleModel.v, HandleProps.v | save_thread_handle, _create_thread_handle | the state STARTING and the once flag of the handle are left out |
| nestedglobals on text | DisModel.v, DisProps.v | detect.nestedglobals reading the output of dis.dis; the line format and recursion of CPython 3.11 Lib/dis.py | empty lines and the exception table of the disassembly are left out (no _GLOBAL in them); PyPy's IndexError is not modelled |
| enum classes | EnumModel.v, EnumProps.v | save_type T2/T4 on enum classes, members through Enum.__reduce_ex__, _create_type; EnumType.__new__, Enum.__new__ and aliasing of CPython 3.11 Lib/enum.py | Flag composites, mixed-in types, _missing_ and the constants of the class dictionary are left out |
| sharing (C115) | OnceProps.v on CoreModel.v | the pickling core of C01, protocols 4 and 5: opcodes that create lists and sets are counted | as CoreModel |
| logger, diff, capsules | `Trace*`, `Diff*`, `Capsule*` | `TraceAdapter`, `TraceFormatter`, `TraceManager`, `memorise`, `whats_changed`, `_create_capsule`, `save_module_dict` (D1, D3) | import hook of `__diff` |

Not modelled at all: `_objects.py` and `objtypes` tables, `tests/`, `docs/`, `setup.py`, `source.py`'s
`_wrap`/`_closuredimport`/`_closuredsource` and the reading of files and of the history, `save_numpy*`, `ctypes` and
other C types' savers, PyPy branches.
