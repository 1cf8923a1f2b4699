# property ids | what is modelled and how it is proved
C01 | Pickler and unpickler over object heaps at the level of opcodes (`CoreModel`); isomorphism of graphs in `CoreSpec`. A simulation: for every call of `save`, running the opcodes written pushes the copy and extends the correspondence (induction on the recursion depth, invariants on memo, postproc stack and heap). `C01_total`: with acyclic construction order and definable functions and classes the dump also succeeds within a computed recursion depth. Bytes (`BytesModel`): encoder and decoder of every opcode, memo renumbering by memoized names, framing; `lex` inverts `enc` for every opcode, and the byte loader simulates the opcode machine.
C02 | Corollary of C01: paths in the source graph and in the copy lead to corresponding objects.
C03 | Corollary of C01: composition of isomorphisms.
C04 | STOP is the last opcode written and only there; the machine yields a value only at STOP. Bytes: reading is monotone in what follows, so a prefix that loaded would make the whole pickle leave bytes unread.
C05 | Same invariant, induction over the list of dumps.
C06 | Same model; witness for copied globals, equality of module dictionaries for the others.
C07 | `save` with the recursion depth as fuel; measure (objects not in the memo, rank in the construction order).
C08 C12 | `NamesModel`: a store of modules and attributes, `_locate_function`, `_import_module`, `save_global`, `find_class`; case analysis, induction on dotted names.
C09 C10 | `DispatchModel`: the two tables and every history of pickle/register/extend calls; induction over histories.
C11 | `SettingsModel`: settings and keyword arguments as records; every call decided by its effective arguments.
C13 | `FuncModel`: the tuple stored, FunctionType, BUILD; every attribute of the copy computed.
C14 C15 C16 | `CodeModel`: the six layouts of CodeType, the argument tuples and `_create_code`'s matching; for all field values and all 36 pairs.
C17 C18 | `ClassModel`: class dictionaries, C3 linearisation, type.__new__'s own entries, slots and name mangling; lookup lemma by induction on the hierarchy.
C19 | `NamedtupleModel`.
C20 C21 C22 C23 | `FilesModel`: a file system of plain files, open modes, positions, `_create_filehandle`; case analysis over modes, for all contents and positions.
C24 | `LocksModel`: lock states and owner threads.
C25 C26 | `SafeOpenModel`: one path with adversary moves before and between system calls; for all schedules.
C27 | `IdentifyModel`: bytes of the session header for every protocol, `pickletools.genops` on the peeked bytes; printer/parser lemma over UTF-8 and raw-unicode-escape.
C28 C29 | `LoadModel`: sys.modules and failures as values; every path through load_module and load_module_asdict.
C30 | `StashModel`: induction on the namespace, on top of NamesModel.
C31 | `DumpModuleModel`: the file's content at each failure point.
C33 C34 C35 | `GlobalsModel`: code objects as trees, functions and namespaces as graphs, fuel for the recursion; induction, with the line format of dis in `GlobalsLine`.
C37 C38 | `ChainModel`: breadth-first search over any reference graph; search invariant.
C39 C40 C41 | `PicklesModel`: exceptions as values, warning filters as a list.
C42 C43 | `IndentModel`: strings as lists of code points; induction on lines.
C44 C45 | `TempModel`: sources as strings, standard streams and programs.
C47 | `DiffModel`: depth-first search with a cache over any object graph.
C48 C49 C50 | `TraceModel`: call trees of the pickler, frames and file positions; induction on trees.
C51 C54 | `CapsuleModel`.
C53 | `WeakModel` on top of the core: corollaries of C01 with strong reachability.
C55 | `ProxyModel`: strings and addresses.
C56 | The core model; corollary of C01 at instances, and a witness for the condition.
C57 | `BasesModel`: class statements, `types.new_class`, resolve_bases over C3 orders; the copy's bases are computed exactly, the general refutation follows from the order of definition.
C58 | ModuleModel models the classification by file, the two reduce forms and BUILD on a module; the process (sys.modules, attributes) is the env of NamesModel; proofs by unfolding and the dotted-name lemmas
C59 | DescrModel: the repr of a descriptor, split at quotes, evaluation of a dotted name in a namespace, the fallbacks; proofs by induction on strings and paths
C60 | DescrModel: property_init, property_copy, the __doc__ of property and abstractproperty, functools_wraps, and the reduce forms dill writes; induction on how a property was made
C61 | CheckModel: str.split, repr of bytes, reading of a bytes literal, exec with a limit; the round trip of one byte by cases on its 8 bits, of a string by induction
C62 | DetectModel: the three functions over an abstract program; induction on the depth, with bad paths as the specification
C63 | TypemapModel: the tables as dictionaries, the inversion as a fold; induction on the table
C64 | RangeModel: repr of a range in decimal, the evaluation of the text; number of digits related to powers of ten via Coq's Decimal
C65 | MapProxyModel: the dispatch of the | operator with a helper of a subclass of dict, a heap of mappings, later item assignments
C66 | the text of the statement is produced by the model and run by a small interpreter of import statements (words split at spaces) over the NamesModel environment; induction on the length of the path
C67 | the text is produced by the model and run by a small interpreter of the statements it consists of (def, import, assignment, call, del, return) that parses the literal with CheckModel's reader; induction on the bytes for the literal, on lines for splitting and indenting
C68 | the regular expressions as recognisers on strings with specifications as decompositions of the line; inductions on lines; the sort of candidates as a minimum in the order of tuples
C69 | AbcModel: worlds of classes with MRO, bases, registry; pickles as class entries plus register calls; issubclass as an inductive relation; induction on its derivations in both directions
C70 | HooksModel: type_new's order (namespace, __set_name__, __init_subclass__ with keywords) in a world of classes, descriptors and a registry; inductions on parameters and namespaces
C71 | RecModel extends CoreModel with save_global where CoreModel has the failure Recursive, and the loader with undefined names; a judgement J on pickler actions (memo prefix, what is in the memo is complete or was saved by name, stack effect of the opcodes) is proved for every action by induction on the fuel; C71_by_name follows for every graph in which an object is inside what is needed to create it
C72 | ThreadsModel: small steps of capture and nestedglobals, a schedule is a list of thread numbers; invariants over all schedules: who is inside and what its buffer holds (exclusive), a chain of saved streams (nested), a permutation (conserved)
C73 | ImportableModel: the loop with its two flags and the variable obj, the searches are parameters; proof by case analysis of the two rounds against an independent specification of imports and sources; the strings by induction
C74 | the loop as a function on positions, with the lengths of inspect.getblock as a parameter; a measure for termination, an invariant on the position for the outermost function
C75 | LoadClassModel models Unpickler.load's tail over a process with classes (module, name, qualname, layout, __setattr__) and objects; case analysis gives the exact effect, witnesses give the refutations.
C76 | TempFileModel models files, buffered handles with delete-on-close and byte buffers as a transition system; an invariant of the kept handle is proved along every history.
C77 | On TempFileModel; the exceptional path closes the handle.
C78 | ReuseModel adds the Pickler's and Unpickler's state between calls to CoreModel; the simulation of C01 holds from any synchronised state, so it composes over dumps.
C79 | CoreModel's actions return the Pickler's state also on failure; closure lemmas (CoreInd) lift invariants of that state to whole saves.
C80 | Model: the decisions as functions of the pickler (class: module name, dill.Pickler among the bases; attributes or none), of the process's modules and dictionaries. Case analysis with a specification of the substring test.
C81 | HashModel.hashed lists what each opcode of the unpickler hashes and the container it goes to (from CPython's load_* functions); the pickler and unpickler are CoreModel's. Proof: induction on the fuel of save with a strengthened simulation (HashBase to HashProc) that tracks which objects are still open, together with the set of cells whose contents are postponed.
C82 | SessModel: the pickle of a session is CoreModel's stream for the reduce value of save_module; the live namespace is the one before updated with what BUILD has stored in the module object. Proof: shape of the stream (session_shape), the simulation of CoreSim for the state before BUILD, and monotonicity of opcodes on instances (step_grows: attributes once set stay set). SessRestoreModel: _restore_modules with the namespace it leaves behind.
C83 | AliasModel: getsource's text, and an interpreter of Python statements (logical lines, decorators, def/class blocks, chained and annotated assignments); theorems compare executing the plain and the aliased text
C84 | AliasModel.getname over the same texts and interpreter as C83
C85 | NamespaceModel: the parsing of str(module), composed with ImportModel (C66) and AliasModel (C84)
C86 | ClosureModel/ClosureProps: find over the globals, soundness and completeness both ways
C87 | ClosureModel: the regular expression as a scanner, proved equivalent to its reading (assigned_spec); the import by ImportModel's C66 lemmas
C88 | Texts run by a small model of exec; texts run one after the other compose; induction over the graph of free variables; recursion by induction on the recursion limit.
C89 | Transition system with a shared namespace and one program counter per thread; invariant over all schedules.
C90 | stack machine for reduce values; the shims as reduce values over an environment of modules; induction over the argument list and a frame lemma for the machine
C91 | as C90; attribute lookup on super objects as a function of class, instance and name
C92 | as C90
C93 | typing's subscription and __reduce__ modelled for both versions; induction over the construction of the type; subscription is idempotent on the arguments it stores
C94 | cutting of lines at 'lambda ' and ':' characterised independently; induction over the lines from the end
C95 | classes as data that events change; invariant over the list of events; dictionaries of attributes with update
C96 | Model of importlib as _imp sees it (sys.modules, bodies, exceptions, package attributes); invariant: no recorded object belongs to a module still being imported; induction over nested imports.
C97 | release_gone as a filter over the records with the reference count as the interpreter computes it; startup as a fold of memorise.
C98 | LoadtypesModel: the tables, dill.objects and the namespace of dill.types as dictionaries; the reload runs the loop of objtypes.py in the namespace as it is. Exact characterisation of get on both dictionaries; histories by induction on the calls
C99 | ReferredModel: a heap with identities, code objects with a value for ==, gc.get_referrers as the objects that refer directly; nestedcode against the transitive closure of `is a constant of` by induction on the depth, up to ==
C100 | model _importable, getname, _isinstance and the namespace of instances on texts; Python's execution of the two lines (import, assignment of a call) as an evaluator over a namespace; equational reasoning on strings
C101 | ConstModel: getimport with the tried import statement parsed as Python does; a reader of import lists proved equivalent to a declarative grammar
C102 | NamesModel: _import_module and _locate_function with packages
C103 | StreamModel: file objects by their methods and position, _make_peekable, _PeekableReader.peek step by step, io.BufferedReader fills, the try/finally of both functions; induction on the list of sessions.
C104 | ArgsModel: argument values with their truth value, the renaming loop, pop, the place of the file; case analysis over all keyword dictionaries.
C105 | GlobalsModel.globalvars with recurse=False; induction on the recursion depth with an inductive definition of the names that count.
C106 | GetmoduleModel: objects, sys.modules, inspect's two caches as state, histories of imports and questions; invariant of the caches by induction over the history.
C107 | `FormatModel`: formatters decided at addHandler, streams with the characters they take, histories of events; invariant over histories; the ASCII drawing is shown injective
C108 | `WhereModel`: findsource put together from inspect.getfile/getmodule (`GetmoduleModel`) and the searches of `FindModel`; case analysis and the cache invariant of C106
C109 | Two runs of the pickler side by side: a relation of memo, postproc stack and results kept by every action, by induction on the recursion depth; the converse and the fixpoint from C01.
C110 | RestrictProps.v: an invariant of the machine (every by-name atom on the stack, in the memo and in the heap satisfies P) kept by every opcode, with P := given by find_class; lex consumes at least one byte.
C111 | AtModel.v/AtProps.v: memory with addresses reused, live objects characterised on the history alone; invariant: addresses and serial numbers distinct.
C112 | HandleModel.v/HandleProps.v: state machine of handles; the copy computed; invariant over histories.
C113 | DisModel.v/DisProps.v: the lines of dis.dis (3.11) as text; lemmas on substrings around separators; induction over nested code.
C114 | EnumModel.v/EnumProps.v: the memo and POP/GET interplay of save_type, save_reduce and Enum.__reduce_ex__ as a small stack program; construction of members with aliases; every by-value pickle contains the failing creation.
C115 | on CoreModel: an invariant of every action of the pickler (objects in the memo are distinct; creations written = objects of the kind memoized), by induction on the recursion; on the unpickler, lists in the heap = list-creating opcodes run
