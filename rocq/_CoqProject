-Q theories Verif
theories/AbcModel.v
theories/AbcProps.v
theories/AddrProps.v
theories/AliasExamples.v
theories/AliasModel.v
theories/AliasProps.v
theories/ArgsModel.v
theories/ArgsProps.v
theories/AtModel.v
theories/AtProps.v
theories/BasesModel.v
theories/BasesProps.v
theories/BlocksModel.v
theories/BlocksProps.v
theories/BytesEncode.v
theories/BytesExamples.v
theories/BytesModel.v
theories/BytesProofs.v
theories/BytesProps.v
theories/BytesSim.v
theories/BytesTotal.v
theories/CallModel.v
theories/CallProps.v
theories/CapsuleModel.v
theories/CapsuleProps.v
theories/ChainModel.v
theories/ChainProofs.v
theories/ChainProps.v
theories/CheckModel.v
theories/CheckProps.v
theories/ClassModel.v
theories/ClassProofs.v
theories/ClassProps.v
theories/ClosrcExamples.v
theories/ClosrcModel.v
theories/ClosrcProps.v
theories/ClosureExamples.v
theories/ClosureModel.v
theories/ClosureProps.v
theories/CodeModel.v
theories/CodeProps.v
theories/CodeText.v
theories/ConstModel.v
theories/ConstProps.v
theories/CoreExamples.v
theories/CoreInd.v
theories/CoreItems.v
theories/CoreMain.v
theories/CoreModel.v
theories/CoreObj.v
theories/CoreProc.v
theories/CoreProps.v
theories/CoreReach.v
theories/CoreReduce.v
theories/CoreSim.v
theories/CoreSpec.v
theories/CoreStep.v
theories/CoreTerm.v
theories/CoreTermEx.v
theories/CoreTotal.v
theories/DescrModel.v
theories/DescrProps.v
theories/DetectModel.v
theories/DetectProps.v
theories/DiffModel.v
theories/DiffProofs.v
theories/DiffProps.v
theories/DisModel.v
theories/DisProps.v
theories/DispatchModel.v
theories/DispatchProofs.v
theories/DispatchProps.v
theories/DispatchSpec.v
theories/DumpModuleModel.v
theories/DumpModuleProofs.v
theories/DumpModuleProps.v
theories/DumpsourceExamples.v
theories/DumpsourceModel.v
theories/DumpsourceProps.v
theories/EnumModel.v
theories/EnumProps.v
theories/FilesExact.v
theories/FilesModel.v
theories/FilesProps.v
theories/FindModel.v
theories/FindProps.v
theories/FormatModel.v
theories/FormatProps.v
theories/FuncModel.v
theories/FuncProps.v
theories/GetmoduleModel.v
theories/GetmoduleProps.v
theories/GlobalsFlat.v
theories/GlobalsLine.v
theories/GlobalsModel.v
theories/GlobalsProofs.v
theories/GlobalsProps.v
theories/HandleModel.v
theories/HandleProps.v
theories/HashBase.v
theories/HashExamples.v
theories/HashModel.v
theories/HashObj.v
theories/HashProc.v
theories/HashProps.v
theories/HashSpec.v
theories/HashStep.v
theories/HookModel.v
theories/HookProps.v
theories/HooksModel.v
theories/HooksProps.v
theories/IdentifyModel.v
theories/IdentifyProofs.v
theories/IdentifyProps.v
theories/ImportModel.v
theories/ImportProps.v
theories/ImportableModel.v
theories/ImportableProps.v
theories/IndentModel.v
theories/IndentProps.v
theories/IndentTabs.v
theories/InstanceModel.v
theories/InstanceProps.v
theories/LoadClassModel.v
theories/LoadClassProps.v
theories/LoadModel.v
theories/LoadProofs.v
theories/LoadProps.v
theories/LoadSpec.v
theories/LoadtypesModel.v
theories/LoadtypesProps.v
theories/LocksModel.v
theories/LocksProofs.v
theories/LocksProps.v
theories/MapProxyModel.v
theories/MapProxyProps.v
theories/MatchModel.v
theories/MatchProps.v
theories/ModuleModel.v
theories/ModuleProps.v
theories/NamedtupleModel.v
theories/NamedtupleProps.v
theories/NamesModel.v
theories/NamesProofs.v
theories/NamesProps.v
theories/NamesSpec.v
theories/NamespaceModel.v
theories/NamespaceProps.v
theories/NumpyModel.v
theories/NumpyProps.v
theories/OnceProps.v
theories/PicklesModel.v
theories/PicklesProps.v
theories/ProxyModel.v
theories/ProxyProps.v
theories/PyDict.v
theories/RangeModel.v
theories/RangeProps.v
theories/RecModel.v
theories/RecProofs.v
theories/RecProps.v
theories/RecSpec.v
theories/ReferredModel.v
theories/ReferredProps.v
theories/RestrictProps.v
theories/ReuseModel.v
theories/ReuseProps.v
theories/SafeOpenModel.v
theories/SafeOpenProofs.v
theories/SafeOpenProps.v
theories/SessBase.v
theories/SessExamples.v
theories/SessModel.v
theories/SessProps.v
theories/SessRestore.v
theories/SessRestoreModel.v
theories/SessSpec.v
theories/SettingsModel.v
theories/SettingsProofs.v
theories/SettingsProps.v
theories/SettingsSpec.v
theories/StashModel.v
theories/StashProofs.v
theories/StashProps.v
theories/StashSpec.v
theories/StreamModel.v
theories/StreamProps.v
theories/SubclassModel.v
theories/SubclassProps.v
theories/TempFileModel.v
theories/TempFileProps.v
theories/TempModel.v
theories/TempProps.v
theories/ThreadsModel.v
theories/ThreadsProps.v
theories/ThreadsSpec.v
theories/TraceModel.v
theories/TraceProps.v
theories/TypemapModel.v
theories/TypemapProps.v
theories/TypingModel.v
theories/TypingProps.v
theories/WeakExamples.v
theories/WeakModel.v
theories/WeakProps.v
theories/WhereModel.v
theories/WhereProps.v
theories/WrapModel.v
theories/WrapProps.v
