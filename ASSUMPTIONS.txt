BytesProps.C01_bytes                                    Closed under the global context
BytesEncode.C01_encoded                                 Closed under the global context
CoreProps.C01_roundtrip                                 Closed under the global context
CoreProps.C01_roundtrip_stream                          Closed under the global context
CoreTotal.C01_total                                     Closed under the global context
BytesTotal.C01_written                                  Closed under the global context
CoreProps.C02_closure_cells                             Closed under the global context
CoreProps.C02_paths                                     Closed under the global context
BytesProps.C03_bytes                                    Closed under the global context
CoreProps.C03_iso_compose                               Closed under the global context
CoreProps.C03_protocol_independent                      Closed under the global context
BytesProps.C04_bytes                                    Closed under the global context
CoreProps.C04_prefix_never_loads                        Closed under the global context
BytesProps.C05_bytes                                    Closed under the global context
CoreProps.C05_load_leaves_rest                          Closed under the global context
CoreProps.C05_sequence                                  Closed under the global context
CoreProps.C06_copied_globals_refuted                    Closed under the global context
CoreProps.C06_module_globals_partial                    Closed under the global context
CoreTermEx.C07_cell_needs_itself                        Closed under the global context
CoreTerm.C07_depth                                      Closed under the global context
CoreTotal.C07_only_depth                                Closed under the global context
NamesProps.C08_byref_classes                            Closed under the global context
NamesProps.C08_class_reference_denotes                  Closed under the global context
NamesProps.C08_class_reference_loads                    Closed under the global context
NamesProps.C08_function_reference_denotes               Closed under the global context
NamesProps.C08_function_reference_loads                 Closed under the global context
NamesProps.C08_importable_by_reference                  Closed under the global context
NamesProps.C08_locate_exact                             Closed under the global context
NamesProps.C08_main_by_value                            Closed under the global context
DispatchProps.C09_dispatch_lookup                       Closed under the global context
InstanceProps.C100_array_case                           Closed under the global context
InstanceProps.C100_case                                 Closed under the global context
InstanceProps.C100_empty                                Closed under the global context
InstanceProps.C100_fails_iff                            Closed under the global context
InstanceProps.C100_fallback                             Closed under the global context
InstanceProps.C100_fallback_case                        Closed under the global context
InstanceProps.C100_iff                                  Closed under the global context
InstanceProps.C100_instance_partial                     Closed under the global context
InstanceProps.C100_named                                Closed under the global context
InstanceProps.C100_named_case                           Closed under the global context
InstanceProps.C100_named_verified                       Closed under the global context
InstanceProps.C100_nan_refuted                          Closed under the global context
InstanceProps.C100_nested_refuted                       Closed under the global context
InstanceProps.C100_opaque                               Closed under the global context
InstanceProps.C100_qualified_refuted                    Closed under the global context
InstanceProps.C100_scalar_refuted                       Closed under the global context
InstanceProps.C100_source                               Closed under the global context
InstanceProps.C100_subclass_refuted                     Closed under the global context
InstanceProps.C100_text                                 Closed under the global context
ConstProps.C101_angled                                  Closed under the global context
ConstProps.C101_builtin                                 Closed under the global context
ConstProps.C101_case                                    Closed under the global context
ConstProps.C101_constant_partial                        Closed under the global context
ConstProps.C101_ellipsis                                Closed under the global context
ConstProps.C101_inf_refuted                             Closed under the global context
ConstProps.C101_literal_case                            Closed under the global context
ConstProps.C101_literals                                Closed under the global context
ConstProps.C101_names_refuted                           Closed under the global context
ConstProps.C101_none                                    Closed under the global context
ConstProps.C101_plain                                   Closed under the global context
ConstProps.C101_string_refuted                          Closed under the global context
ConstProps.C101_unverified_refuted                      Closed under the global context
NamesProps.C102_by_reference_partial                    Closed under the global context
NamesProps.C102_case                                    Closed under the global context
NamesProps.C102_locate_exact_partial                    Closed under the global context
NamesProps.C102_shadowed_refuted                        Closed under the global context
NamesProps.C102_unqualified                             Closed under the global context
StreamProps.C103_case                                   Closed under the global context
StreamProps.C103_closed                                 Closed under the global context
StreamProps.C103_many_sessions                          Closed under the global context
StreamProps.C103_one_session                            Closed under the global context
StreamProps.C103_raw_loads                              Closed under the global context
StreamProps.C103_raw_refuted                            Closed under the global context
StreamProps.C103_refused_untouched                      Closed under the global context
StreamProps.C103_unpeekable                             Closed under the global context
ArgsProps.C104_asdict_refuted                           Closed under the global context
ArgsProps.C104_both_refuted                             Closed under the global context
ArgsProps.C104_case                                     Closed under the global context
ArgsProps.C104_default_path                             Closed under the global context
ArgsProps.C104_dump                                     Closed under the global context
ArgsProps.C104_dump_both                                Closed under the global context
ArgsProps.C104_load                                     Closed under the global context
ArgsProps.C104_load_both                                Closed under the global context
ArgsProps.C104_module                                   Closed under the global context
GlobalsFlat.C105_code                                   Closed under the global context
GlobalsFlat.C105_exact                                  Closed under the global context
GlobalsFlat.C105_inner_recursion_refuted                Closed under the global context
GlobalsFlat.C105_other                                  Closed under the global context
GlobalsFlat.C105_terminates                             Closed under the global context
GetmoduleProps.C106_case                                Closed under the global context
GetmoduleProps.C106_class_none                          Closed under the global context
GetmoduleProps.C106_class_refuted                       Closed under the global context
GetmoduleProps.C106_code                                Closed under the global context
GetmoduleProps.C106_code_named                          Closed under the global context
GetmoduleProps.C106_code_none                           Closed under the global context
GetmoduleProps.C106_dynamic                             Closed under the global context
GetmoduleProps.C106_frommain                            Closed under the global context
GetmoduleProps.C106_frommain_module                     Closed under the global context
GetmoduleProps.C106_none                                Closed under the global context
GetmoduleProps.C106_prompt_refuted                      Closed under the global context
GetmoduleProps.C106_says                                Closed under the global context
GetmoduleProps.C106_script_refuted                      Closed under the global context
GetmoduleProps.C106_value                               Closed under the global context
FormatProps.C107_ascii                                  Closed under the global context
FormatProps.C107_case                                   Closed under the global context
FormatProps.C107_drawing                                Closed under the global context
FormatProps.C107_printed_partial                        Closed under the global context
FormatProps.C107_read_back                              Closed under the global context
FormatProps.C107_redirected                             Closed under the global context
FormatProps.C107_sizes                                  Closed under the global context
FormatProps.C107_stderr_refuted                         Closed under the global context
FormatProps.C107_streams                                Closed under the global context
FormatProps.C107_suffix                                 Closed under the global context
FormatProps.C107_utf8                                   Closed under the global context
WhereProps.C108_angles                                  Closed under the global context
WhereProps.C108_any                                     Closed under the global context
WhereProps.C108_any_first                               Closed under the global context
WhereProps.C108_case                                    Closed under the global context
WhereProps.C108_class                                   Closed under the global context
WhereProps.C108_code                                    Closed under the global context
WhereProps.C108_code_case                               Closed under the global context
WhereProps.C108_exec_refuted                            Closed under the global context
WhereProps.C108_function                                Closed under the global context
WhereProps.C108_function_partial                        Closed under the global context
WhereProps.C108_instance                                Closed under the global context
WhereProps.C108_module                                  Closed under the global context
WhereProps.C108_no_history                              Closed under the global context
WhereProps.C108_no_module_file                          Closed under the global context
WhereProps.C108_no_source                               Closed under the global context
WhereProps.C108_typed                                   Closed under the global context
WhereProps.C108_typed_class                             Closed under the global context
WhereProps.C108_typed_code_case                         Closed under the global context
WhereProps.C108_typed_code_refuted                      Closed under the global context
WhereProps.C108_value                                   Closed under the global context
WhereProps.C108_wraps_refuted                           Closed under the global context
AddrProps.C109_case                                     Closed under the global context
AddrProps.C109_copy_case                                Closed under the global context
AddrProps.C109_copy_partial                             Closed under the global context
AddrProps.C109_copy_refuted                             Closed under the global context
AddrProps.C109_equal_objects_refuted                    Closed under the global context
AddrProps.C109_equal_paths                              Closed under the global context
AddrProps.C109_equal_pickles                            Closed under the global context
AddrProps.C109_moved                                    Closed under the global context
AddrProps.C109_same_bytes                               Closed under the global context
AddrProps.C109_same_pickle                              Closed under the global context
DispatchProps.C10_revert_exact                          Closed under the global context
DispatchProps.C10_revert_partial                        Closed under the global context
DispatchProps.C10_revert_refuted                        Closed under the global context
RestrictProps.C110_allowed                              Closed under the global context
RestrictProps.C110_called                               Closed under the global context
RestrictProps.C110_case                                 Closed under the global context
RestrictProps.C110_ends                                 Closed under the global context
RestrictProps.C110_more                                 Closed under the global context
RestrictProps.C110_result                               Closed under the global context
AtProps.C111_case                                       Closed under the global context
AtProps.C111_float                                      Closed under the global context
AtProps.C111_inverse_partial                            Closed under the global context
AtProps.C111_module                                     Closed under the global context
AtProps.C111_not_an_address                             Closed under the global context
AtProps.C111_nothing                                    Closed under the global context
AtProps.C111_sound                                      Closed under the global context
AtProps.C111_special                                    Closed under the global context
AtProps.C111_stale_refuted                              Closed under the global context
AtProps.C111_untracked_refuted                          Closed under the global context
HandleProps.C112_case                                   Closed under the global context
HandleProps.C112_copy_partial                           Closed under the global context
HandleProps.C112_fixed                                  Closed under the global context
HandleProps.C112_loads                                  Closed under the global context
HandleProps.C112_running_refuted                        Closed under the global context
HandleProps.C112_unstarted_refuted                      Closed under the global context
DisProps.C113_case                                      Closed under the global context
DisProps.C113_complete                                  Closed under the global context
DisProps.C113_exact_partial                             Closed under the global context
DisProps.C113_letters_refuted                           Closed under the global context
DisProps.C113_recurse                                   Closed under the global context
DisProps.C113_sound                                     Closed under the global context
EnumProps.C114_case                                     Closed under the global context
EnumProps.C114_list                                     Closed under the global context
EnumProps.C114_members                                  Closed under the global context
EnumProps.C114_nan_refuted                              Closed under the global context
EnumProps.C114_other_version                            Closed under the global context
EnumProps.C114_reference_partial                        Closed under the global context
EnumProps.C114_value_dumps                              Closed under the global context
EnumProps.C114_value_refuted                            Closed under the global context
OnceProps.C115_case                                     Closed under the global context
OnceProps.C115_exactly                                  Closed under the global context
OnceProps.C115_instances_exactly_partial                Closed under the global context
OnceProps.C115_instances_partial                        Closed under the global context
OnceProps.C115_instances_refuted                        Closed under the global context
OnceProps.C115_lists                                    Closed under the global context
OnceProps.C115_loaded                                   Closed under the global context
OnceProps.C115_no_fewer                                 Closed under the global context
OnceProps.C115_old_refuted                              Closed under the global context
OnceProps.C115_sets                                     Closed under the global context
OnceProps.C115_sets_exactly                             Closed under the global context
SettingsProps.C11_copy                                  Closed under the global context
SettingsProps.C11_defaults                              Closed under the global context
SettingsProps.C11_dump                                  Closed under the global context
SettingsProps.C11_dump_module                           Closed under the global context
SettingsProps.C11_load                                  Closed under the global context
SettingsProps.C11_pickler_fixed                         Closed under the global context
NamesProps.C12_find_class_plain                         Closed under the global context
NamesProps.C12_find_class_plain_old                     Closed under the global context
NamesProps.C12_find_class_redirected                    Closed under the global context
NamesProps.C12_load_repoints                            Closed under the global context
FuncProps.C13_attributes                                Closed under the global context
FuncProps.C13_doc_refuted                               Closed under the global context
FuncProps.C13_qualname_partial                          Closed under the global context
FuncProps.C13_qualname_refuted                          Closed under the global context
FuncProps.C13_type_params_refuted                       Closed under the global context
CodeProps.C14_same_version                              Closed under the global context
CodeProps.C14_version_detected                          Closed under the global context
CodeProps.C15_across_versions                           Closed under the global context
CodeProps.C15_common_fields                             Closed under the global context
CodeText.C15_text_fields                                Closed under the global context
CodeProps.C16_line_table_partial                        Closed under the global context
CodeProps.C16_linetable_as_lnotab_37_refuted            Closed under the global context
CodeProps.C16_linetable_as_lnotab_refuted               Closed under the global context
CodeProps.C16_lnotab_as_linetable_refuted               Closed under the global context
ClassProps.C17_diamond_refuted                          Closed under the global context
ClassProps.C17_exact                                    Closed under the global context
ClassProps.C17_hash_refuted                             Closed under the global context
ClassProps.C17_multiple_bases_refuted                   Closed under the global context
ClassProps.C17_multiple_inheritance_partial             Closed under the global context
ClassProps.C17_new_classes_ok                           Closed under the global context
ClassProps.C17_single_inheritance_partial               Closed under the global context
ClassProps.C17_unshared_names                           Closed under the global context
ClassProps.C18_private_slots_refuted                    Closed under the global context
ClassProps.C18_slots_kept_partial                       Closed under the global context
NamedtupleProps.C19_fresh_partial                       Closed under the global context
NamedtupleProps.C19_importable_same                     Closed under the global context
NamedtupleProps.C19_methods_refuted                     Closed under the global context
NamedtupleProps.C19_name_taken_refuted                  Closed under the global context
NamedtupleProps.C19_rename_refuted                      Closed under the global context
FilesProps.C20_handle_reopens                           Closed under the global context
FilesProps.C20_reported_mode                            Closed under the global context
FilesProps.C21_existing_files_unchanged                 Closed under the global context
FilesProps.C21_existing_loads                           Closed under the global context
FilesProps.C21_missing_created                          Closed under the global context
FilesProps.C21_position                                 Closed under the global context
FilesExact.C22_contents_exact                           Closed under the global context
FilesProps.C22_contents_restored_partial                Closed under the global context
FilesExact.C22_dumps                                    Closed under the global context
FilesProps.C22_loads_partial                            Closed under the global context
FilesProps.C22_newlines_refuted                         Closed under the global context
FilesExact.C22_wb_always_refuted                        Closed under the global context
FilesProps.C22_wb_refuted                               Closed under the global context
FilesProps.C22_x_refuted                                Closed under the global context
FilesProps.C23_closed_stream_closes                     Closed under the global context
FilesProps.C23_errors                                   Closed under the global context
FilesProps.C23_missing_reads_temporary                  Closed under the global context
FilesProps.C23_standard_streams                         Closed under the global context
FilesProps.C23_strictio_refuted                         Closed under the global context
LocksProps.C24_lock_copy                                Closed under the global context
LocksProps.C24_rlock_copy_partial                       Closed under the global context
LocksProps.C24_rlock_saved_state                        Closed under the global context
LocksProps.C24_unlocked_rlock_refuted                   Closed under the global context
SafeOpenProps.C25_no_nofollow_partial                   Closed under the global context
SafeOpenProps.C25_no_nofollow_refuted                   Closed under the global context
SafeOpenProps.C25_read_never_through_symlink            Closed under the global context
SafeOpenProps.C25_write_never_through_symlink           Closed under the global context
SafeOpenProps.C26_created_private_partial               Closed under the global context
SafeOpenProps.C26_existing_keeps_mode_refuted           Closed under the global context
IdentifyProps.C27_any_case                              Closed under the global context
IdentifyProps.C27_any_pickle                            Closed under the global context
IdentifyProps.C27_buffer_boundary_refuted               Closed under the global context
IdentifyProps.C27_first_256                             Closed under the global context
IdentifyProps.C27_identify                              Closed under the global context
IdentifyProps.C27_not_consumed                          Closed under the global context
IdentifyProps.C27_unpeekable                            Closed under the global context
LoadProps.C28_creates_module_object                     Closed under the global context
LoadProps.C28_loads_imported_module                     Closed under the global context
LoadProps.C28_loads_module_object                       Closed under the global context
LoadProps.C28_no_runtime_entry_left                     Closed under the global context
LoadProps.C28_refused_unchanged                         Closed under the global context
LoadProps.C28_runtime_entry_deleted_refuted             Closed under the global context
LoadProps.C28_stale_module_refuted                      Closed under the global context
LoadProps.C28_sysmodules                                Closed under the global context
LoadProps.C28_unidentified                              Closed under the global context
LoadProps.C28_unpeekable_unchecked                      Closed under the global context
LoadProps.C28_valueerror_iff_mismatch                   Closed under the global context
LoadProps.C29_returns_saved_contents_partial            Closed under the global context
LoadProps.C29_runtime_session_refuted                   Closed under the global context
LoadProps.C29_submodule_refuted                         Closed under the global context
LoadProps.C29_sysmodules_restored_partial               Closed under the global context
LoadProps.C29_update_imports_refuted                    Closed under the global context
StashProps.C30_each_name_once                           Closed under the global context
StashProps.C30_restored                                 Closed under the global context
StashProps.C30_stored_as                                Closed under the global context
StashProps.C30_stored_name                              Closed under the global context
DumpModuleProps.C31_dump_module_effect_partial          Closed under the global context
DumpModuleProps.C31_outcome                             Closed under the global context
DumpModuleProps.C31_previous_session_lost_refuted       Closed under the global context
DumpModuleProps.C31_stream_not_closed                   Closed under the global context
DumpModuleProps.C31_stream_outcome                      Closed under the global context
GlobalsProps.C33_bindings                               Closed under the global context
GlobalsProps.C33_class_body_refuted                     Closed under the global context
GlobalsProps.C33_closed_partial                         Closed under the global context
GlobalsProps.C33_closure_shadows_builtin_refuted        Closed under the global context
GlobalsProps.C33_complete                               Closed under the global context
GlobalsProps.C33_methods                                Closed under the global context
GlobalsLine.C33_names_read                              Closed under the global context
GlobalsProps.C33_only_used                              Closed under the global context
GlobalsProps.C33_sees_partial                           Closed under the global context
GlobalsProps.C34_cycles_refuted                         Closed under the global context
GlobalsProps.C34_inner_recursion_refuted                Closed under the global context
GlobalsProps.C34_mutual_recursion_refuted               Closed under the global context
GlobalsProps.C34_terminates_partial                     Closed under the global context
GlobalsProps.C35_freevars                               Closed under the global context
GlobalsProps.C35_nestedcode                             Closed under the global context
GlobalsProps.C35_nestedcode_depth_one                   Closed under the global context
GlobalsProps.C35_nestedglobals                          Closed under the global context
ChainProps.C37_children                                 Closed under the global context
ChainProps.C37_find_chain                               Closed under the global context
ChainProps.C37_none_refuted                             Closed under the global context
ChainProps.C37_parent                                   Closed under the global context
ChainProps.C37_parents                                  Closed under the global context
ChainProps.C37_start_matches                            Closed under the global context
ChainProps.C38_children_ignore_partial                  Closed under the global context
ChainProps.C38_children_order_refuted                   Closed under the global context
ChainProps.C38_children_single_ignore_refuted           Closed under the global context
ChainProps.C38_ignored_parent_found_refuted             Closed under the global context
ChainProps.C38_parents_ignore_refuted                   Closed under the global context
ChainProps.C38_parents_order_refuted                    Closed under the global context
PicklesProps.C39_accepts                                Closed under the global context
PicklesProps.C39_all_refuted                            Closed under the global context
PicklesProps.C39_answer                                 Closed under the global context
PicklesProps.C39_answer_all                             Closed under the global context
PicklesProps.C39_copy_fails                             Closed under the global context
PicklesProps.C39_escapes                                Closed under the global context
PicklesProps.C39_exact_partial                          Closed under the global context
PicklesProps.C39_true                                   Closed under the global context
PicklesProps.C40_filter_left_refuted                    Closed under the global context
PicklesProps.C40_filters_iff                            Closed under the global context
PicklesProps.C40_unchanged_partial                      Closed under the global context
PicklesProps.C40_user_filter_lost_refuted               Closed under the global context
PicklesProps.C41_all_failing_partial                    Closed under the global context
PicklesProps.C41_equal_to_none_refuted                  Closed under the global context
PicklesProps.C41_once                                   Closed under the global context
PicklesProps.C41_only_failing                           Closed under the global context
PicklesProps.C41_single                                 Closed under the global context
IndentProps.C42_exact                                   Closed under the global context
IndentProps.C42_exact_case                              Closed under the global context
IndentProps.C42_indent                                  Closed under the global context
IndentProps.C42_inverse_partial                         Closed under the global context
IndentProps.C42_leading_newline_refuted                 Closed under the global context
IndentProps.C42_less_indented_refuted                   Closed under the global context
IndentTabs.C43_exact                                    Closed under the global context
IndentProps.C43_first_line_partial                      Closed under the global context
IndentTabs.C43_indented                                 Closed under the global context
IndentTabs.C43_one_tab                                  Closed under the global context
IndentProps.C43_outdent_partial                         Closed under the global context
IndentProps.C43_tabs_refuted                            Closed under the global context
IndentTabs.C43_text_iff                                 Closed under the global context
IndentProps.C43_text_partial                            Closed under the global context
TempProps.C44_alias                                     Closed under the global context
TempProps.C44_dumped_alias                              Closed under the global context
TempProps.C44_dumped_own_name                           Closed under the global context
TempProps.C44_latin1_refuted                            Closed under the global context
TempProps.C44_name_partial                              Closed under the global context
TempProps.C44_no_name_partial                           Closed under the global context
TempProps.C44_unicode_refuted                           Closed under the global context
TempProps.C44_unnamed_refuted                           Closed under the global context
TempProps.C45_captured                                  Closed under the global context
TempProps.C45_exception                                 Closed under the global context
TempProps.C45_restored                                  Closed under the global context
DiffProps.C47_exact_partial                             Closed under the global context
DiffProps.C47_force_rerecords                           Closed under the global context
DiffProps.C47_has_changed_total                         Closed under the global context
DiffProps.C47_hidden_refuted                            Closed under the global context
DiffProps.C47_memorise_total                            Closed under the global context
DiffProps.C47_recorded                                  Closed under the global context
DiffProps.C47_stale_refuted                             Closed under the global context
DiffProps.C47_unchanged                                 Closed under the global context
DiffProps.C47_unforced_keeps                            Closed under the global context
TraceProps.C48_bytes                                    Closed under the global context
TraceProps.C48_columns                                  Closed under the global context
TraceProps.C48_nested                                   Closed under the global context
TraceProps.C48_pipe_refuted                             Closed under the global context
TraceProps.C48_transparent                              Closed under the global context
TraceProps.C49_context_exact                            Closed under the global context
TraceProps.C49_handlers_partial                         Closed under the global context
TraceProps.C49_level_partial                            Closed under the global context
TraceProps.C49_level_program                            Closed under the global context
TraceProps.C49_nested_refuted                           Closed under the global context
TraceProps.C49_no_stderr_refuted                        Closed under the global context
TraceProps.C49_notset_refuted                           Closed under the global context
TraceProps.C49_redirect                                 Closed under the global context
TraceProps.C49_redirect_exact                           Closed under the global context
TraceProps.C49_redirect_reaches                         Closed under the global context
TraceProps.C49_reentered_refuted                        Closed under the global context
TraceProps.C49_switch                                   Closed under the global context
TraceProps.C50_huge_refuted                             Closed under the global context
TraceProps.C50_small_partial                            Closed under the global context
TraceProps.C50_unit_refuted                             Closed under the global context
CapsuleProps.C51_class_attr_refuted                     Closed under the global context
CapsuleProps.C51_exact                                  Closed under the global context
CapsuleProps.C51_found_partial                          Closed under the global context
CapsuleProps.C51_not_capsule_partial                    Closed under the global context
CapsuleProps.C51_submodule_refuted                      Closed under the global context
CapsuleProps.C51_valid                                  Closed under the global context
WeakExamples.C53_lru38_refuted                          Closed under the global context
WeakProps.C53_lru_cache                                 Closed under the global context
WeakProps.C53_view                                      Closed under the global context
WeakExamples.C53_view39_refuted                         Closed under the global context
WeakProps.C53_view39_shows                              Closed under the global context
WeakProps.C53_weakproxy                                 Closed under the global context
WeakProps.C53_weakref                                   Closed under the global context
CapsuleProps.C54_copy_refuted                           Closed under the global context
CapsuleProps.C54_main                                   Closed under the global context
CapsuleProps.C54_module                                 Closed under the global context
CapsuleProps.C54_same_partial                           Closed under the global context
ProxyProps.C55_class_at_refuted                         Closed under the global context
ProxyProps.C55_dead                                     Closed under the global context
ProxyProps.C55_default_str                              Closed under the global context
ProxyProps.C55_not_proxy                                Closed under the global context
ProxyProps.C55_ordinary_case                            Closed under the global context
ProxyProps.C55_ordinary_str                             Closed under the global context
ProxyProps.C55_str_refuted                              Closed under the global context
ProxyProps.C55_target_partial                           Closed under the global context
ProxyProps.C55_untracked_refuted                        Closed under the global context
CoreItems.C56_items_partial                             Closed under the global context
CoreItems.C56_items_twice_refuted                       Closed under the global context
BasesProps.C57_bases_kept_partial                       Closed under the global context
BasesProps.C57_exact                                    Closed under the global context
BasesProps.C57_subclass_of_generic_refuted              Closed under the global context
ModuleProps.C58_dill_module                             Closed under the global context
ModuleProps.C58_installed_by_name                       Closed under the global context
ModuleProps.C58_load_reverts                            Closed under the global context
ModuleProps.C58_prefix_refuted                          Closed under the global context
ModuleProps.C58_runtime_name                            Closed under the global context
ModuleProps.C58_shadowed_refuted                        Closed under the global context
ModuleProps.C58_unregistered_refuted                    Closed under the global context
ModuleProps.C58_user_with_contents                      Closed under the global context
DescrProps.C59_other_class_refuted                      Closed under the global context
DescrProps.C59_own_entry_partial                        Closed under the global context
DescrProps.C59_same_name                                Closed under the global context
DescrProps.C59_user_class                               Closed under the global context
DescrProps.C60_abstract_refuted                         Closed under the global context
DescrProps.C60_doc                                      Closed under the global context
DescrProps.C60_doc_later                                Closed under the global context
DescrProps.C60_functions                                Closed under the global context
DescrProps.C60_getter_refuted                           Closed under the global context
DescrProps.C60_none_refuted                             Closed under the global context
DescrProps.C60_wrapper_attributes                       Closed under the global context
DescrProps.C60_wrapper_function                         Closed under the global context
DescrProps.C60_wrapper_lost_refuted                     Closed under the global context
CheckProps.C61_command_partial                          Closed under the global context
CheckProps.C61_dump_failed                              Closed under the global context
CheckProps.C61_large_refuted                            Closed under the global context
CheckProps.C61_silent                                   Closed under the global context
CheckProps.C61_space_refuted                            Closed under the global context
CheckProps.C61_verdict_partial                          Closed under the global context
DetectProps.C62_badobjects                              Closed under the global context
DetectProps.C62_badobjects_top                          Closed under the global context
DetectProps.C62_badtypes                                Closed under the global context
DetectProps.C62_disagree_refuted                        Closed under the global context
DetectProps.C62_errors                                  Closed under the global context
DetectProps.C62_errors_top                              Closed under the global context
DetectProps.C62_raising_attribute_refuted               Closed under the global context
DetectProps.C62_reports                                 Closed under the global context
TypemapProps.C63_late_refuted                           Closed under the global context
TypemapProps.C63_name_is_own                            Closed under the global context
TypemapProps.C63_other_python                           Closed under the global context
TypemapProps.C63_same_python                            Closed under the global context
RangeProps.C64_long_load_refuted                        Closed under the global context
RangeProps.C64_long_refuted                             Closed under the global context
RangeProps.C64_range                                    Closed under the global context
MapProxyProps.C65_class_refuted                         Closed under the global context
MapProxyProps.C65_contents                              Closed under the global context
MapProxyProps.C65_copy_refuted                          Closed under the global context
MapProxyProps.C65_live_partial                          Closed under the global context
MapProxyProps.C65_no_copy_refuted                       Closed under the global context
MapProxyProps.C65_untouched                             Closed under the global context
ImportProps.C66_builtin_partial                         Closed under the global context
ImportProps.C66_collision_refuted                       Closed under the global context
ImportProps.C66_constants                               Closed under the global context
ImportProps.C66_ellipsis_class                          Closed under the global context
ImportProps.C66_forced                                  Closed under the global context
ImportProps.C66_longest                                 Closed under the global context
ImportProps.C66_module_partial                          Closed under the global context
ImportProps.C66_none                                    Closed under the global context
ImportProps.C66_own_object_partial                      Closed under the global context
ImportProps.C66_unnamable                               Closed under the global context
ImportProps.C66_unnamable_elsewhere                     Closed under the global context
ImportProps.C66_verified_refuted                        Closed under the global context
DumpsourceProps.C67_enclosed_partial                    Closed under the global context
DumpsourceExamples.C67_new_data_refuted                 Closed under the global context
DumpsourceProps.C67_new_ignored                         Closed under the global context
DumpsourceExamples.C67_new_length_refuted               Closed under the global context
DumpsourceProps.C67_new_partial                         Closed under the global context
DumpsourceProps.C67_new_same_module_partial             Closed under the global context
DumpsourceProps.C67_open_partial                        Closed under the global context
DumpsourceProps.C67_raises                              Closed under the global context
FindProps.C68_async_refuted                             Closed under the global context
FindProps.C68_class_nested_partial                      Closed under the global context
FindProps.C68_class_none                                Closed under the global context
FindProps.C68_class_toplevel_partial                    Closed under the global context
FindProps.C68_class_unique_partial                      Closed under the global context
FindProps.C68_code                                      Closed under the global context
FindProps.C68_docstring_refuted                         Closed under the global context
FindProps.C68_function_partial                          Closed under the global context
FindProps.C68_history_decorated_partial                 Closed under the global context
FindProps.C68_history_partial                           Closed under the global context
FindProps.C68_history_refuted                           Closed under the global context
FindProps.C68_tab_refuted                               Closed under the global context
FindProps.C68_two_functions_refuted                     Closed under the global context
FindProps.C68_variable_refuted                          Closed under the global context
AbcProps.C69_byref_refuted                              Closed under the global context
AbcProps.C69_exact                                      Closed under the global context
AbcProps.C69_kept_partial                               Closed under the global context
AbcProps.C69_no_more                                    Closed under the global context
AbcProps.C69_others                                     Closed under the global context
AbcProps.C69_subclass_refuted                           Closed under the global context
HooksProps.C70_attributes                               Closed under the global context
HooksProps.C70_kept_partial                             Closed under the global context
HooksProps.C70_keyword_refuted                          Closed under the global context
HooksProps.C70_later_refuted                            Closed under the global context
HooksProps.C70_loads_iff                                Closed under the global context
HooksProps.C70_names                                    Closed under the global context
HooksProps.C70_names_kept_partial                       Closed under the global context
HooksProps.C70_others                                   Closed under the global context
HooksProps.C70_prepare_refuted                          Closed under the global context
HooksProps.C70_registry                                 Closed under the global context
HooksProps.C70_required_refuted                         Closed under the global context
RecProps.C71_by_name                                    Closed under the global context
RecProps.C71_extends                                    Closed under the global context
RecProps.C71_no_name                                    Closed under the global context
RecProps.C71_not_defined                                Closed under the global context
RecProps.C71_own_globals_key_error                      Closed under the global context
RecProps.C71_self_contained_partial                     Closed under the global context
RecProps.C71_self_contained_refuted                     Closed under the global context
RecProps.C71_self_contained_refuted_function            Closed under the global context
ThreadsProps.C72_conserved                              Closed under the global context
ThreadsProps.C72_exclusive_partial                      Closed under the global context
ThreadsProps.C72_globals_lost_refuted                   Closed under the global context
ThreadsProps.C72_nested_partial                         Closed under the global context
ThreadsProps.C72_one_thread                             Closed under the global context
ThreadsProps.C72_print_lost_refuted                     Closed under the global context
ThreadsProps.C72_stdout_lost_refuted                    Closed under the global context
ImportableProps.C73_ends                                Closed under the global context
ImportableProps.C73_import_first                        Closed under the global context
ImportableProps.C73_instance_class_iff                  Closed under the global context
ImportableProps.C73_instance_class_lost                 Closed under the global context
ImportableProps.C73_instance_refuted                    Closed under the global context
ImportableProps.C73_refuted                             Closed under the global context
ImportableProps.C73_source_first_partial                Closed under the global context
ImportableProps.C73_wrong_object                        Closed under the global context
BlocksProps.C74_alone_partial                           Closed under the global context
BlocksProps.C74_async_refuted                           Closed under the global context
BlocksProps.C74_class_refuted                           Closed under the global context
BlocksProps.C74_comment_refuted                         Closed under the global context
BlocksProps.C74_enclosing_partial                       Closed under the global context
BlocksProps.C74_ends                                    Closed under the global context
BlocksProps.C74_ex                                      Closed under the global context
BlocksProps.C74_has_it                                  Closed under the global context
BlocksProps.C74_method_refuted                          Closed under the global context
BlocksProps.C74_own                                     Closed under the global context
LoadClassProps.C75_class_partial                        Closed under the global context
LoadClassProps.C75_ex                                   Closed under the global context
LoadClassProps.C75_fails                                Closed under the global context
LoadClassProps.C75_ignored                              Closed under the global context
LoadClassProps.C75_nested_refuted                       Closed under the global context
LoadClassProps.C75_only_the_root                        Closed under the global context
LoadClassProps.C75_other_modules                        Closed under the global context
LoadClassProps.C75_repointed                            Closed under the global context
LoadClassProps.C75_same_class_partial                   Closed under the global context
LoadClassProps.C75_same_class_refuted                   Closed under the global context
LoadClassProps.C75_state_kept                           Closed under the global context
TempFileProps.C76_dumped                                Closed under the global context
TempFileProps.C76_ex                                    Closed under the global context
TempFileProps.C76_gone                                  Closed under the global context
TempFileProps.C76_loadIO_back                           Closed under the global context
TempFileProps.C76_load_back                             Closed under the global context
TempFileProps.C77_failed_leftover                       Closed under the global context
TempFileProps.C77_failed_partial                        Closed under the global context
TempFileProps.C77_failed_refuted                        Closed under the global context
ReuseProps.C78_cleared_refuted                          Closed under the global context
ReuseProps.C78_earlier_untouched                        Closed under the global context
ReuseProps.C78_ex                                       Closed under the global context
ReuseProps.C78_new_readers                              Closed under the global context
ReuseProps.C78_one_reader                               Closed under the global context
ReuseProps.C78_uncleared_refuted                        Closed under the global context
ReuseProps.C79_ex                                       Closed under the global context
ReuseProps.C79_failed_partial                           Closed under the global context
ReuseProps.C79_retry_refuted                            Closed under the global context
ReuseProps.C79_reuse_refuted                            Closed under the global context
ReuseProps.C79_stale_partial                            Closed under the global context
ReuseProps.C79_success_partial                          Closed under the global context
SubclassProps.C80_elsewhere_partial                     Closed under the global context
SubclassProps.C80_letters_refuted                       Closed under the global context
SubclassProps.C80_locate_main                           Closed under the global context
SubclassProps.C80_main_dict_partial                     Closed under the global context
SubclassProps.C80_named_partial                         Closed under the global context
SubclassProps.C80_refuted                               Closed under the global context
SubclassProps.C80_stock                                 Closed under the global context
SubclassProps.C80_stock_plain                           Closed under the global context
HashExamples.C81_case                                   Closed under the global context
HashExamples.C81_cells_refuted                          Closed under the global context
HashExamples.C81_cycles_refuted                         Closed under the global context
HashProps.C81_keys_complete_partial                     Closed under the global context
SessProps.C82_all_or_nothing_partial                    Closed under the global context
SessExamples.C82_case                                   Closed under the global context
SessRestore.C82_keyerror_refuted                        Closed under the global context
SessExamples.C82_other_modules_refuted                  Closed under the global context
SessRestore.C82_refimported_refuted                     Closed under the global context
SessRestore.C82_values_case                             Closed under the global context
SessRestore.C82_values_kept_partial                     Closed under the global context
AliasExamples.C83_annotated_refuted                     Closed under the global context
AliasExamples.C83_argument_refuted                      Closed under the global context
AliasExamples.C83_async_refuted                         Closed under the global context
AliasExamples.C83_decorator_refuted                     Closed under the global context
AliasExamples.C83_instance_case                         Closed under the global context
AliasProps.C83_instance_partial                         Closed under the global context
AliasExamples.C83_lambda_case                           Closed under the global context
AliasProps.C83_lambda_partial                           Closed under the global context
AliasExamples.C83_named_case                            Closed under the global context
AliasProps.C83_named_partial                            Closed under the global context
AliasProps.C83_no_alias                                 Closed under the global context
AliasExamples.C83_no_arguments_refuted                  Closed under the global context
AliasExamples.C83_outdent_case                          Closed under the global context
AliasProps.C83_outdent_partial                          Closed under the global context
AliasExamples.C83_repr_refuted                          Closed under the global context
AliasExamples.C83_return_refuted                        Closed under the global context
AliasExamples.C83_tabs_refuted                          Closed under the global context
AliasExamples.C83_wraps_refuted                         Closed under the global context
AliasExamples.C84_case                                  Closed under the global context
AliasProps.C84_getname_partial                          Closed under the global context
AliasProps.C84_named                                    Closed under the global context
AliasExamples.C84_refuted                               Closed under the global context
NamespaceProps.C85_bracket_repr                         Closed under the global context
NamespaceProps.C85_builtins_repr                        Closed under the global context
NamespaceProps.C85_case                                 Closed under the global context
NamespaceProps.C85_import_partial                       Closed under the global context
NamespaceProps.C85_lambda_case                          Closed under the global context
NamespaceProps.C85_lambda_partial                       Closed under the global context
NamespaceProps.C85_method_refuted                       Closed under the global context
NamespaceProps.C85_namespace                            Closed under the global context
NamespaceProps.C85_repr_decides                         Closed under the global context
NamespaceProps.C85_repr_refuted                         Closed under the global context
NamespaceProps.C85_types                                Closed under the global context
ClosureProps.C86_complete                               Closed under the global context
ClosureExamples.C86_lambdas_refuted                     Closed under the global context
ClosureExamples.C86_method_refuted                      Closed under the global context
ClosureProps.C86_sound                                  Closed under the global context
ClosureProps.C86_unique_partial                         Closed under the global context
ClosureProps.C87_closure_partial                        Closed under the global context
ClosureProps.C87_decorated_partial                      Closed under the global context
ClosureProps.C87_importable                             Closed under the global context
ClosureExamples.C87_item_case                           Closed under the global context
ClosureExamples.C87_last_refuted                        Closed under the global context
ClosureExamples.C87_local_refuted                       Closed under the global context
ClosureProps.C87_own                                    Closed under the global context
ClosureExamples.C87_prefix_refuted                      Closed under the global context
ClosureProps.C87_unassigned                             Closed under the global context
ClosureProps.C87_wrapper_elsewhere_partial              Closed under the global context
ClosureProps.C87_wrapper_partial                        Closed under the global context
ClosureProps.C87_wrapper_unassigned                     Closed under the global context
ClosrcExamples.C88_builtin_refuted                      Closed under the global context
ClosrcExamples.C88_case                                 Closed under the global context
ClosrcProps.C88_closure_partial                         Closed under the global context
ClosrcExamples.C88_decorated_case                       Closed under the global context
ClosrcProps.C88_decorated_partial                       Closed under the global context
ClosrcExamples.C88_recursive_case                       Closed under the global context
ClosrcProps.C88_recursive_refuted                       Closed under the global context
ClosrcExamples.C88_reused_refuted                       Closed under the global context
WrapProps.C89_alone_partial                             Closed under the global context
WrapProps.C89_case                                      Closed under the global context
WrapProps.C89_names_partial                             Closed under the global context
WrapProps.C89_names_refuted                             Closed under the global context
WrapProps.C89_threads_refuted                           Closed under the global context
WrapProps.C89_undisturbed_partial                       Closed under the global context
CallProps.C90_again                                     Closed under the global context
CallProps.C90_called                                    Closed under the global context
CallProps.C90_case                                      Closed under the global context
CallProps.C90_direct                                    Closed under the global context
CallProps.C90_half_moved                                Closed under the global context
CallProps.C90_half_published                            Closed under the global context
CallProps.C90_moved                                     Closed under the global context
CallProps.C90_no_default                                Closed under the global context
CallProps.C90_not_callable                              Closed under the global context
CallProps.C90_published                                 Closed under the global context
CallProps.C90_reload_refuted                            Closed under the global context
CallProps.C90_shim                                      Closed under the global context
CallProps.C90_unpublished                               Closed under the global context
CallProps.C91_case                                      Closed under the global context
CallProps.C91_context                                   Closed under the global context
CallProps.C91_method                                    Closed under the global context
CallProps.C91_pypy_method                               Closed under the global context
CallProps.C91_slice                                     Closed under the global context
CallProps.C91_super_exact                               Closed under the global context
CallProps.C91_super_partial                             Closed under the global context
CallProps.C91_super_refuted                             Closed under the global context
CallProps.C91_tuple                                     Closed under the global context
CallProps.C92_case                                      Closed under the global context
CallProps.C92_dataclasses                               Closed under the global context
CallProps.C92_field_base_refuted                        Closed under the global context
CallProps.C92_sentinel_dumps                            Closed under the global context
CallProps.C92_sentinel_loads                            Closed under the global context
TypingProps.C93_case                                    Closed under the global context
TypingProps.C93_create                                  Closed under the global context
TypingProps.C93_empty_downwards_refuted                 Closed under the global context
TypingProps.C93_empty_upwards                           Closed under the global context
TypingProps.C93_other_version_partial                   Closed under the global context
TypingProps.C93_same_version                            Closed under the global context
MatchProps.C94_case                                     Closed under the global context
MatchProps.C94_closure                                  Closed under the global context
MatchProps.C94_closure_case                             Closed under the global context
MatchProps.C94_closure_refuted                          Closed under the global context
MatchProps.C94_comment_refuted                          Closed under the global context
MatchProps.C94_constants_refuted                        Closed under the global context
MatchProps.C94_double_case                              Closed under the global context
MatchProps.C94_dummy_refuted                            Closed under the global context
MatchProps.C94_found_partial                            Closed under the global context
MatchProps.C94_no_arguments_refuted                     Closed under the global context
MatchProps.C94_sound                                    Closed under the global context
NumpyProps.C95_array                                    Closed under the global context
NumpyProps.C95_attributes_partial                       Closed under the global context
NumpyProps.C95_case                                     Closed under the global context
NumpyProps.C95_contents                                 Closed under the global context
NumpyProps.C95_copyreg_refuted                          Closed under the global context
NumpyProps.C95_deleted_attribute_refuted                Closed under the global context
NumpyProps.C95_dtype_class                              Closed under the global context
NumpyProps.C95_history_partial                          Closed under the global context
NumpyProps.C95_late_override_refuted                    Closed under the global context
NumpyProps.C95_others                                   Closed under the global context
NumpyProps.C95_own_reduce_partial                       Closed under the global context
NumpyProps.C95_registered                               Closed under the global context
NumpyProps.C95_ufunc                                    Closed under the global context
HookProps.C96_circular_refuted                          Closed under the global context
HookProps.C96_covered                                   Closed under the global context
HookProps.C96_next                                      Closed under the global context
HookProps.C96_partial                                   Closed under the global context
HookProps.C96_raised_partial                            Closed under the global context
HookProps.C96_raised_refuted                            Closed under the global context
HookProps.C96_submodule_refuted                         Closed under the global context
HookProps.C97_gone_refuted                              Closed under the global context
HookProps.C97_keeps_held                                Closed under the global context
HookProps.C97_pypy_refuted                              Closed under the global context
HookProps.C97_startup_partial                           Closed under the global context
HookProps.C97_underscore_refuted                        Closed under the global context
LoadtypesProps.C98_last_call_partial                    Closed under the global context
LoadtypesProps.C98_objects                              Closed under the global context
LoadtypesProps.C98_registered_refuted                   Closed under the global context
LoadtypesProps.C98_streamreader_refuted                 Closed under the global context
LoadtypesProps.C98_twice                                Closed under the global context
LoadtypesProps.C98_types                                Closed under the global context
ReferredProps.C99_code                                  Closed under the global context
ReferredProps.C99_exact_partial                         Closed under the global context
ReferredProps.C99_methods                               Closed under the global context
ReferredProps.C99_no_code                               Closed under the global context
ReferredProps.C99_sound                                 Closed under the global context
ReferredProps.C99_terminates                            Closed under the global context
ReferredProps.C99_twins_refuted                         Closed under the global context
TempProps.exec_spec                                     Closed under the global context
