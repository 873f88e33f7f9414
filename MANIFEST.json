{
 "claims": [
  {
   "property": "C01",
   "status": "proved",
   "theorems": [
    "C01_lookup_precedence"
   ],
   "note": ""
  },
  {
   "property": "C02",
   "status": "proved",
   "theorems": [
    "C02_default_installer_resolved",
    "C02_lookup_fails_iff"
   ],
   "note": ""
  },
  {
   "property": "C03",
   "status": "proved",
   "theorems": [
    "C03_file_order_independent",
    "C03_file_errors_order_independent",
    "C03_lookup_order_independent",
    "C03_order_matters_when_ambiguous_refuted"
   ],
   "note": "Order independence under the stated proviso is proved; the second half of the property (without it, order matters) is the _refuted theorem."
  },
  {
   "property": "C04",
   "status": "partial",
   "theorems": [
    "C04_keys_complete",
    "C04_keys_from_file",
    "C04_keys_once",
    "C04_listed_exactly",
    "C04_no_rule_exactly",
    "C04_listed_has_rule_partial",
    "C04_listed_key_without_rule_refuted"
   ],
   "note": "Completeness, membership and uniqueness proved; the listed keys and the lookups without rules are characterised exactly (C04_listed_exactly, C04_no_rule_exactly). The converse a user expects holds when no entry is empty and any_os has any_version (C04_listed_has_rule_partial); in general it is false: any_os with an empty any_version entry lists a key without rule."
  },
  {
   "property": "C05",
   "status": "proved",
   "theorems": [
    "C05_merge_front_wins"
   ],
   "note": ""
  },
  {
   "property": "C06",
   "status": "proved",
   "theorems": [
    "C06_merged_domain"
   ],
   "note": ""
  },
  {
   "property": "C07",
   "status": "partial",
   "theorems": [
    "C07_merge_total_partial",
    "C07_merge_total_refuted",
    "C07_fails_exactly"
   ],
   "note": "False in general: merge_version_dict passes None as default installer (rules_dict.py:381), so two dicts using default_installer under any_version raise ValueError. Proved when only the lowest-priority dict does that; C07_fails_exactly characterises every failure for all lists of dicts (the error, the dict and the clash)."
  },
  {
   "property": "C08",
   "status": "proved",
   "theorems": [
    "C08_first_source_wins",
    "C08_failure",
    "C08_rules_database"
   ],
   "note": ""
  },
  {
   "property": "C09",
   "status": "proved",
   "theorems": [
    "C09_keys_union",
    "C09_keys_complete"
   ],
   "note": ""
  },
  {
   "property": "C10",
   "status": "proved",
   "theorems": [
    "C10_verify_exact",
    "C10_verify_installer_dict_exact"
   ],
   "note": "Identifiers are those of the accepted language (legal identifiers plus an optional trailing newline, see C12)."
  },
  {
   "property": "C11",
   "status": "proved",
   "theorems": [
    "C11_verified_lookup_safe",
    "C11_verified_is_typed"
   ],
   "note": ""
  },
  {
   "property": "C12",
   "status": "partial",
   "theorems": [
    "C12_identifier_partial",
    "C12_legal_accepted",
    "C12_identifier_refuted"
   ],
   "note": "Full claim false: '$' matches before a trailing newline, so 'any_os\\n' is accepted as a key. Proved up to one trailing newline."
  },
  {
   "property": "C13",
   "status": "proved",
   "theorems": [
    "C13_expand_idempotent"
   ],
   "note": ""
  },
  {
   "property": "C14",
   "status": "proved",
   "theorems": [
    "C14_shorthand",
    "C14_keys_preserved"
   ],
   "note": ""
  },
  {
   "property": "C15",
   "status": "partial",
   "theorems": [
    "C15_fails_exactly_partial",
    "C15_documented_error_refuted"
   ],
   "note": "'Fails exactly on malformed input' is proved; 'with the documented error' is false: constructing SpecParsingError raises TypeError."
  },
  {
   "property": "C16",
   "status": "partial",
   "theorems": [
    "C16_compact_preserves",
    "C16_compact_fails_exactly",
    "C16_other_default_refuted"
   ],
   "note": "Proved for the os's configured default installer (the one compaction bakes in) and any real os; for other default installers the claim is false (C16_other_default_refuted). Failure condition characterised exactly. any_os as the queried os name is excluded."
  },
  {
   "property": "C17",
   "status": "proved",
   "theorems": [
    "C17_cache_round_trip",
    "C17_rules_spec"
   ],
   "note": ""
  },
  {
   "property": "C18",
   "status": "proved",
   "theorems": [
    "C18_only_verified_data",
    "C18_rules_source",
    "C18_failed_load_keeps_source"
   ],
   "note": ""
  },
  {
   "property": "C19",
   "status": "proved",
   "theorems": [
    "C19_distinct_cache_files",
    "C19_save_does_not_interfere"
   ],
   "note": ""
  },
  {
   "property": "C20",
   "status": "proved",
   "theorems": [
    "C20_update_isolates",
    "C20_interrupted"
   ],
   "note": "Assumes that the messages about failed sources can be made (see C123_message_refuted for exceptions with messages that are not ASCII in python 2)."
  },
  {
   "property": "C21",
   "status": "partial",
   "theorems": [
    "C21_damaged_is_beginning",
    "C21_operations_are_update",
    "C21_crash_damages_at_most_one_file",
    "C21_rerun_repairs",
    "C21_atomic_replacement_refuted"
   ],
   "note": "At most one damaged file and repair by rerunning are proved; the parenthesised expectation (atomic replacement of the file being written) is false."
  },
  {
   "property": "C22",
   "status": "proved",
   "theorems": [
    "C22_cache_load_exactly",
    "C22_failed_cache_load",
    "C22_database_load_stops",
    "C22_foreign_arguments_refuted"
   ],
   "note": "Exact condition for a successful load. Additionally shown: the record's arguments are neither compared nor verified (C22_foreign_arguments_refuted). Arbitrary code execution by pickle is outside the model."
  },
  {
   "property": "C23",
   "status": "partial",
   "theorems": [
    "C23_source_list_validation_partial",
    "C23_non_list_accepted_refuted"
   ],
   "note": "Exact condition proved; an empty mapping and an empty text are accepted too, so the claim as stated is false for these two values."
  },
  {
   "property": "C24",
   "status": "partial",
   "theorems": [
    "C24_selection_partial",
    "C24_hidden_files_refuted"
   ],
   "note": "Exact condition proved; hidden files are NOT skipped (the check is applied to the joined path), and a sources dir path starting with a dot hides all files."
  },
  {
   "property": "C25",
   "status": "proved",
   "theorems": [
    "C25_one_outcome_per_key",
    "C25_counts"
   ],
   "note": "Preparing configuration, contexts and database (resolve.py:52-58) is outside; database keys are texts."
  },
  {
   "property": "C26",
   "status": "proved",
   "theorems": [
    "C26_key_independence",
    "C26_no_collateral_failure"
   ],
   "note": ""
  },
  {
   "property": "C27",
   "status": "partial",
   "theorems": [
    "C27_installer_choice_partial",
    "C27_errors",
    "C27_first_additional_refuted"
   ],
   "note": "Core installers: as claimed. Additional installers: the LAST one with a rule wins (missing break, resolve.py:127-133), so the claim is false there."
  },
  {
   "property": "C28",
   "status": "partial",
   "theorems": [
    "C28_install_from",
    "C28_honoured_or_reported",
    "C28_order_irrelevant",
    "C28_order_refuted"
   ],
   "note": "Proved with respect to the iteration order of the install_from mapping, and the order is shown to matter for nothing but keys listed under several installers (C28_order_irrelevant). For those 'first' means the iteration order of a plain Python 2 dict, not the order in the file: C28_order_refuted gives two orders of one mapping with different installers."
  },
  {
   "property": "C29",
   "status": "proved",
   "theorems": [
    "C29_simulate_no_command",
    "C29_simulate_changes_nothing"
   ],
   "note": "Changes-nothing part assumes that the installers' queries and their prerequisite checks without fixing do not change the machine."
  },
  {
   "property": "C30",
   "status": "partial",
   "theorems": [
    "C30_no_error_done_partial",
    "C30_installed_afterwards",
    "C30_install_success",
    "C30_no_commands_refuted"
   ],
   "note": "Every group with commands: all executed with exit code 0, then all detected as installed. False for an installer that composes no command: no check is made."
  },
  {
   "property": "C31",
   "status": "proved",
   "theorems": [
    "C31_stops_at_failure",
    "C31_continues"
   ],
   "note": ""
  },
  {
   "property": "C32",
   "status": "proved",
   "theorems": [
    "C32_squash",
    "C32_map"
   ],
   "note": ""
  },
  {
   "property": "C33",
   "status": "proved",
   "theorems": [
    "C33_second_run",
    "C33_only_uninstalled",
    "C33_all_installed"
   ],
   "note": "Second-run part for installers with faithful detection."
  },
  {
   "property": "C34",
   "status": "partial",
   "theorems": [
    "C34_nothing_installed_partial",
    "C34_swallowed_refuted",
    "C34_printed"
   ],
   "note": "Nothing is installed (proved), but no error is returned (refuted); what is printed meanwhile is C34_printed."
  },
  {
   "property": "C35",
   "status": "partial",
   "theorems": [
    "C35_reinstall_refuted"
   ],
   "note": "False: with reinstall=True, install raises UnboundLocalError (install.py:94) and composes nothing."
  },
  {
   "property": "C36",
   "status": "partial",
   "theorems": [
    "C36_composition_error_refuted",
    "C36_other_errors_partial",
    "C36_interruption_partial"
   ],
   "note": "False for the documented InstallerError (UnboundLocalError); other exceptions become XylemInternalError."
  },
  {
   "property": "C37",
   "status": "partial",
   "theorems": [
    "C37_resolve_exact",
    "C37_options",
    "C37_depends_exact",
    "C37_null_package_refuted",
    "C37_not_a_mapping_refuted"
   ],
   "note": "Exact for rules that are mappings, with and without further rule options; a null package name is accepted and a rule that is not a mapping raises AttributeError instead of InvalidRuleError (both _refuted)."
  },
  {
   "property": "C38",
   "status": "proved",
   "theorems": [
    "C38_elevation",
    "C38_total",
    "C38_idempotent",
    "C38_as_root_option"
   ],
   "note": "Elevation is exact, idempotent and total on non-empty commands; as_root is the configured option or the installer's default."
  },
  {
   "property": "C39",
   "status": "partial",
   "theorems": [
    "C39_installed_exact",
    "C39_error_partial",
    "C39_out_of_date_tolerated_partial",
    "C39_bundled_refuted",
    "C39_bundled_no_fix"
   ],
   "note": "Outcome of the check is exact for any package manager; the error type is proved when hooks raise only NotImplementedError, and refuted for apt, homebrew, macports and pip with fix requested (TypeError)."
  },
  {
   "property": "C40",
   "status": "partial",
   "theorems": [
    "C40_loaded_in_order",
    "C40_distinct_names",
    "C40_first_of_name",
    "C40_rejected_ignored",
    "C40_others_load_partial",
    "C40_failure_origin",
    "C40_failing_plugin_refuted",
    "C40_verified_name",
    "C40_rejected_name"
   ],
   "note": "Order, distinct names, first of a name and the irrelevance of rejected plugins are proved; loading succeeds if no entry point raises. False: an entry point whose import or constructor raises prevents all others from loading (C40_failing_plugin_refuted)."
  },
  {
   "property": "C41",
   "status": "proved",
   "theorems": [
    "C41_configured_core",
    "C41_os_core",
    "C41_all_loaded",
    "C41_additional_disabled",
    "C41_additional_enabled",
    "C41_additional_sound",
    "C41_os",
    "C41_lookup_finds",
    "C41_lookup_unique"
   ],
   "note": ""
  },
  {
   "property": "C42",
   "status": "proved",
   "theorems": [
    "C42_most_specific",
    "C42_order_irrelevant",
    "C42_nothing_more_specific",
    "C42_none_detected",
    "C42_failure_keeps"
   ],
   "note": ""
  },
  {
   "property": "C43",
   "status": "proved",
   "theorems": [
    "C43_override_accepted",
    "C43_override_rejected",
    "C43_unknown_os",
    "C43_unknown_version",
    "C43_history"
   ],
   "note": ""
  },
  {
   "property": "C44",
   "status": "proved",
   "theorems": [
    "C44_order_exists",
    "C44_order_is_list_order",
    "C44_total_order",
    "C44_unknown_raises",
    "C44_bundled",
    "C44_release_order",
    "C44_osx_order",
    "C44_default_installers"
   ],
   "note": ""
  },
  {
   "property": "C45",
   "status": "proved",
   "theorems": [
    "C45_names_and_first",
    "C45_versions_follow_mapping",
    "C45_bundled",
    "C45_derived"
   ],
   "note": ""
  },
  {
   "property": "C46",
   "status": "partial",
   "theorems": [
    "C46_priority",
    "C46_files",
    "C46_command_line",
    "C46_xylem_flags",
    "C46_shared_destination_refuted"
   ],
   "note": "Priority of the layers and key-wise merging proved for every description; the command line layer is the flag's own occurrences if the flags are plain and their destinations distinct (true for xylem's own flags, C46_xylem_flags). In general false: flags differing only in - and _ share an argparse destination (C46_shared_destination_refuted). argparse is modelled (dest, append, last wins), abbreviations are not."
  },
  {
   "property": "C47",
   "status": "partial",
   "theorems": [
    "C47_verification_exact",
    "C47_parsed_values_valid",
    "C47_loaded_valid_partial",
    "C47_dictionary_valid_partial",
    "C47_invalid_default_refuted",
    "C47_declared_defaults"
   ],
   "note": "Verification exact; all parsed values valid; loaded configurations valid if declared defaults are. False otherwise: defaults are never verified (C47_invalid_default_refuted)."
  },
  {
   "property": "C48",
   "status": "proved",
   "theorems": [
    "C48_value_idempotent",
    "C48_config_idempotent"
   ],
   "note": "For values of every type and for whole configurations; assumes an absolute current directory."
  },
  {
   "property": "C49",
   "status": "proved",
   "theorems": [
    "C49_associative",
    "C49_unset_is_unit",
    "C49_higher_priority_kept"
   ],
   "note": "For well-typed configurations; equality is option by option."
  },
  {
   "property": "C50",
   "status": "partial",
   "theorems": [
    "C50_accepts_exactly",
    "C50_rejection_error_partial",
    "C50_file_error_partial",
    "C50_group_error_refuted"
   ],
   "note": "Accepted contents characterised exactly. Rejections carry the configuration error as long as groups are mappings; a group that is null or not a mapping raises AttributeError (C50_group_error_refuted)."
  },
  {
   "property": "C51",
   "status": "partial",
   "theorems": [
    "C51_names_never_clash",
    "C51_flags_distinct",
    "C51_rejection_partial",
    "C51_rejection_refuted",
    "C51_flag"
   ],
   "note": "Names never clash in any history; flags are distinct if all additions were accepted. A rejection because of a taken flag leaves the option added (C51_rejection_refuted)."
  },
  {
   "property": "C52",
   "status": "partial",
   "theorems": [
    "C52_format_parse_partial",
    "C52_parse_stable_partial",
    "C52_empty_parts_refuted"
   ],
   "note": "Round trip proved in both directions; nothing is ever rejected, so empty names and versions are accepted (C52_empty_parts_refuted)."
  },
  {
   "property": "C53",
   "status": "partial",
   "theorems": [
    "C53_download",
    "C53_read_failure_refuted"
   ],
   "note": "A failing read() after a successful connect is not retried or converted; see C53_read_failure_refuted."
  },
  {
   "property": "C54",
   "status": "proved",
   "theorems": [
    "C54_remove_duplicates"
   ],
   "note": ""
  },
  {
   "property": "C55",
   "status": "partial",
   "theorems": [
    "C55_escaped_text_prints_itself_partial",
    "C55_escaped_text_between_markup",
    "C55_never_fails",
    "C55_enabled_exactly",
    "C55_disabled_exactly",
    "C55_codes",
    "C55_braces_refuted",
    "C55_disabled_refuted"
   ],
   "note": "Formatting never fails on escaped text; what is printed is characterised exactly (C55_enabled_exactly, C55_disabled_exactly). It is the text itself if it has no braces and colours are on. False: braces are doubled (C55_braces_refuted) and with colours off some @ sequences vanish (C55_disabled_refuted)."
  },
  {
   "property": "C56",
   "status": "partial",
   "theorems": [
    "C56_dry_run_refuted"
   ],
   "note": "False: dry_run is ignored by update()."
  },
  {
   "property": "C57",
   "status": "partial",
   "theorems": [
    "C57_clear_cache_refuted",
    "C57_outdated_partial"
   ],
   "note": "False: clear_cache and is_cache_outdated raise TypeError; proved is the case without a cache file."
  },
  {
   "property": "C58",
   "status": "partial",
   "theorems": [
    "C58_compact_partial",
    "C58_default_renamed",
    "C58_compact_unambiguous",
    "C58_plain_refuted"
   ],
   "note": "False without compact presentation: lookup() raises UnboundLocalError (lookup.py:43, C58_plain_refuted). With compact presentation the answer is the database's, in a notation that determines it."
  },
  {
   "property": "C59",
   "status": "partial",
   "theorems": [
    "C59_uncaught",
    "C59_main",
    "C59_resolve",
    "C59_install_partial",
    "C59_lookup",
    "C59_update_refuted",
    "C59_update_partial",
    "C59_install_success",
    "C59_install_refuted"
   ],
   "note": "main, resolve and lookup proved. update exits with 0 although sources failed (C59_update_refuted; they are reported on stderr); install exits with 0 although it printed errors when the check for installed packages fails (C59_install_refuted). What does hold for these two is C59_update_partial, C59_install_partial and C59_install_success."
  },
  {
   "property": "C60",
   "status": "partial",
   "theorems": [
    "C60_os_dict_forbids_default",
    "C60_rules_dict_ignored",
    "C60_rules_dict_refuted"
   ],
   "note": "Holds for os dicts; false for whole rules dicts (argument not passed on, rules_dict.py:102)."
  },
  {
   "property": "C61",
   "status": "partial",
   "theorems": [
    "C61_source_order",
    "C61_priority_by_name_refuted"
   ],
   "note": "The order is exactly the directory listing order; independence of the listing order is false."
  },
  {
   "property": "C62",
   "status": "partial",
   "theorems": [
    "C62_commands_run_partial",
    "C62_at_sign_refuted"
   ],
   "note": "False for commands with '@' (KeyError from fmt before execution, e.g. pip install git+ssh://git@github.com/...)."
  },
  {
   "property": "C63",
   "status": "proved",
   "theorems": [
    "C63_prerequisites_first"
   ],
   "note": ""
  },
  {
   "property": "C64",
   "status": "proved",
   "theorems": [
    "C64_paths_absolute"
   ],
   "note": ""
  },
  {
   "property": "C65",
   "status": "proved",
   "theorems": [
    "C65_unknown_entries_ignored"
   ],
   "note": ""
  },
  {
   "property": "C66",
   "status": "proved",
   "theorems": [
    "C66_directories",
    "C66_post_processing_total"
   ],
   "note": ""
  },
  {
   "property": "C67",
   "status": "partial",
   "theorems": [
    "C67_success_reported_partial",
    "C67_bundled_refuted",
    "C67_fake_success"
   ],
   "note": "Proved for every context of working installers and instantiated for the fake installer; false for apt, homebrew and macports, which always report an error."
  },
  {
   "property": "C68",
   "status": "partial",
   "theorems": [
    "C68_hashable_refuted",
    "C68_resolved_refuted"
   ],
   "note": "False for every resolution object."
  },
  {
   "property": "C69",
   "status": "partial",
   "theorems": [
    "C69_flags_ignored_refuted",
    "C69_commands"
   ],
   "note": "The composed commands are characterised exactly; neither setting has any effect (refuted)."
  },
  {
   "property": "C70",
   "status": "partial",
   "theorems": [
    "C70_pip_detection",
    "C70_pip_any_package",
    "C70_spelling_refuted"
   ],
   "note": "Exact for names without '='; spelling differences matter (refuted)."
  },
  {
   "property": "C71",
   "status": "partial",
   "theorems": [
    "C71_osx_version_known",
    "C71_osx_version",
    "C71_osx_order",
    "C71_lsb_version_refuted",
    "C71_lsb_version_partial"
   ],
   "note": "Proved for OS X. False for Debian, Ubuntu and Xubuntu: the lsb codename is passed on unchecked; proved that the version is exactly that codename."
  },
  {
   "property": "C72",
   "status": "partial",
   "theorems": [
    "C72_newest_detector",
    "C72_other_detectors",
    "C72_detection_refuted",
    "C72_first_registered_wins_partial"
   ],
   "note": "Proved for queries by name; false for detection, where the first registered matching detector of the list wins (every match overwrites the previous result)."
  },
  {
   "property": "C73",
   "status": "partial",
   "theorems": [
    "C73_unique_bundled_os",
    "C73_any_order",
    "C73_order_refuted"
   ],
   "note": "Proved for machines without sw_vers next to lsb information; false with both (order decides)."
  },
  {
   "property": "C74",
   "status": "partial",
   "theorems": [
    "C74_distinct_partial",
    "C74_refuted"
   ],
   "note": "Proved when options do not change names. False for the fake installer: its name is an option, and it can take over 'apt'."
  },
  {
   "property": "C75",
   "status": "partial",
   "theorems": [
    "C75_own_name_only_partial",
    "C75_refuted"
   ],
   "note": "False: only the rules of the very os (and any_os) are consulted; get_all_tuples is unused. The _partial theorem proves exactly that restriction."
  },
  {
   "property": "C76",
   "status": "proved",
   "theorems": [
    "C76_default_context"
   ],
   "note": ""
  },
  {
   "property": "C77",
   "status": "partial",
   "theorems": [
    "C77_documented_errors_partial",
    "C77_override_known",
    "C77_null_options_refuted",
    "C77_null_installer_refuted",
    "C77_override_refuted",
    "C77_sw_vers_refuted"
   ],
   "note": "Proved for processed configurations whose installer options are mappings and whose core installers are names, and a working sw_vers. Four kinds of validated configurations or machine states that raise other errors are given."
  },
  {
   "property": "C80",
   "status": "proved",
   "theorems": [
    "C80_lookup_after_update"
   ],
   "note": "Assumes pickling restores values up to dict order and a default installer with a legal, non-reserved name; unambiguous installer dicts as in C03."
  },
  {
   "property": "C81",
   "status": "partial",
   "theorems": [
    "C81_rewrite_preserves",
    "C81_otherwise_untouched",
    "C81_bundled_defaults_named",
    "C81_crash_refuted"
   ],
   "note": "Proved for completed writes and for every failure before the file is opened, assuming the YAML library reads back what it dumped for this file (false for None inside a list, which dump_yaml writes as an empty scalar). A write that dies in the middle leaves a damaged file (C81_crash_refuted)."
  },
  {
   "property": "C82",
   "status": "partial",
   "theorems": [
    "C82_invalid_skipped_partial",
    "C82_broken_plugin_refuted"
   ],
   "note": "Proved for entry points that load but are no definition. One that raises on loading takes all commands away (C82_broken_plugin_refuted)."
  },
  {
   "property": "C83",
   "status": "partial",
   "theorems": [
    "C83_not_canonical_refuted",
    "C83_two_passes_partial"
   ],
   "note": "False (C83_not_canonical_refuted); proved: the second pass only unwraps lone any_version lists, and the third changes nothing."
  },
  {
   "property": "C78",
   "status": "partial",
   "theorems": [
    "C78_documented_rules_found_partial",
    "C78_additions_less_specific_partial",
    "C78_exact_answer_refuted"
   ],
   "note": "The exact documented answer is refuted: lookup_rules merges the levels per installer, so less specific entries add rules for other installers, and an os without entry for the version falls through to any_os. Proved: every documented rule is found, and every addition comes from a less specific entry for an installer the documented entry does not name."
  },
  {
   "property": "C79",
   "status": "proved",
   "theorems": [
    "C79_default_commands"
   ],
   "note": ""
  },
  {
   "property": "C84",
   "status": "proved",
   "theorems": [
    "C84_chain_shown",
    "C84_no_tracebacks",
    "C84_unchained",
    "C84_cycle_never_ends",
    "C84_created_chains_end",
    "C84_chaining_keeps_causes"
   ],
   "note": "For exceptions created by raise_from/chain_exception or without cause (histories of such steps). A cyclic __cause__ set by hand is never finished (C84_cycle_never_ends). Tracebacks and messages are arbitrary functions."
  },
  {
   "property": "C85",
   "status": "partial",
   "theorems": [
    "C85_change_directory",
    "C85_not_entered",
    "C85_nested",
    "C85_temporary_directory",
    "C85_redirected_stdio",
    "C85_original_deleted_refuted",
    "C85_leak_refuted",
    "C85_removal_fails_refuted",
    "C85_default_directory_refuted"
   ],
   "note": "Proved when the original directory still exists and can be entered, and removal of the temporary directory succeeds. Refuted otherwise: the temporary directory leaks if it can not be entered, a failing removal loses the body's exception and does not restore the directory, a deleted original directory is not restored; change_directory() with its default argument always fails."
  },
  {
   "property": "C86",
   "status": "proved",
   "theorems": [
    "C86_indent_lines",
    "C86_any_text",
    "C86_nested"
   ],
   "note": ""
  },
  {
   "property": "C87",
   "status": "proved",
   "theorems": [
    "C87_round_trip",
    "C87_injective",
    "C87_concatenation",
    "C87_ascii",
    "C87_strict",
    "C87_bytes_refuted"
   ],
   "note": "Python 2.7 wide build (surrogates are encoded like other code points). How many bytes an invalid sequence covers when decoding is arbitrary. The other direction (bytes to text and back) is refuted for invalid bytes, as expected."
  },
  {
   "property": "C88",
   "status": "partial",
   "theorems": [
    "C88_command_line",
    "C88_streams",
    "C88_returns",
    "C88_error_exit",
    "C88_settings",
    "C88_later_settings_partial",
    "C88_second_command_refuted"
   ],
   "note": "Streams and settings of the first command are proved. A later command in the same process keeps --verbose and --no-color of an earlier one (refuted). Python 2: under Python 3 print(to_bytes(msg)) shows a bytes literal; not modelled."
  },
  {
   "property": "C89",
   "status": "proved",
   "theorems": [
    "C89_merge_shares_nothing"
   ],
   "note": ""
  },
  {
   "property": "C90",
   "status": "partial",
   "theorems": [
    "C90_lookup_reads_only",
    "C90_history_independent",
    "C90_rules_are_shared_refuted"
   ],
   "note": "Proved for changes to the dict answered. The rules inside the answer are the objects of the database itself, so changing one of them changes later answers (C90_rules_are_shared_refuted)."
  },
  {
   "property": "C91",
   "status": "partial",
   "theorems": [
    "C91_aliases_at_one_level",
    "C91_without_aliases",
    "C91_alias_at_two_levels_refuted"
   ],
   "note": "Proved if every dict object is used at one level only (and in particular without aliases). False in general: with 'any_os: &v {apt: [..]}, ubuntu: *v' the first expansion spoils the second."
  },
  {
   "property": "C92",
   "status": "partial",
   "theorems": [
    "C92_variables_stand_for_options",
    "C92_options_win",
    "C92_directories_expanded",
    "C92_directory_isolates",
    "C92_empty_variable_refuted"
   ],
   "note": "Proved for options after the command (see C93 for before it). An environment variable that is set but empty is not treated as unset: it means the working directory (C92_empty_variable_refuted)."
  },
  {
   "property": "C93",
   "status": "partial",
   "theorems": [
    "C93_before_command_ignored",
    "C93_old_argparse_partial",
    "C93_position_refuted"
   ],
   "note": "False with the argparse of Python 2.7.9 and later (C93_position_refuted): options before the command are checked and then ignored (C93_before_command_ignored). Proved for the older argparse (C93_old_argparse_partial)."
  },
  {
   "property": "C94",
   "status": "partial",
   "theorems": [
    "C94_print_config",
    "C94_before_command_refuted"
   ],
   "note": "Proved for options after the command. Before the command --print-config is ignored and the command runs (C94_before_command_refuted)."
  },
  {
   "property": "C95",
   "status": "partial",
   "theorems": [
    "C95_used_when_missing_partial",
    "C95_empty_directory_refuted"
   ],
   "note": "Proved when the directory does not exist. A directory without list files gives no sources at all, although the message says default sources are used (C95_empty_directory_refuted)."
  },
  {
   "property": "C96",
   "status": "partial",
   "theorems": [
    "C96_dict_is_like_a_file",
    "C96_directories_partial",
    "C96_fresh_process",
    "C96_user_sources_refuted",
    "C96_paths"
   ],
   "note": "All options have the same value. The same directories are used unless user_sources is set, which has no effect in a dict (C96_user_sources_refuted); os_override: see C77_override_refuted."
  },
  {
   "property": "C97",
   "status": "partial",
   "theorems": [
    "C97_old_or_new_partial",
    "C97_database_partial",
    "C97_overlapping_read_refuted"
   ],
   "note": "Proved for a process that reads a cache file at one moment (in the file system state of any point of the update), assuming that no proper prefix of a pickle unpickles. False if reading overlaps with rewriting: the bytes read can mix old and new records into one that nobody saved (C97_overlapping_read_refuted)."
  },
  {
   "property": "C98",
   "status": "partial",
   "theorems": [
    "C98_separate_files_partial",
    "C98_last_writer_partial",
    "C98_bytes_partial",
    "C98_one_record_refuted",
    "C98_readable_refuted"
   ],
   "note": "Proved: files of only one process are as if it was alone (even if others are killed), a file nobody else touches after a process opened it is that process's, and every byte of a file comes from the record of some process at this position (or is zero). False for two processes writing one file at the same time: the result can be a mixture nobody served (C98_one_record_refuted) or unreadable (C98_readable_refuted); there is no locking and no atomic replacement."
  },
  {
   "property": "C99",
   "status": "proved",
   "theorems": [
    "C99_value_meaning",
    "C99_entries_kept"
   ],
   "note": ""
  },
  {
   "property": "C100",
   "status": "proved",
   "theorems": [
    "C100_lists",
    "C100_dictionaries",
    "C100_duplicate_keys",
    "C100_single_values",
    "C100_not_given"
   ],
   "note": "For every YAML reader that raises only YAML errors and gives dictionaries with unique keys. argparse's collection of the occurrences is in C46 and C93."
  },
  {
   "property": "C101",
   "status": "proved",
   "theorems": [
    "C101_wrong_os",
    "C101_answer_means_detected"
   ],
   "note": ""
  },
  {
   "property": "C102",
   "status": "partial",
   "theorems": [
    "C102_words",
    "C102_fedora_version",
    "C102_rhel_version",
    "C102_codename",
    "C102_codename_first_word",
    "C102_codename_words_refuted",
    "C102_gentoo_version",
    "C102_opensuse",
    "C102_windows",
    "C102_arch",
    "C102_cygwin",
    "C102_uname",
    "C102_gentoo"
   ],
   "note": "Proved for codenames of one word. A codename of several words, like (Beefy Miracle), is always cut after the first one (C102_codename_first_word, C102_codename_words_refuted)."
  },
  {
   "property": "C103",
   "status": "partial",
   "theorems": [
    "C103_documented_error_partial",
    "C103_absent_file_partial",
    "C103_fedora_first_word",
    "C103_documented_error_refuted"
   ],
   "note": "Proved for the lsb detectors, Arch, Cygwin and Windows, and for the others if their release file (or uname) is absent. False otherwise: unexpected contents and programs that can not be run give ValueError, IndexError or AttributeError (C103_documented_error_refuted)."
  },
  {
   "property": "C104",
   "status": "partial",
   "theorems": [
    "C104_single_match",
    "C104_default_list",
    "C104_override",
    "C104_name_remembered",
    "C104_stale_refuted",
    "C104_failure_refuted",
    "C104_override_detector_refuted",
    "C104_last_match",
    "C104_added",
    "C104_added_loses_refuted",
    "C104_added_keeps_memory",
    "C104_by_name",
    "C104_empty_asked_again",
    "C104_name_without_version_refuted",
    "C104_registered"
   ],
   "note": "The single match, the bundled list on plain Linux systems, the override and the memory are proved. False: a detection that finds nothing answers with the result of an earlier one (C104_stale_refuted), after a failed one the name is answered with an old codename (C104_failure_refuted), and with ROS_OS_OVERRIDE get_detector() answers None (C104_override_detector_refuted)."
  },
  {
   "property": "C105",
   "status": "partial",
   "theorems": [
    "C105_simulated",
    "C105_executed_partial",
    "C105_aborts_refuted"
   ],
   "note": "Simulation is exact (C105_simulated); with --continue-on-error exactly the same commands are executed (C105_executed_partial: package names without '@', see C62). False: without --continue-on-error, after apt or homebrew packages were installed successfully an error per package is reported and the packages of the next tool are not installed (C105_aborts_refuted)."
  },
  {
   "property": "C106",
   "status": "partial",
   "theorems": [
    "C106_reload",
    "C106_reload_same",
    "C106_printed_partial",
    "C106_override_refuted"
   ],
   "note": "C106_reload holds for every set of options and C106_printed_partial for what --print-config shows while no operating system is configured. With one configured the printed configuration is always rejected (C106_override_refuted, for every such run)."
  },
  {
   "property": "C107",
   "status": "proved",
   "theorems": [
    "C107_dry_run",
    "C107_predicts",
    "C107_count"
   ],
   "note": ""
  },
  {
   "property": "C108",
   "status": "proved",
   "theorems": [
    "C108_lines",
    "C108_only_headers",
    "C108_every_file"
   ],
   "note": ""
  },
  {
   "property": "C109",
   "status": "partial",
   "theorems": [
    "C109_second_run_partial",
    "C109_refuted"
   ],
   "note": "Proved if in the files after the first run the old patterns match at most the header itself (C109_second_run_partial). False otherwise (C109_refuted: for every header p++r and old pattern p)."
  },
  {
   "property": "C110",
   "status": "partial",
   "theorems": [
    "C110_fails_exactly",
    "C110_empty_file_refuted"
   ],
   "note": "Exact condition for failure proved (C110_fails_exactly). The claim is false for empty files (C110_empty_file_refuted)."
  },
  {
   "property": "C111",
   "status": "partial",
   "theorems": [
    "C111_optional_refuted",
    "C111_given_partial",
    "C111_named_file"
   ],
   "note": "With all options given the settings are the documented ones (C111_given_partial). The tool gets past its arguments only if all of them are given (C111_optional_refuted)."
  },
  {
   "property": "C112",
   "status": "partial",
   "theorems": [
    "C112_merge",
    "C112_defaults",
    "C112_load",
    "C112_setting_options",
    "C112_fresh_default_refuted",
    "C112_loaded_list_refuted"
   ],
   "note": "Merging, loading and making defaults are exact and change no existing object; setting options of the result is safe (C112_merge, C112_load, C112_defaults, C112_setting_options). False for changing a value in place: default objects are shared (C112_fresh_default_refuted, C112_loaded_list_refuted)."
  },
  {
   "property": "C113",
   "status": "partial",
   "theorems": [
    "C113_copy_same",
    "C113_copy_plain",
    "C113_coerce_same_partial",
    "C113_coerce_refuted"
   ],
   "note": "copy_to_dict proved; ceorce_config_dict returns None whenever it has to convert (C113_coerce_refuted)."
  },
  {
   "property": "C114",
   "status": "partial",
   "theorems": [
    "C114_simulated",
    "C114_executed_partial"
   ],
   "note": "C114_simulated is complete for simulation. C114_executed_partial: with --continue-on-error and package names without '@' (C62); without it an installation stops after the first native tool although everything succeeded (C67, C105_aborts_refuted)."
  },
  {
   "property": "C115",
   "status": "partial",
   "theorems": [
    "C115_load_all",
    "C115_load_stops",
    "C115_load_save_update",
    "C115_save_all",
    "C115_failed_overwritten_refuted"
   ],
   "note": "Independence, stopping and equality with update (when nothing fails) are proved. The last part is false: caches of sources that could not be loaded are overwritten (C115_failed_overwritten_refuted)."
  },
  {
   "property": "C116",
   "status": "proved",
   "theorems": [
    "C116_as_if_not_installed",
    "C116_installers",
    "C116_installer_gone",
    "C116_os_gone",
    "C116_only_disabled",
    "C116_override_disabled",
    "C116_default_context",
    "C116_specs_as_if_not_installed",
    "C116_rules_spec"
   ],
   "note": ""
  },
  {
   "property": "C117",
   "status": "partial",
   "theorems": [
    "C117_none_is_global",
    "C117_contexts_from_config",
    "C117_given_contexts",
    "C117_given_database",
    "C117_lookup_answers",
    "C117_resolve_database",
    "C117_plain_dict_partial",
    "C117_plain_dict_refuted",
    "C117_given_sources",
    "C117_other_contexts",
    "C117_invalid_arguments",
    "C117_install_resolves",
    "C117_global_config"
   ],
   "note": "Everything is proved for resolve and install; update and lookup do not accept a plain dict (C117_plain_dict_refuted)."
  },
  {
   "property": "C118",
   "status": "proved",
   "theorems": [
    "C118_layout",
    "C118_description",
    "C118_argument",
    "C118_short_block",
    "C118_filled"
   ],
   "note": "textwrap's search for break positions (wordsep_re) is an arbitrary function that loses no character and gives no empty piece. Pre-formatted paragraphs: for lines ended by newlines (splitlines also breaks at other characters, which is modelled but not specified). C118_filled needs words that fit and break positions only at blanks."
  },
  {
   "property": "C119",
   "status": "partial",
   "theorems": [
    "C119_command_partial",
    "C119_no_sources",
    "C119_script_refuted"
   ],
   "note": "False for every input (C119_script_refuted): the script always fails with AttributeError before changing anything. What the command does is C119_command_partial."
  },
  {
   "property": "C120",
   "status": "partial",
   "theorems": [
    "C120_not_run_partial",
    "C120_reported_refuted"
   ],
   "note": "C120_not_run_partial: no command is run, for every invalid file and command line. That the problem is reported as an error message is false (C120_reported_refuted): it ends in a traceback."
  },
  {
   "property": "C121",
   "status": "proved",
   "theorems": [
    "C121_accepted",
    "C121_options",
    "C121_install",
    "C121_resolve",
    "C121_others",
    "C121_dry_run",
    "C121_configuration",
    "C121_run"
   ],
   "note": "Options are given as a list of (option, value) occurrences: splitting of argv, abbreviated and short spellings and positional arguments are not modelled."
  },
  {
   "property": "C122",
   "status": "partial",
   "theorems": [
    "C122_runs_partial",
    "C122_bundled_partial",
    "C122_title_refuted",
    "C122_conflict_refuted",
    "C122_later_option_refuted",
    "C122_configuration_partial"
   ],
   "note": "Proved for plugins titled like their entry points that add nothing to the configuration and have no conflicting options (C122_runs_partial, C122_bundled_partial for the bundled commands with any such others), and for commands after which nothing is added (C122_configuration_partial). False otherwise: C122_later_option_refuted, C122_title_refuted, C122_conflict_refuted."
  },
  {
   "property": "C123",
   "status": "partial",
   "theorems": [
    "C123_setup",
    "C123_update_partial",
    "C123_message_refuted"
   ],
   "note": "C123_setup in full; C123_update_partial assumes that the messages of the exceptions can be shown. Otherwise the update ends at that source (C123_message_refuted)."
  },
  {
   "property": "C124",
   "status": "partial",
   "theorems": [
    "C124_same_plugins",
    "C124_messages",
    "C124_before_failure",
    "C124_silent_exactly",
    "C124_taken_name_refuted"
   ],
   "note": "Everything is proved except that the warning about a taken name says which name that is: it shows the plugin name instead (C124_taken_name_refuted)."
  },
  {
   "property": "C125",
   "status": "proved",
   "theorems": [
    "C125_same_os",
    "C125_warnings",
    "C125_warned_exactly",
    "C125_silent_choice",
    "C125_bundled"
   ],
   "note": "For plugins whose name lists are chains (C125_bundled: the bundled ones are). The example shows that otherwise a warning can be given although there is a single most specific system."
  },
  {
   "property": "C126",
   "status": "proved",
   "theorems": [
    "C126_options",
    "C126_rules",
    "C126_ignored"
   ],
   "note": "The order of the keys in the message is not specified (python sets). Unknown entries inside groups of options are not reported; no bundled plugin has groups."
  },
  {
   "property": "C127",
   "status": "proved",
   "theorems": [
    "C127_accepted",
    "C127_unusable",
    "C127_not_unique"
   ],
   "note": "Files whose YAML is a non-empty value of another shape are C23. Two urls with the same sha1 are treated like equal ones (RuntimeError)."
  },
  {
   "property": "C128",
   "status": "proved",
   "theorems": [
    "C128_resolve",
    "C128_lookup",
    "C128_lookup_stopped",
    "C128_resolve_readable",
    "C128_lookup_readable",
    "C128_conditions_needed"
   ],
   "note": "C128_conditions_needed shows that the conditions on items matter: a package `pip: boost` of the default installer prints like the package `boost` of pip."
  },
  {
   "property": "C129",
   "status": "partial",
   "theorems": [
    "C129_written_partial",
    "C129_at_most",
    "C129_predicted_partial",
    "C129_first_failure",
    "C129_twice_refuted"
   ],
   "note": "C129_written_partial and C129_predicted_partial are the claim for paths that do not lead into each other, C129_first_failure its last sentence; C129_at_most holds for all paths. For a file reached by two paths the dry run predicts a wrong number (C129_twice_refuted)."
  },
  {
   "property": "C130",
   "status": "proved",
   "theorems": [
    "C130_same_context",
    "C130_core_installers",
    "C130_additional_installers",
    "C130_system",
    "C130_silent_exactly",
    "C130_bundled"
   ],
   "note": "C130_silent_exactly assumes that the loaded os plugins form a family and installer plugins take the options they declare; both are shown for the bundled ones."
  },
  {
   "property": "C131",
   "status": "partial",
   "theorems": [
    "C131_reported_exactly",
    "C131_content",
    "C131_traceback",
    "C131_source_refuted",
    "C131_ascii",
    "C131_legible_partial",
    "C131_escaped_refuted",
    "C131_bytes_refuted",
    "C131_printed",
    "C131_print_text",
    "C131_main",
    "C131_main_debug",
    "C131_main_lost_refuted",
    "C131_errors",
    "C131_same_chain"
   ],
   "note": "Refuted: messages are escaped, and byte messages that are not ASCII make the report fail. Everything else is proved; highlighting by pygments, if it is installed, is an arbitrary function."
  },
  {
   "property": "C132",
   "status": "partial",
   "theorems": [
    "C132_reported",
    "C132_debugger_after_report",
    "C132_installed",
    "C132_xylem_update_refuted"
   ],
   "note": "Refuted for xylem-update, which does not get the handler, and through C131 for byte messages that are not ASCII."
  },
  {
   "property": "C133",
   "status": "partial",
   "theorems": [
    "C133_as_written",
    "C133_after_separator",
    "C133_keys_apart_refuted",
    "C133_all_needs_key",
    "C133_dash_value_refuted",
    "C133_crash_refuted",
    "C133_leaves",
    "C133_outcomes",
    "C133_accepted",
    "C133_unknown",
    "C133_dash_words",
    "C133_separator_refuted",
    "C133_exit",
    "C133_bundled",
    "C133_documented"
   ],
   "note": "Refuted for keys apart from each other, --all without keys, values that begin with a dash, `--` before the command, and `-v=`. Everything else is proved; left out are the pager of --help and the messages of usage errors."
  }
 ]
}