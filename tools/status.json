{
 "C03": {
  "note": "Order independence under the stated proviso is proved; the second half of the property (without it, order matters) is the _refuted theorem.",
  "status": "proved"
 },
 "C04": {
  "note": "Completeness, membership and uniqueness proved; the listed keys and the lookups without rules are characterised exactly (C04_listed_exactly, C04_no_rule_exactly). The converse a user expects holds when no entry is empty and any_os has any_version (C04_listed_has_rule_partial); in general it is false: any_os with an empty any_version entry lists a key without rule.",
  "status": "partial"
 },
 "C07": {
  "note": "False in general: merge_version_dict passes None as default installer (rules_dict.py:381), so two dicts using default_installer under any_version raise ValueError. Proved when only the lowest-priority dict does that; C07_fails_exactly characterises every failure for all lists of dicts (the error, the dict and the clash).",
  "status": "partial"
 },
 "C10": {
  "note": "Identifiers are those of the accepted language (legal identifiers plus an optional trailing newline, see C12).",
  "status": "proved"
 },
 "C100": {
  "note": "For every YAML reader that raises only YAML errors and gives dictionaries with unique keys. argparse's collection of the occurrences is in C46 and C93.",
  "status": "proved"
 },
 "C102": {
  "note": "Proved for codenames of one word. A codename of several words, like (Beefy Miracle), is always cut after the first one (C102_codename_first_word, C102_codename_words_refuted).",
  "status": "partial"
 },
 "C103": {
  "note": "Proved for the lsb detectors, Arch, Cygwin and Windows, and for the others if their release file (or uname) is absent. False otherwise: unexpected contents and programs that can not be run give ValueError, IndexError or AttributeError (C103_documented_error_refuted).",
  "status": "partial"
 },
 "C104": {
  "note": "The single match, the bundled list on plain Linux systems, the override and the memory are proved. False: a detection that finds nothing answers with the result of an earlier one (C104_stale_refuted), after a failed one the name is answered with an old codename (C104_failure_refuted), and with ROS_OS_OVERRIDE get_detector() answers None (C104_override_detector_refuted).",
  "status": "partial"
 },
 "C105": {
  "note": "Simulation is exact (C105_simulated); with --continue-on-error exactly the same commands are executed (C105_executed_partial: package names without '@', see C62). False: without --continue-on-error, after apt or homebrew packages were installed successfully an error per package is reported and the packages of the next tool are not installed (C105_aborts_refuted).",
  "status": "partial"
 },
 "C106": {
  "note": "C106_reload holds for every set of options and C106_printed_partial for what --print-config shows while no operating system is configured. With one configured the printed configuration is always rejected (C106_override_refuted, for every such run).",
  "status": "partial"
 },
 "C109": {
  "note": "Proved if in the files after the first run the old patterns match at most the header itself (C109_second_run_partial). False otherwise (C109_refuted: for every header p++r and old pattern p).",
  "status": "partial"
 },
 "C110": {
  "note": "Exact condition for failure proved (C110_fails_exactly). The claim is false for empty files (C110_empty_file_refuted).",
  "status": "partial"
 },
 "C111": {
  "note": "With all options given the settings are the documented ones (C111_given_partial). The tool gets past its arguments only if all of them are given (C111_optional_refuted).",
  "status": "partial"
 },
 "C112": {
  "note": "Merging, loading and making defaults are exact and change no existing object; setting options of the result is safe (C112_merge, C112_load, C112_defaults, C112_setting_options). False for changing a value in place: default objects are shared (C112_fresh_default_refuted, C112_loaded_list_refuted).",
  "status": "partial"
 },
 "C113": {
  "note": "copy_to_dict proved; ceorce_config_dict returns None whenever it has to convert (C113_coerce_refuted).",
  "status": "partial"
 },
 "C114": {
  "note": "C114_simulated is complete for simulation. C114_executed_partial: with --continue-on-error and package names without '@' (C62); without it an installation stops after the first native tool although everything succeeded (C67, C105_aborts_refuted).",
  "status": "partial"
 },
 "C115": {
  "note": "Independence, stopping and equality with update (when nothing fails) are proved. The last part is false: caches of sources that could not be loaded are overwritten (C115_failed_overwritten_refuted).",
  "status": "partial"
 },
 "C117": {
  "note": "Everything is proved for resolve and install; update and lookup do not accept a plain dict (C117_plain_dict_refuted).",
  "status": "partial"
 },
 "C118": {
  "note": "textwrap's search for break positions (wordsep_re) is an arbitrary function that loses no character and gives no empty piece. Pre-formatted paragraphs: for lines ended by newlines (splitlines also breaks at other characters, which is modelled but not specified). C118_filled needs words that fit and break positions only at blanks.",
  "status": "proved"
 },
 "C119": {
  "note": "False for every input (C119_script_refuted): the script always fails with AttributeError before changing anything. What the command does is C119_command_partial.",
  "status": "partial"
 },
 "C12": {
  "note": "Full claim false: '$' matches before a trailing newline, so 'any_os\\n' is accepted as a key. Proved up to one trailing newline.",
  "status": "partial"
 },
 "C120": {
  "note": "C120_not_run_partial: no command is run, for every invalid file and command line. That the problem is reported as an error message is false (C120_reported_refuted): it ends in a traceback.",
  "status": "partial"
 },
 "C121": {
  "note": "Options are given as a list of (option, value) occurrences: splitting of argv, abbreviated and short spellings and positional arguments are not modelled.",
  "status": "proved"
 },
 "C122": {
  "note": "Proved for plugins titled like their entry points that add nothing to the configuration and have no conflicting options (C122_runs_partial, C122_bundled_partial for the bundled commands with any such others), and for commands after which nothing is added (C122_configuration_partial). False otherwise: C122_later_option_refuted, C122_title_refuted, C122_conflict_refuted.",
  "status": "partial"
 },
 "C123": {
  "note": "C123_setup in full; C123_update_partial assumes that the messages of the exceptions can be shown. Otherwise the update ends at that source (C123_message_refuted).",
  "status": "partial"
 },
 "C124": {
  "note": "Everything is proved except that the warning about a taken name says which name that is: it shows the plugin name instead (C124_taken_name_refuted).",
  "status": "partial"
 },
 "C125": {
  "note": "For plugins whose name lists are chains (C125_bundled: the bundled ones are). The example shows that otherwise a warning can be given although there is a single most specific system.",
  "status": "proved"
 },
 "C126": {
  "note": "The order of the keys in the message is not specified (python sets). Unknown entries inside groups of options are not reported; no bundled plugin has groups.",
  "status": "proved"
 },
 "C127": {
  "note": "Files whose YAML is a non-empty value of another shape are C23. Two urls with the same sha1 are treated like equal ones (RuntimeError).",
  "status": "proved"
 },
 "C128": {
  "note": "C128_conditions_needed shows that the conditions on items matter: a package `pip: boost` of the default installer prints like the package `boost` of pip.",
  "status": "proved"
 },
 "C129": {
  "note": "C129_written_partial and C129_predicted_partial are the claim for paths that do not lead into each other, C129_first_failure its last sentence; C129_at_most holds for all paths. For a file reached by two paths the dry run predicts a wrong number (C129_twice_refuted).",
  "status": "partial"
 },
 "C130": {
  "note": "C130_silent_exactly assumes that the loaded os plugins form a family and installer plugins take the options they declare; both are shown for the bundled ones.",
  "status": "proved"
 },
 "C131": {
  "note": "Refuted: messages are escaped, and byte messages that are not ASCII make the report fail. Everything else is proved; highlighting by pygments, if it is installed, is an arbitrary function.",
  "status": "partial"
 },
 "C132": {
  "note": "Refuted for xylem-update, which does not get the handler, and through C131 for byte messages that are not ASCII.",
  "status": "partial"
 },
 "C133": {
  "note": "Refuted for keys apart from each other, --all without keys, values that begin with a dash, `--` before the command, and `-v=`. Everything else is proved; left out are the pager of --help and the messages of usage errors.",
  "status": "partial"
 },
 "C15": {
  "note": "'Fails exactly on malformed input' is proved; 'with the documented error' is false: constructing SpecParsingError raises TypeError.",
  "status": "partial"
 },
 "C16": {
  "note": "Proved for the os's configured default installer (the one compaction bakes in) and any real os; for other default installers the claim is false (C16_other_default_refuted). Failure condition characterised exactly. any_os as the queried os name is excluded.",
  "status": "partial"
 },
 "C20": {
  "note": "Assumes that the messages about failed sources can be made (see C123_message_refuted for exceptions with messages that are not ASCII in python 2)."
 },
 "C21": {
  "note": "At most one damaged file and repair by rerunning are proved; the parenthesised expectation (atomic replacement of the file being written) is false.",
  "status": "partial"
 },
 "C22": {
  "note": "Exact condition for a successful load. Additionally shown: the record's arguments are neither compared nor verified (C22_foreign_arguments_refuted). Arbitrary code execution by pickle is outside the model.",
  "status": "proved"
 },
 "C23": {
  "note": "Exact condition proved; an empty mapping and an empty text are accepted too, so the claim as stated is false for these two values.",
  "status": "partial"
 },
 "C24": {
  "note": "Exact condition proved; hidden files are NOT skipped (the check is applied to the joined path), and a sources dir path starting with a dot hides all files.",
  "status": "partial"
 },
 "C25": {
  "note": "Preparing configuration, contexts and database (resolve.py:52-58) is outside; database keys are texts.",
  "status": "proved"
 },
 "C27": {
  "note": "Core installers: as claimed. Additional installers: the LAST one with a rule wins (missing break, resolve.py:127-133), so the claim is false there.",
  "status": "partial"
 },
 "C28": {
  "note": "Proved with respect to the iteration order of the install_from mapping, and the order is shown to matter for nothing but keys listed under several installers (C28_order_irrelevant). For those 'first' means the iteration order of a plain Python 2 dict, not the order in the file: C28_order_refuted gives two orders of one mapping with different installers.",
  "status": "partial"
 },
 "C29": {
  "note": "Changes-nothing part assumes that the installers' queries and their prerequisite checks without fixing do not change the machine.",
  "status": "proved"
 },
 "C30": {
  "note": "Every group with commands: all executed with exit code 0, then all detected as installed. False for an installer that composes no command: no check is made.",
  "status": "partial"
 },
 "C31": {
  "note": "",
  "status": "proved"
 },
 "C33": {
  "note": "Second-run part for installers with faithful detection.",
  "status": "proved"
 },
 "C34": {
  "note": "Nothing is installed (proved), but no error is returned (refuted); what is printed meanwhile is C34_printed.",
  "status": "partial"
 },
 "C35": {
  "note": "False: with reinstall=True, install raises UnboundLocalError (install.py:94) and composes nothing.",
  "status": "partial"
 },
 "C36": {
  "note": "False for the documented InstallerError (UnboundLocalError); other exceptions become XylemInternalError.",
  "status": "partial"
 },
 "C37": {
  "note": "Exact for rules that are mappings, with and without further rule options; a null package name is accepted and a rule that is not a mapping raises AttributeError instead of InvalidRuleError (both _refuted).",
  "status": "partial"
 },
 "C38": {
  "note": "Elevation is exact, idempotent and total on non-empty commands; as_root is the configured option or the installer's default.",
  "status": "proved"
 },
 "C39": {
  "note": "Outcome of the check is exact for any package manager; the error type is proved when hooks raise only NotImplementedError, and refuted for apt, homebrew, macports and pip with fix requested (TypeError).",
  "status": "partial"
 },
 "C40": {
  "note": "Order, distinct names, first of a name and the irrelevance of rejected plugins are proved; loading succeeds if no entry point raises. False: an entry point whose import or constructor raises prevents all others from loading (C40_failing_plugin_refuted).",
  "status": "partial"
 },
 "C46": {
  "note": "Priority of the layers and key-wise merging proved for every description; the command line layer is the flag's own occurrences if the flags are plain and their destinations distinct (true for xylem's own flags, C46_xylem_flags). In general false: flags differing only in - and _ share an argparse destination (C46_shared_destination_refuted). argparse is modelled (dest, append, last wins), abbreviations are not.",
  "status": "partial"
 },
 "C47": {
  "note": "Verification exact; all parsed values valid; loaded configurations valid if declared defaults are. False otherwise: defaults are never verified (C47_invalid_default_refuted).",
  "status": "partial"
 },
 "C48": {
  "note": "For values of every type and for whole configurations; assumes an absolute current directory.",
  "status": "proved"
 },
 "C49": {
  "note": "For well-typed configurations; equality is option by option.",
  "status": "proved"
 },
 "C50": {
  "note": "Accepted contents characterised exactly. Rejections carry the configuration error as long as groups are mappings; a group that is null or not a mapping raises AttributeError (C50_group_error_refuted).",
  "status": "partial"
 },
 "C51": {
  "note": "Names never clash in any history; flags are distinct if all additions were accepted. A rejection because of a taken flag leaves the option added (C51_rejection_refuted).",
  "status": "partial"
 },
 "C52": {
  "note": "Round trip proved in both directions; nothing is ever rejected, so empty names and versions are accepted (C52_empty_parts_refuted).",
  "status": "partial"
 },
 "C53": {
  "note": "A failing read() after a successful connect is not retried or converted; see C53_read_failure_refuted.",
  "status": "partial"
 },
 "C55": {
  "note": "Formatting never fails on escaped text; what is printed is characterised exactly (C55_enabled_exactly, C55_disabled_exactly). It is the text itself if it has no braces and colours are on. False: braces are doubled (C55_braces_refuted) and with colours off some @ sequences vanish (C55_disabled_refuted).",
  "status": "partial"
 },
 "C56": {
  "note": "False: dry_run is ignored by update().",
  "status": "partial"
 },
 "C57": {
  "note": "False: clear_cache and is_cache_outdated raise TypeError; proved is the case without a cache file.",
  "status": "partial"
 },
 "C58": {
  "note": "False without compact presentation: lookup() raises UnboundLocalError (lookup.py:43, C58_plain_refuted). With compact presentation the answer is the database's, in a notation that determines it.",
  "status": "partial"
 },
 "C59": {
  "note": "main, resolve and lookup proved. update exits with 0 although sources failed (C59_update_refuted; they are reported on stderr); install exits with 0 although it printed errors when the check for installed packages fails (C59_install_refuted). What does hold for these two is C59_update_partial, C59_install_partial and C59_install_success.",
  "status": "partial"
 },
 "C60": {
  "note": "Holds for os dicts; false for whole rules dicts (argument not passed on, rules_dict.py:102).",
  "status": "partial"
 },
 "C61": {
  "note": "The order is exactly the directory listing order; independence of the listing order is false.",
  "status": "partial"
 },
 "C62": {
  "note": "False for commands with '@' (KeyError from fmt before execution, e.g. pip install git+ssh://git@github.com/...).",
  "status": "partial"
 },
 "C67": {
  "note": "Proved for every context of working installers and instantiated for the fake installer; false for apt, homebrew and macports, which always report an error.",
  "status": "partial"
 },
 "C68": {
  "note": "False for every resolution object.",
  "status": "partial"
 },
 "C69": {
  "note": "The composed commands are characterised exactly; neither setting has any effect (refuted).",
  "status": "partial"
 },
 "C70": {
  "note": "Exact for names without '='; spelling differences matter (refuted).",
  "status": "partial"
 },
 "C71": {
  "note": "Proved for OS X. False for Debian, Ubuntu and Xubuntu: the lsb codename is passed on unchecked; proved that the version is exactly that codename.",
  "status": "partial"
 },
 "C72": {
  "note": "Proved for queries by name; false for detection, where the first registered matching detector of the list wins (every match overwrites the previous result).",
  "status": "partial"
 },
 "C73": {
  "note": "Proved for machines without sw_vers next to lsb information; false with both (order decides).",
  "status": "partial"
 },
 "C74": {
  "note": "Proved when options do not change names. False for the fake installer: its name is an option, and it can take over 'apt'.",
  "status": "partial"
 },
 "C75": {
  "note": "False: only the rules of the very os (and any_os) are consulted; get_all_tuples is unused. The _partial theorem proves exactly that restriction.",
  "status": "partial"
 },
 "C77": {
  "note": "Proved for processed configurations whose installer options are mappings and whose core installers are names, and a working sw_vers. Four kinds of validated configurations or machine states that raise other errors are given.",
  "status": "partial"
 },
 "C78": {
  "note": "The exact documented answer is refuted: lookup_rules merges the levels per installer, so less specific entries add rules for other installers, and an os without entry for the version falls through to any_os. Proved: every documented rule is found, and every addition comes from a less specific entry for an installer the documented entry does not name.",
  "status": "partial"
 },
 "C80": {
  "note": "Assumes pickling restores values up to dict order and a default installer with a legal, non-reserved name; unambiguous installer dicts as in C03.",
  "status": "proved"
 },
 "C81": {
  "note": "Proved for completed writes and for every failure before the file is opened, assuming the YAML library reads back what it dumped for this file (false for None inside a list, which dump_yaml writes as an empty scalar). A write that dies in the middle leaves a damaged file (C81_crash_refuted).",
  "status": "partial"
 },
 "C82": {
  "note": "Proved for entry points that load but are no definition. One that raises on loading takes all commands away (C82_broken_plugin_refuted).",
  "status": "partial"
 },
 "C83": {
  "note": "False (C83_not_canonical_refuted); proved: the second pass only unwraps lone any_version lists, and the third changes nothing.",
  "status": "partial"
 },
 "C84": {
  "note": "For exceptions created by raise_from/chain_exception or without cause (histories of such steps). A cyclic __cause__ set by hand is never finished (C84_cycle_never_ends). Tracebacks and messages are arbitrary functions.",
  "status": "proved"
 },
 "C85": {
  "note": "Proved when the original directory still exists and can be entered, and removal of the temporary directory succeeds. Refuted otherwise: the temporary directory leaks if it can not be entered, a failing removal loses the body's exception and does not restore the directory, a deleted original directory is not restored; change_directory() with its default argument always fails.",
  "status": "partial"
 },
 "C86": {
  "note": "",
  "status": "proved"
 },
 "C87": {
  "note": "Python 2.7 wide build (surrogates are encoded like other code points). How many bytes an invalid sequence covers when decoding is arbitrary. The other direction (bytes to text and back) is refuted for invalid bytes, as expected.",
  "status": "proved"
 },
 "C88": {
  "note": "Streams and settings of the first command are proved. A later command in the same process keeps --verbose and --no-color of an earlier one (refuted). Python 2: under Python 3 print(to_bytes(msg)) shows a bytes literal; not modelled.",
  "status": "partial"
 },
 "C89": {
  "note": "",
  "status": "proved"
 },
 "C90": {
  "note": "Proved for changes to the dict answered. The rules inside the answer are the objects of the database itself, so changing one of them changes later answers (C90_rules_are_shared_refuted).",
  "status": "partial"
 },
 "C91": {
  "note": "Proved if every dict object is used at one level only (and in particular without aliases). False in general: with 'any_os: &v {apt: [..]}, ubuntu: *v' the first expansion spoils the second.",
  "status": "partial"
 },
 "C92": {
  "note": "Proved for options after the command (see C93 for before it). An environment variable that is set but empty is not treated as unset: it means the working directory (C92_empty_variable_refuted).",
  "status": "partial"
 },
 "C93": {
  "note": "False with the argparse of Python 2.7.9 and later (C93_position_refuted): options before the command are checked and then ignored (C93_before_command_ignored). Proved for the older argparse (C93_old_argparse_partial).",
  "status": "partial"
 },
 "C94": {
  "note": "Proved for options after the command. Before the command --print-config is ignored and the command runs (C94_before_command_refuted).",
  "status": "partial"
 },
 "C95": {
  "note": "Proved when the directory does not exist. A directory without list files gives no sources at all, although the message says default sources are used (C95_empty_directory_refuted).",
  "status": "partial"
 },
 "C96": {
  "note": "All options have the same value. The same directories are used unless user_sources is set, which has no effect in a dict (C96_user_sources_refuted); os_override: see C77_override_refuted.",
  "status": "partial"
 },
 "C97": {
  "note": "Proved for a process that reads a cache file at one moment (in the file system state of any point of the update), assuming that no proper prefix of a pickle unpickles. False if reading overlaps with rewriting: the bytes read can mix old and new records into one that nobody saved (C97_overlapping_read_refuted).",
  "status": "partial"
 },
 "C98": {
  "note": "Proved: files of only one process are as if it was alone (even if others are killed), a file nobody else touches after a process opened it is that process's, and every byte of a file comes from the record of some process at this position (or is zero). False for two processes writing one file at the same time: the result can be a mixture nobody served (C98_one_record_refuted) or unreadable (C98_readable_refuted); there is no locking and no atomic replacement.",
  "status": "partial"
 }
}