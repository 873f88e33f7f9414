{"id": "C01", "title": "Rule lookup precedence", "statement": "Looking up a key for an os/version in a rules dict yields, for every installer name, the rule of the most specific entry that offers that installer: the entry for the concrete version wins over the os's any_version entry, which wins over the any_os/any_version entry; an installer offered by no entry does not appear.", "quantifier": "every rules dict, key, os name, os version, default installer name and installer name", "why_tests_cant": "The claim ranges over arbitrary nestings and combinations of overlapping entries; a test only samples a few overlap patterns.", "anchors": ["xylem/sources/rules_dict.py:lookup_rules", "xylem/sources/rules_dict.py:merge_installer_dict"]}
{"id": "C02", "title": "Default installer is always resolved by lookup", "statement": "A successful rule lookup never returns the keyword default_installer as an installer name; the keyword is replaced by the os's default installer, and lookup fails with ValueError exactly when one of the consulted entries uses the keyword and no default installer name is configured.", "quantifier": "every rules dict, key, os, version and default installer name (including the missing one)", "why_tests_cant": "Absence of a name in every possible result and an 'exactly when' on failure are universal statements.", "anchors": ["xylem/sources/rules_dict.py:lookup_rules", "xylem/sources/rules_dict.py:replace_default_installer"]}
{"id": "C03", "title": "Lookup does not depend on dict iteration order", "statement": "If no installer dict names both default_installer and the default installer itself, the outcome of a lookup (error or mapping of installers to rules) is the same whatever order the dictionaries are iterated in; without that proviso two orders can produce different rules.", "quantifier": "every rules dict and every reordering of any of its nested dictionaries", "why_tests_cant": "Hash order varies between runs and interpreters; tests see only one order per run.", "anchors": ["xylem/sources/rules_dict.py:lookup_rules", "xylem/sources/rules_dict.py:merge_installer_dict"]}
{"id": "C04", "title": "Key listing covers every key that has a rule", "statement": "Every key for which a lookup on the current os/version returns at least one rule is contained in the list of keys reported for that os/version, and no key is listed that is not in the rules dict. (The converse, that every listed key has a rule, is what a user would also expect.)", "quantifier": "every rules dict, os name, version, default installer", "why_tests_cant": "It relates two separately implemented traversals over all dictionaries.", "anchors": ["xylem/sources/rules_dict.py:has_rule_for_os", "xylem/specs/plugins/rules.py:RulesSpec.keys", "xylem/sources/rules_dict.py:lookup_rules"]}
{"id": "C05", "title": "Merging rules dicts: front entries take precedence", "statement": "Looking up a key for a configured os in the merge of a list of rules dicts gives, per installer, the rule from the first dict in the list whose own lookup offers that installer - i.e. merging first and looking up afterwards agrees with looking up in each dict and letting the front win.", "quantifier": "every list of rules dicts, every map of default installers, every key, os of that map, version and installer", "why_tests_cant": "Needs a simulation argument over all lists of nested dictionaries with any_os/any_version shadowing; the interesting interactions are combinatorial.", "anchors": ["xylem/sources/rules_dict.py:merge_rules", "xylem/sources/rules_dict.py:merge_os_dict", "xylem/sources/rules_dict.py:merge_version_dict", "xylem/sources/rules_dict.py:remove_rule_for_all_os", "xylem/sources/rules_dict.py:remove_rule_for_all_versions"]}
{"id": "C06", "title": "Merged rules contain only configured oses and no default_installer", "statement": "Every os name in a successfully merged rules dict is any_os or one of the configured oses, and no installer dict in it uses the default_installer keyword.", "quantifier": "every list of rules dicts and every map of default installers", "why_tests_cant": "Universal statement about every nested entry of every output.", "anchors": ["xylem/sources/rules_dict.py:merge_rules", "xylem/sources/rules_dict.py:copy_os_dict", "xylem/sources/rules_dict.py:copy_version_dict", "xylem/sources/rules_dict.py:copy_installer_dict"]}
{"id": "C07", "title": "Merging valid rules dicts does not fail", "statement": "Merging a list of verified rules dicts always succeeds when every configured os has a default installer.", "quantifier": "every list of rules dicts accepted by verification and every map of default installers with non-empty names", "why_tests_cant": "Absence of exceptions over all valid inputs; existing tests miss the failing combination (two dicts that both use default_installer under any_version).", "anchors": ["xylem/sources/rules_dict.py:merge_rules", "xylem/sources/rules_dict.py:merge_version_dict", "xylem/sources/rules_dict.py:merge_os_dict"]}
{"id": "C08", "title": "Database lookup: first source wins per installer", "statement": "A database lookup gives, for each installer, the rule of the first source in source order whose own lookup offers that installer, and fails iff some source's lookup or its verification fails.", "quantifier": "every list of sources with arbitrary data, every key and installer context", "why_tests_cant": "Number of sources and their overlaps are unbounded.", "anchors": ["xylem/sources/database.py:RulesDatabase.lookup", "xylem/sources/database.py:RulesSource.lookup"]}
{"id": "C09", "title": "Database keys are the union of the sources' keys", "statement": "The keys reported by the database are exactly those reported by at least one source, each once; hence every key that resolves to at least one rule is reported.", "quantifier": "every list of sources and installer context", "why_tests_cant": "Quantifies over all source lists and all keys.", "anchors": ["xylem/sources/database.py:RulesDatabase.keys", "xylem/specs/plugins/rules.py:RulesSpec.keys"]}
{"id": "C10", "title": "Verification accepts exactly the well-formed rules dicts", "statement": "Verifying a value as rules dict succeeds iff it is a four-level nested dict whose keys are legal xylem keys / os names or any_os / versions or any_version / installer names or default_installer (not below any_os), and whose rules are dicts with text keys, list-valued packages and list-of-keys depends; otherwise it raises ValueError and nothing else.", "quantifier": "every Python value built from null, booleans, numbers, text, lists and dicts", "why_tests_cant": "An iff over an infinite, recursively defined input space.", "anchors": ["xylem/sources/rules_dict.py:verify_rules_dict", "xylem/sources/rules_dict.py:verify_os_dict", "xylem/sources/rules_dict.py:verify_version_dict", "xylem/sources/rules_dict.py:verify_installer_dict", "xylem/sources/rules_dict.py:verify_installer_rule", "xylem/sources/rules_dict.py:verify_rules_dict_identifier"]}
{"id": "C11", "title": "Verified data never makes a lookup crash", "statement": "On data accepted by verification, a lookup with a default installer name that is itself a legal installer name succeeds for every key/os/version, and its result passes the installer dict verification that forbids default_installer.", "quantifier": "every verified value, key, os, version, legal default installer name", "why_tests_cant": "Absence of exceptions for all verified inputs.", "anchors": ["xylem/sources/rules_dict.py:verify_rules_dict", "xylem/sources/rules_dict.py:lookup_rules", "xylem/sources/database.py:RulesSource.lookup"]}
{"id": "C12", "title": "Identifiers contain only the documented characters", "statement": "An identifier accepted by verification consists only of alphanumeric characters, dash, dot, underscore, plus and the typographic apostrophe (or is the whitelisted 'mountain lion') and is not a reserved keyword.", "quantifier": "every text value", "why_tests_cant": "Ranges over all strings; the regular expression's treatment of a trailing newline is exactly the kind of boundary missed by examples.", "anchors": ["xylem/sources/rules_dict.py:verify_rules_dict_identifier"]}
{"id": "C13", "title": "Expansion is idempotent", "statement": "Expanding an already expanded rules file changes nothing.", "quantifier": "every value for which expansion succeeds", "why_tests_cant": "Law over all inputs.", "anchors": ["xylem/specs/plugins/rules.py:expand_rules", "xylem/specs/plugins/rules.py:expand_definition"]}
{"id": "C14", "title": "Expansion gives every shorthand its documented meaning", "statement": "The expansion of a rules file maps every key/os/version/installer to the rule given by the documented shorthand: null, a string or a list of packages at any level stands for any_version, default_installer and a packages list respectively; under any_os an installer dict stands for its any_version entry.", "quantifier": "every rules file value accepted by expansion, at every nesting level", "why_tests_cant": "Combinations of shorthands at every level are infinite.", "anchors": ["xylem/specs/plugins/rules.py:expand_rules", "xylem/specs/plugins/rules.py:expand_os_definition", "xylem/specs/plugins/rules.py:expand_os_version_definition", "xylem/specs/plugins/rules.py:expand_installer_definition", "xylem/specs/plugins/rules.py:expand_definition"]}
{"id": "C15", "title": "Expansion fails exactly on structurally invalid input and with the documented error", "statement": "Expansion raises iff some level of the rules file has an unsupported type or an any_os entry mixes any_version with other entries, and the error raised is the documented spec parsing error.", "quantifier": "every value", "why_tests_cant": "iff over all values; the error class raised on the failure path is never exercised by the tests.", "anchors": ["xylem/specs/plugins/rules.py:expand_rules", "xylem/specs/plugins/rules.py:SpecParsingError"]}
{"id": "C16", "title": "Compacting preserves the meaning of rules", "statement": "Compacting a verified rules dict and expanding the result again yields rules with the same lookup results for every key, os, version and default installer as the original.", "quantifier": "every verified rules dict, default installer map, key, os, version", "why_tests_cant": "Round trip over all rules dicts including entries dropped because they equal the any_version entry.", "anchors": ["xylem/specs/plugins/rules.py:compact_rules", "xylem/specs/plugins/rules.py:compact_os_dict", "xylem/specs/plugins/rules.py:compact_version_dict", "xylem/specs/plugins/rules.py:compact_installer_dict", "xylem/specs/plugins/rules.py:compact_installer_rule"]}
{"id": "C17", "title": "Cache round trip", "statement": "Saving a loaded source to the cache and loading a source with the same spec and arguments from that cache restores the same rules data, arguments, origin and load time.", "quantifier": "every source state with verified data, every cache directory content", "why_tests_cant": "Ranges over all data values and pre-existing cache contents.", "anchors": ["xylem/sources/database.py:RulesSource.save_to_cache", "xylem/sources/database.py:RulesSource.load_from_cache", "xylem/sources/database.py:_write_cache", "xylem/sources/database.py:_read_cache"]}
{"id": "C18", "title": "A source only ever holds verified data", "statement": "At every point of any history of loads from source and cache, successful or failed, a source's data is either absent or has passed verification; a failed load leaves the source's data, arguments, origin and load time as they were.", "quantifier": "every sequence of load_from_source / load_from_cache / save_to_cache operations with arbitrary outcomes of the network and arbitrary cache file contents", "why_tests_cant": "Invariant over all histories and all failure points.", "anchors": ["xylem/sources/database.py:RulesSource.load_from_source", "xylem/sources/database.py:RulesSource.load_from_cache"]}
{"id": "C19", "title": "Sources do not share cache files", "statement": "In a database that was initialised successfully, distinct sources have distinct cache file paths, so saving one source never changes what another source reads from the cache.", "quantifier": "every list of sources and cache directory", "why_tests_cant": "Pairwise statement over all sources and all cache states.", "anchors": ["xylem/sources/database.py:RulesDatabase.verify_unique_ids", "xylem/sources/database.py:_cache_file_path"]}
{"id": "C20", "title": "Update isolates failing sources", "statement": "An update that does not raise on errors processes every source: each source whose download, expansion and verification succeed ends up with the new data in memory and in its cache file, each failing source keeps its previous data and cache file, and no other file changes.", "quantifier": "every list of sources and every pattern of per-source failures", "why_tests_cant": "All 2^n failure patterns for unbounded n.", "anchors": ["xylem/sources/database.py:RulesDatabase.update", "xylem/update.py:update"]}
{"id": "C21", "title": "A crash during update damages at most one cache file", "statement": "If the process dies at an arbitrary point of an update, every cache file except at most the one being written has either its old or its complete new content; running update again afterwards repairs the cache. (A user would also expect the file being written to be replaced atomically.)", "quantifier": "every crash point (every prefix of the file operations, including partial writes), every source list", "why_tests_cant": "Crash points cannot be enumerated by tests.", "anchors": ["xylem/sources/database.py:_write_cache", "xylem/sources/database.py:RulesDatabase.update"]}
{"id": "C22", "title": "Corrupt, truncated or foreign cache files are never served as rules", "statement": "Loading from cache succeeds only if the file decodes to a complete cache record of the same spec whose data passes verification; otherwise loading raises and no rules from the file become visible; a database load stops at the first such source.", "quantifier": "every cache file content", "why_tests_cant": "All byte strings as file contents.", "anchors": ["xylem/sources/database.py:_read_cache", "xylem/sources/database.py:_verify_cache_data_structure", "xylem/sources/database.py:_verify_cache_data_spec_name", "xylem/sources/database.py:RulesSource.load_from_cache", "xylem/sources/database.py:RulesDatabase.load_from_cache"]}
{"id": "C23", "title": "Source list files: validation", "statement": "A source list file is accepted iff it is invalid YAML (reported, treated as empty) or a list of one-entry dicts with text keys; anything else is rejected with ValueError.", "quantifier": "every parsed YAML value", "why_tests_cant": "iff over all values.", "anchors": ["xylem/sources/impl.py:parse_source_descriptions", "xylem/sources/impl.py:verify_source_description_list", "xylem/sources/impl.py:verify_source_description"]}
{"id": "C24", "title": "Source list files: selection", "statement": "From the sources directory exactly the regular, non-hidden files ending in .yaml are read, and the default sources are used iff that directory does not exist.", "quantifier": "every directory listing", "why_tests_cant": "All names and file kinds.", "anchors": ["xylem/sources/impl.py:load_sources_from_path", "xylem/sources/impl.py:_load_sources", "xylem/sources/impl.py:get_source_descriptions", "xylem/sources/database.py:RulesDatabase.init_from_sources"]}
{"id": "C25", "title": "Resolve answers every requested key exactly once", "statement": "A resolve call that returns, returns for each distinct requested key exactly one outcome, either a resolution or an error, with both lists in order of first request; with all_keys every database key is included as well.", "quantifier": "every key list (with duplicates), database, installer context and configuration", "why_tests_cant": "All key lists and all mixtures of outcomes.", "anchors": ["xylem/resolve.py:resolve", "xylem/util.py:remove_duplicates"]}
{"id": "C26", "title": "Resolving a key does not depend on the other keys", "statement": "The outcome for a key is the same whichever other keys are resolved in the same call and in whatever order.", "quantifier": "every pair of key lists containing the key", "why_tests_cant": "Non-interference over all contexts.", "anchors": ["xylem/resolve.py:resolve"]}
{"id": "C27", "title": "Installer choice", "statement": "A key without install-from setting is resolved with the first core installer (in configured order) that has a rule for it; only if no core installer has one, with the first additional installer that has one.", "quantifier": "every installer context, rule set and key", "why_tests_cant": "All orders and subsets of installers.", "anchors": ["xylem/resolve.py:resolve", "xylem/installers/impl.py:InstallerContext.core_installers", "xylem/installers/impl.py:InstallerContext.additional_installers"]}
{"id": "C28", "title": "install-from is honoured or reported", "statement": "A key configured with install-from is resolved with exactly that installer, or an error is reported for it; never with another installer. A key that is listed for several installers uses the one first in the configuration.", "quantifier": "every configuration, installer context, rule set and key", "why_tests_cant": "All configurations.", "anchors": ["xylem/resolve.py:resolve"]}
{"id": "C29", "title": "Simulation executes no install command", "statement": "With simulate, an install call executes no install command, whatever the other options; without fix_prerequisites it changes nothing on the system at all.", "quantifier": "every key list, option combination, installer behaviour", "why_tests_cant": "Absence of side effects on every path.", "anchors": ["xylem/install.py:install", "xylem/install.py:install_resolutions"]}
{"id": "C30", "title": "No reported error means everything is installed", "statement": "If install_resolutions/install_resolved (not simulated) returns no errors, then every install command composed by the installers was executed in order with exit code 0 and every resolution was afterwards detected as installed.", "quantifier": "every resolution list, installer behaviour and world state", "why_tests_cant": "Soundness over all executions and exit codes.", "anchors": ["xylem/install.py:install_resolutions", "xylem/install.py:install_resolved"]}
{"id": "C31", "title": "Installation stops at the first failing command unless told to continue", "statement": "Without continue_on_error no command is executed after the first command with non-zero exit code; with continue_on_error all composed commands are executed.", "quantifier": "every command list, exit code pattern, option combination", "why_tests_cant": "All failure positions.", "anchors": ["xylem/install.py:install_resolutions", "xylem/install.py:install_resolved"]}
{"id": "C32", "title": "Grouping by installer loses, duplicates and reorders nothing", "statement": "Grouping consecutive resolutions by installer before installation preserves the overall sequence of (installer, resolution) pairs, never leaves two adjacent groups with the same installer, and grouping again changes nothing.", "quantifier": "every list of resolution tuples", "why_tests_cant": "All lists.", "anchors": ["xylem/install.py:_squash_resolutions", "xylem/install.py:_map_resolutions"]}
{"id": "C33", "title": "Already installed packages are not reinstalled", "statement": "Without reinstall, only resolutions that the installer reports as not installed reach the command composition; if all are installed no command is executed and no error is reported; installing twice in a row executes no command the second time for installers with faithful detection.", "quantifier": "every resolved list and installer behaviour", "why_tests_cant": "Idempotence over all system states.", "anchors": ["xylem/install.py:install", "xylem/install.py:filter_uninstalled"]}
{"id": "C34", "title": "Errors while determining what is installed are not silently swallowed", "statement": "If determining the uninstalled resolutions fails for some installer and continue_on_error is off, the install call reports an error and installs nothing.", "quantifier": "every installer behaviour", "why_tests_cant": "All failure patterns.", "anchors": ["xylem/install.py:install", "xylem/install.py:filter_uninstalled"]}
{"id": "C35", "title": "Reinstall installs everything", "statement": "With reinstall=True, install composes commands for every resolution whether already installed or not and returns normally.", "quantifier": "every key list and installer behaviour", "why_tests_cant": "The path is not covered by the tests and must hold for every input.", "anchors": ["xylem/install.py:install"]}
{"id": "C36", "title": "A failing command composition is reported as error", "statement": "If an installer raises its documented installer error while composing the install commands, install_resolutions reports it in the returned error list.", "quantifier": "every installer behaviour and option combination", "why_tests_cant": "All failing paths.", "anchors": ["xylem/install.py:install_resolutions"]}
{"id": "C37", "title": "Installer rules resolve to exactly their packages", "statement": "Resolving an installer rule gives one resolution per entry of its packages list, in order and with the rule's options; an ill-typed rule is rejected with the documented invalid-rule error.", "quantifier": "every installer rule value", "why_tests_cant": "All rule values.", "anchors": ["xylem/installers/installer_base.py:InstallerBase.resolve", "xylem/config_utils.py:config_from_parsed_yaml"]}
{"id": "C38", "title": "Root commands are elevated exactly when needed", "statement": "Install commands that need root are prefixed with sudo exactly when the effective user is not root and they do not already start with sudo; elevating twice is the same as elevating once.", "quantifier": "every command, flag and user id", "why_tests_cant": "All commands.", "anchors": ["xylem/installers/installer_base.py:InstallerBase.get_install_commands", "xylem/installers/installer_base.py:elevate_privileges"]}
{"id": "C39", "title": "Package manager availability check", "statement": "The general prerequisite check of a package manager installer succeeds iff the package manager is installed, or fixing was requested, an installation was attempted and it is installed afterwards; otherwise it raises an installer error.", "quantifier": "every os tuple, flag combination and package manager behaviour", "why_tests_cant": "All combinations of states before and after the attempted fix.", "anchors": ["xylem/installers/package_manager_installer.py:PackageManagerInstaller.check_general_prerequisites"]}
{"id": "C40", "title": "Plugin loading", "statement": "Loading plugins returns the enabled, valid plugins in discovery order with pairwise distinct names; of several plugins with the same name the first is used; invalid or disabled plugins never prevent others from loading.", "quantifier": "every list of entry points with arbitrary definitions and failures", "why_tests_cant": "All plugin populations and orders.", "anchors": ["xylem/plugin_utils.py:load_plugins"]}
{"id": "C41", "title": "Installer context: core and additional installers", "statement": "The core installers are the configured ones in configured order restricted to loaded plugins; the additional installers are loaded plugins that are not core, and there are none unless additional installers are enabled; looking up an installer by name finds it iff it is loaded.", "quantifier": "every configuration, plugin list and os", "why_tests_cant": "All orders and subsets.", "anchors": ["xylem/installers/impl.py:InstallerContext.setup_installers", "xylem/installers/impl.py:InstallerContext.lookup_installer"]}
{"id": "C42", "title": "OS detection picks the most specific os regardless of plugin order", "statement": "If among the detected oses there is one that derives from all others, that one is selected, independent of the order of the plugins; if none is detected an unsupported-os error is raised.", "quantifier": "every list of os plugins and detection results", "why_tests_cant": "All plugin orders and derivation relations.", "anchors": ["xylem/os_support/impl.py:OSSupport.detect_os"]}
{"id": "C43", "title": "OS override", "statement": "An overridden os name/version is what all later queries return; overriding with an unknown os or version is rejected and leaves the previous choice in place.", "quantifier": "every override sequence", "why_tests_cant": "All sequences of overrides.", "anchors": ["xylem/os_support/impl.py:OSSupport.override_os", "xylem/os_support/impl.py:OSOverride"]}
{"id": "C44", "title": "OS version comparison is a total order", "statement": "The version order used for comparison is irreflexive, transitive and total on the known versions and raises an error on unknown ones.", "quantifier": "every version list and pair/triple of versions", "why_tests_cant": "Order laws over all triples.", "anchors": ["xylem/os_support/os_base.py:version_order_from_list"]}
{"id": "C45", "title": "Derived os names and tuples", "statement": "The list of all names/tuples of an os starts with the os itself and is followed by its ancestors in derivation order, and a rule version of an ancestor is never taken from an unrelated release.", "quantifier": "every derivation chain", "why_tests_cant": "Arbitrary length chains.", "anchors": ["xylem/os_support/plugins.py:get_all_tuples", "xylem/os_support/os_base.py:OS"]}
{"id": "C46", "title": "Command line and file configuration priority", "statement": "An option's effective value comes from the command line if given there, else from the user configuration, else from the system configuration, else from the default; dictionary options that are declared mergeable are merged key-wise with the same priority.", "quantifier": "every combination of command line, user file, system file and description", "why_tests_cant": "All presence/absence combinations of all options.", "anchors": ["xylem/config_utils.py:load_config", "xylem/config_utils.py:merge_configs", "xylem/config_utils.py:config_from_args", "xylem/config_utils.py:config_from_file", "xylem/config_utils.py:config_from_defaults"]}
{"id": "C47", "title": "Configuration values are always valid for their declared type", "statement": "Every value produced from YAML by a configuration type passes that type's verification, and every configuration accepted by the loader only contains such values.", "quantifier": "every value and every configuration type, including nested list/dict/maybe types", "why_tests_cant": "Inductive types and values are unbounded.", "anchors": ["xylem/config_utils.py:ConfigType", "xylem/config_utils.py:List", "xylem/config_utils.py:Dict", "xylem/config_utils.py:MergingDict", "xylem/config_utils.py:config_from_parsed_yaml"]}
{"id": "C48", "title": "Configuration parsing is idempotent", "statement": "Parsing an already parsed configuration value again gives the same value.", "quantifier": "every configuration type and value", "why_tests_cant": "Law over all values.", "anchors": ["xylem/config_utils.py:ConfigType.from_yaml"]}
{"id": "C49", "title": "Merging configurations is associative with the empty configuration as unit", "statement": "Merging three configurations gives the same result whichever pair is merged first, an unset configuration leaves the other unchanged, and merging never loses a value that is set in the higher-priority one.", "quantifier": "every triple of configurations over every description", "why_tests_cant": "Algebraic law.", "anchors": ["xylem/config_utils.py:merge_configs"]}
{"id": "C50", "title": "Ill-typed configuration files are rejected with a configuration error", "statement": "A configuration file that is not a mapping, or gives a group or option a value of the wrong type, is rejected with the documented configuration error.", "quantifier": "every parsed YAML value and description", "why_tests_cant": "All ill-typed values.", "anchors": ["xylem/config_utils.py:config_from_parsed_yaml", "xylem/config_utils.py:config_from_file"]}
{"id": "C51", "title": "Configuration descriptions never have clashing names", "statement": "No sequence of adding options and groups to a configuration description produces a name that is both an option and a group, or two options sharing a command line flag; a rejected addition changes nothing. The flag of an option is the one given, without leading dashes, or else its name with - for _ and /.", "quantifier": "every sequence of add operations", "why_tests_cant": "Invariant over all histories.", "anchors": ["xylem/config_utils.py:ConfigDescription.add"]}
{"id": "C52", "title": "OS override strings", "statement": "The os override option accepts exactly NAME or NAME:VERSION with non-empty parts and yields that name and version; formatting the pair and parsing again gives the pair back.", "quantifier": "every text", "why_tests_cant": "All strings.", "anchors": ["xylem/config.py:parse_os_override"]}
{"id": "C53", "title": "Downloads are retried only a bounded number of times and only when sensible", "statement": "A download performs at most retry+1 attempts, retries only after a service-unavailable response or a timeout, returns the data of the first successful attempt and otherwise raises the documented download failure.", "quantifier": "every sequence of server responses and every retry number", "why_tests_cant": "All response sequences.", "anchors": ["xylem/load_url.py:load_url"]}
{"id": "C54", "title": "Removing duplicates", "statement": "Removing duplicates keeps exactly the distinct elements, each once, in order of first occurrence.", "quantifier": "every list", "why_tests_cant": "All lists.", "anchors": ["xylem/util.py:remove_duplicates"]}
{"id": "C55", "title": "Arbitrary text can be printed with terminal formatting", "statement": "Escaping a text and formatting it prints exactly that text, for every text; formatting never fails on escaped text. The names in a formatted text stand for the ANSI control sequences with their numbers, or for nothing if colours are disabled.", "quantifier": "every text", "why_tests_cant": "All strings, including ones with @ and braces.", "anchors": ["xylem/terminal_color.py:fmt", "xylem/terminal_color.py:sanitize"]}
{"id": "C56", "title": "A dry-run update changes nothing", "statement": "update with dry_run leaves the cache unchanged.", "quantifier": "every list of sources and cache content", "why_tests_cant": "Absence of effects on every path.", "anchors": ["xylem/update.py:update", "xylem/sources/database.py:RulesDatabase.update"]}
{"id": "C57", "title": "Clearing the cache of a source", "statement": "Clearing a source's cache removes its cache file and no other; asking whether the cache is outdated answers without failing.", "quantifier": "every source and cache state", "why_tests_cant": "All cache states.", "anchors": ["xylem/sources/database.py:RulesSource.clear_cache", "xylem/sources/database.py:RulesSource.is_cache_outdated"]}
{"id": "C58", "title": "Lookup returns its answer whatever the presentation options", "statement": "The lookup API returns for each requested key the database's rules, whether or not compact presentation is requested.", "quantifier": "every key list and option combination", "why_tests_cant": "All option combinations.", "anchors": ["xylem/lookup.py:lookup"]}
{"id": "C59", "title": "Exit codes", "statement": "Every command exits with 0 iff it completed without reported error, and an exception in a command yields a non-zero exit code.", "quantifier": "every command outcome", "why_tests_cant": "All outcomes.", "anchors": ["xylem/commands/main.py:main", "xylem/commands/install.py:main", "xylem/commands/resolve.py:main", "xylem/commands/update.py:main", "xylem/commands/lookup.py:main"]}
{"id": "C60", "title": "Verification can forbid default_installer", "statement": "Verifying a rules dict or os dict with allow_default_installer=False succeeds only if no installer dict in it uses the keyword default_installer.", "quantifier": "all values passed to the verification functions", "why_tests_cant": "The keyword can hide at any place of an arbitrarily large nested dict; a test checks finitely many dicts.", "anchors": ["xylem/sources/rules_dict.py:verify_rules_dict", "xylem/sources/rules_dict.py:verify_os_dict"]}
{"id": "C61", "title": "Priority between source list files", "statement": "The sources of a database are ordered by the source list files they come from, file by file; a user expects the order of the files (hence which rule wins) to follow the file names and not the order in which the operating system lists the directory.", "quantifier": "every sources directory and every order in which it may be listed", "why_tests_cant": "Directory listing order is environment dependent; a test sees one order.", "anchors": ["xylem/sources/impl.py:load_sources_from_path", "xylem/sources/database.py:RulesDatabase.init_from_sources"]}
{"id": "C62", "title": "Every composed command is executed whatever characters it contains", "statement": "When installing (not simulated, with continue_on_error), every command composed by an installer is executed, in order, independently of the characters in its arguments.", "quantifier": "every command list, every character in its arguments, every exit code pattern", "why_tests_cant": "The commands are arbitrary strings derived from rules; a test fixes a few of them.", "anchors": ["xylem/install.py:install_resolutions", "xylem/terminal_color.py:fmt"]}
{"id": "C63", "title": "Prerequisites are checked before anything is executed", "statement": "Before the first install command is executed, the general prerequisites of the installer of every resolved key and the install prerequisites of everything about to be installed have been checked successfully.", "quantifier": "every key list, option combination, installer behaviour and machine state", "why_tests_cant": "Has to hold for all interleavings of installers and all outcomes of their checks.", "anchors": ["xylem/install.py:install", "xylem/install.py:check_general_prerequisites", "xylem/install.py:check_install_prerequisites"]}
{"id": "C64", "title": "Path options are absolute and normalised", "statement": "Whatever text is given for a path option (with ~, relative, with . or .. components), the stored value is an absolute normalised path, and expanding it again does not change it.", "quantifier": "every text and every home directory and absolute working directory", "why_tests_cant": "the normalisation interacts over unboundedly many components", "anchors": ["xylem/config_utils.py:Path", "xylem/config_utils.py:expand_input_path"]}
{"id": "C65", "title": "Unknown configuration entries are ignored", "statement": "Entries of a configuration file or dictionary that the description does not mention, at top level or inside a group, have no influence on the resulting configuration.", "quantifier": "every description and every pair of configurations that agree on the described options", "why_tests_cant": "ranges over all descriptions and all extra entries", "anchors": ["xylem/config_utils.py:config_from_parsed_yaml"]}
{"id": "C66", "title": "Effective cache and sources directories", "statement": "After loading, cache_dir and sources_dir are always set: to the configured value if there is one, else below --config-dir if given, else below the user's configuration directory if user_sources is true, else to the system directories below the prefix; loading xylem's own configuration never fails in this post-processing step and os_override becomes the parsed pair.", "quantifier": "every loaded configuration and every combination of global arguments", "why_tests_cant": "ranges over all configurations and arguments", "anchors": ["xylem/config.py:process_config", "xylem/config_utils.py:load_config"]}
{"id": "C67", "title": "A successful installation is reported as success", "statement": "If the installers of all resolved keys work (prerequisites hold, commands succeed and really install the packages), install reports no error, whichever installer plugin is used.", "quantifier": "all lists of resolutions, machine states, options and bundled or third-party installers", "why_tests_cant": "It is a liveness-style guarantee over all package lists, groupings by installer and machine states; a test runs one list with one installer (the fake one), which hides that others never detect installed packages.", "anchors": ["xylem/install.py: install, install_resolutions", "xylem/installers/plugins/*.py: filter_uninstalled", "xylem/installers/installer_base.py: is_installed"]}
{"id": "C68", "title": "Resolution objects are hashable", "statement": "Every resolution object returned by resolving a rule can be hashed (documented: used to remove duplicates).", "quantifier": "all rules, installers and options", "why_tests_cant": "It must hold for every resolution object, whatever options the rule has.", "anchors": ["xylem/installers/installer_base.py: Resolution.__init__, Resolution.__hash__"]}
{"id": "C69", "title": "Interactive and reinstall settings reach the package manager", "statement": "The commands composed by an installer depend on the interactive and reinstall settings, so that --yes installs unattended and --reinstall reinstalls; for each package there is exactly one command, in order.", "quantifier": "all lists of resolutions and settings, all bundled installers", "why_tests_cant": "Needs the composed commands for all package lists and settings.", "anchors": ["xylem/installers/plugins/*.py: get_install_commands_no_root", "xylem/installers/installer_base.py: get_install_commands"]}
{"id": "C70", "title": "pip detects installed packages from pip freeze", "statement": "The resolutions pip considers not installed are, in order, exactly those whose package is not shown (as NAME or NAME==VERSION) on any line of the output of pip freeze; the spelling of the name does not matter to pip and should not matter here.", "quantifier": "all lists of resolutions and all outputs of pip freeze", "why_tests_cant": "The output of pip freeze is arbitrary text.", "anchors": ["xylem/installers/plugins/pip.py: filter_uninstalled"]}
{"id": "C71", "title": "Detected OS version is a known version", "statement": "The version an OS plugin detects is one of its known versions, so that the version can be compared and rules for it can exist.", "quantifier": "every bundled os plugin and every machine state (lsb information, sw_vers output)", "why_tests_cant": "Detection input is whatever the machine reports; a test machine reports one version.", "anchors": ["xylem/os_support/plugins.py:get_version", "xylem/os_support/os_detect.py:LsbDetect, OSX, _osx_codename"]}
{"id": "C72", "title": "Later registered detectors take precedence", "statement": "Registering a detector under a name makes it the one used for that name, in queries and in detection.", "quantifier": "every list of registered detectors, detector and machine", "why_tests_cant": "Depends on registration history.", "anchors": ["xylem/os_support/os_detect.py:OsDetect.add_detector, get_detector, detect_os"]}
{"id": "C73", "title": "The bundled OS plugins never compete", "statement": "On any machine at most one bundled os (including its derivatives) is detected, so the result does not depend on plugin order.", "quantifier": "every machine state and every order of the bundled plugins", "why_tests_cant": "Orders of entry points and machine states can not be enumerated.", "anchors": ["xylem/os_support/plugins.py:Debian, Ubuntu, Xubuntu, OSX", "xylem/os_support/impl.py:OSSupport.detect_os"]}
{"id": "C74", "title": "Configured installers have distinct names", "statement": "After set up the installers of a context have pairwise distinct names, so that a name in a rule or in the configuration denotes one installer.", "quantifier": "every configuration and set of loaded plugins", "why_tests_cant": "Names may depend on options, which are arbitrary.", "anchors": ["xylem/installers/impl.py:InstallerContext.setup_installers, lookup_installer", "xylem/installers/plugins/fake.py:name"]}
{"id": "C75", "title": "Rules for the parent OS apply on derivatives", "statement": "On a derivative os a key without specific rule resolves with the rule for the os it derives from (docs/design.rst, derivative operating systems).", "quantifier": "every rules database, derivative os and version", "why_tests_cant": "Ranges over all rules databases.", "anchors": ["xylem/sources/rules_dict.py:lookup_rules", "xylem/os_support/plugins.py:get_all_tuples", "docs/design.rst:983-1027"]}
{"id": "C76", "title": "Default installer context of the bundled systems", "statement": "With the default configuration and the bundled plugins, set up succeeds on every supported machine and yields apt as core and pip as additional installer on Debian, Ubuntu and Xubuntu, and homebrew and pip as core installers on OS X.", "quantifier": "every machine running one of the bundled systems, any version it reports", "why_tests_cant": "The machine state is arbitrary; tests mock one.", "anchors": ["xylem/installers/impl.py:InstallerContext", "xylem/os_support/plugins.py", "xylem/installers/plugins", "setup.py"]}
{"id": "C77", "title": "Setting up the context fails only with documented errors", "statement": "For a configuration that passed validation, creating the installer context succeeds or raises an unsupported-os, unsupported-version or configuration error. An overridden system and version is accepted exactly if the system is loaded and knows the version.", "quantifier": "every validated configuration and machine state", "why_tests_cant": "Ranges over all configurations.", "anchors": ["xylem/installers/impl.py:InstallerContext.__init__, setup_os, setup_installers", "xylem/config.py:ensure_config"]}
{"id": "C80", "title": "A lookup after an update answers from what the sources served", "statement": "After `update` with any mixture of succeeding and failing sources, a lookup in another process succeeds when every source was either updated or had a valid older cache, and for each installer answers with the rule of the first source (in configured order) whose served data has one for this key, os and version.", "quantifier": "every list of sources, cache state, network outcome, key, os, version and default installer", "why_tests_cant": "Quantifies over all source lists, cache contents, download outcomes and rules data; tests use one source and a mocked download.", "anchors": ["xylem/update.py:update", "xylem/lookup.py:lookup", "xylem/sources/database.py:RulesDatabase.update, load_from_cache, lookup", "xylem/specs/plugins/rules.py"]}
{"id": "C81", "title": "Rewriting a rules file in compact notation is safe", "statement": "When `xylem _compact_rules_file --write` succeeds, the file can be read again, is still a valid rules file, yields the same lookup outcome for every key, os and version with the os's default installer, and no other file changes; without --write, or when anything fails, no file changes.", "quantifier": "every file content, path, file system, os default table, write outcome, key, os and version", "why_tests_cant": "Ranges over all rules files and all lookups in them.", "anchors": ["xylem/commands/_compact_rules_file.py:main", "xylem/specs/plugins/rules.py:expand_rules, verify_rules_dict, compact_rules", "xylem/yaml_utils.py:dump_yaml"]}
{"id": "C82", "title": "Invalid command plugins do not affect other commands", "statement": "A command entry point that is unusable is left out; all other commands remain available, in order, and those with a leading underscore are not listed in the usage.", "quantifier": "every set of installed command entry points", "why_tests_cant": "Depends on which distributions are installed.", "anchors": ["xylem/commands/main.py:list_commands, load_command_definition, create_subparsers"]}
{"id": "C83", "title": "Compact notation is canonical", "statement": "Compacting a rules file that was produced by compaction changes nothing.", "quantifier": "every rules file and os default table", "why_tests_cant": "Ranges over all rules files.", "anchors": ["xylem/specs/plugins/rules.py:compact_version_dict, compact_rules", "xylem/commands/_compact_rules_file.py:main"]}
{"id": "C78", "title": "Lookup follows the documented any_os / any_version logic", "statement": "The rules found for a key, os and version are those of the pseudo-code in the documentation of the rules file: the entry of the os version, else the any_version entry of the os, and the any_os entry only for an os that is not mentioned.", "quantifier": "every rules file, key, os, version and default installer", "why_tests_cant": "Ranges over all rules files; the interaction of the levels is only visible in files that mention an os without the version asked for.", "anchors": ["xylem/specs/plugins/rules.py:module docstring", "xylem/sources/rules_dict.py:lookup_rules"]}
{"id": "C79", "title": "Default behaviour on the bundled systems", "statement": "With the default configuration on debian, ubuntu, xubuntu or OS X, a key with a rule for the native package manager (apt or homebrew) is resolved by it, otherwise by pip if there is a pip rule, otherwise reported as an error; the commands are one per package of that rule, in order, with sudo exactly for apt and pip when not run as root.", "quantifier": "every machine state of a bundled system, database answer, list of requested keys and package list", "why_tests_cant": "Composition of configuration, os detection, plugin loading, resolution and command composition over all databases.", "anchors": ["xylem/resolve.py:resolve", "xylem/installers/impl.py:InstallerContext", "xylem/installers/installer_base.py:resolve, get_install_commands", "xylem/installers/plugins/apt.py, homebrew.py, pip.py"]}
{"id": "C84", "title": "Chained errors show every cause", "statement": "The text of an exception raised with raise_from / chain_exception contains the text of every exception of the chain exactly once, the root cause first, separated by the link line; without tracebacks if not asked for; it is always finished for exceptions the code creates.", "quantifier": "every history of raised and chained exceptions, with or without traceback", "why_tests_cant": "Chains of any length; termination depends on the absence of cycles in all histories.", "anchors": ["xylem/exception.py:exc_to_str, chain_exception, raise_from"]}
{"id": "C85", "title": "Context managers restore what they change", "statement": "After a with block using change_directory, temporary_directory or redirected_stdio, the working directory, stdout and stderr are the original ones, the temporary directory is gone, and the outcome is that of the body, whether it returned or raised; also when nested.", "quantifier": "every body, outcome, and state of the file system", "why_tests_cant": "All bodies and all failures of file system operations.", "anchors": ["xylem/util.py:change_directory, redirected_stdio, temporary_directory"]}
{"id": "C86", "title": "indent changes nothing but the start of lines", "statement": "indent puts the indentation in front of every line (but the first if excluded), keeps the lines, and indenting twice is indenting by the sum.", "quantifier": "every text, width and character", "why_tests_cant": "All texts.", "anchors": ["xylem/util.py:indent"]}
{"id": "C87", "title": "Text survives conversion to bytes and back", "statement": "to_str(to_bytes(t)) is t; different texts have different bytes; conversion commutes with concatenation and is the identity on ASCII. Bytes that are no encoding of a text give a replacement character.", "quantifier": "every unicode text", "why_tests_cant": "All texts.", "anchors": ["xylem/text_utils.py:to_str, to_bytes"]}
{"id": "C88", "title": "Messages reach their stream, settings follow the arguments", "statement": "info goes to stdout, debug (if enabled), warnings, errors and verbose info (if enabled) to stderr, complete and in order, with colours exactly if they are on; the settings of a command are those given by its arguments and environment.", "quantifier": "every sequence of messages and commands in a process", "why_tests_cant": "All sequences; global state of the process.", "anchors": ["xylem/log_utils.py", "xylem/arguments.py:handle_global_arguments", "xylem/terminal_color.py:disable_ANSI_colors"]}
{"id": "C89", "title": "Merging rules shares and modifies nothing", "statement": "merge_rules on rules whose parts are shared objects (YAML aliases, cached data) gives the result computed from the values, modifies no existing object, and every dict of the result (keys, oses, versions, installers) is a new object.", "quantifier": "every heap of shared objects and every list of rules dicts in it", "why_tests_cant": "All sharing patterns.", "anchors": ["xylem/sources/rules_dict.py:merge_rules, copy_*, merge_*"]}
{"id": "C90", "title": "Lookups are read-only and independent of history", "statement": "A database lookup modifies no rule held by a source and answers in a new dict; after any sequence of lookups and of changes callers make to the answers, a lookup answers what it would have answered first.", "quantifier": "every history of lookups and client writes, every sharing", "why_tests_cant": "All histories and sharing patterns.", "anchors": ["xylem/sources/database.py:RulesDatabase.lookup", "xylem/sources/rules_dict.py:lookup_rules"]}
{"id": "C91", "title": "YAML aliases are transparent to expansion", "statement": "Expanding a rules document in place gives what expanding its value gives, however the document shares parts through anchors and aliases.", "quantifier": "every document, every sharing of its parts", "why_tests_cant": "All documents and sharing patterns; in place modification order matters.", "anchors": ["xylem/specs/plugins/rules.py:expand_rules, expand_definition, expand_os_dict, expand_version_dict, expand_installer_dict"]}
{"id": "C92", "title": "Where the configuration is looked for", "statement": "The --xylem-dir and --prefix options decide where configuration is read and cache and sources are placed; without the option the environment variable XYLEM_DIR (XYLEM_PREFIX) stands for it, without both the default '/' does. A relative path or one with '~' is expanded. With an explicit directory no other configuration file, prefix or user configuration has an influence.", "quantifier": "every command line, environment, configuration file contents, command", "why_tests_cant": "All command lines and environments.", "anchors": ["xylem/config.py:handle_global_config_arguments, add_global_config_arguments", "xylem/config_utils.py:system_config_dir, user_config_dir", "xylem/commands/main.py:main"]}
{"id": "C93", "title": "Global options work before and after the command", "statement": "A global or configuration option has the same effect whether it is written before or after the command name.", "quantifier": "every list of declared options and values, every command", "why_tests_cant": "All command lines; depends on argparse's subparser semantics.", "anchors": ["xylem/commands/main.py:main, prepare_arguments", "xylem/config.py:add_config_arguments", "xylem/arguments.py:add_global_arguments"]}
{"id": "C94", "title": "--print-config", "statement": "With --print-config the configuration is printed that the command would have run with without it, and the command does not run; configuration errors are the same.", "quantifier": "every command line, environment, files, command", "why_tests_cant": "All command lines and files.", "anchors": ["xylem/config.py:handle_config_arguments", "xylem/commands/main.py:main"]}
{"id": "C95", "title": "Default sources", "statement": "If no source lists are found in the sources directory the packaged default sources are used; otherwise they have no influence.", "quantifier": "every directory state, default sources, specs", "why_tests_cant": "All directory states.", "anchors": ["xylem/sources/impl.py:SourcesContext.get_source_descriptions, setup_paths", "xylem/sources/impl.py:get_source_files"]}
{"id": "C96", "title": "Configuration dicts given to the API", "statement": "A dict given as config to an API function means the same as a configuration file with this content and no command line arguments: all options get the same value, and the same directories are used.", "quantifier": "every dict, environment, configuration file", "why_tests_cant": "All dicts.", "anchors": ["xylem/config.py:ensure_config, process_config", "xylem/sources/impl.py:SourcesContext.setup_paths, is_default_dirs"]}
{"id": "C97", "title": "A lookup during an update", "statement": "A lookup that runs while an update is under way, or after one was killed, uses for every source the complete data of before or the complete new data, or fails with an error; it never answers from a partial or mixed file.", "quantifier": "every point of every update, every list of sources, cache contents and served data", "why_tests_cant": "All interleavings and crash points.", "anchors": ["xylem/sources/database.py:RulesSource.load_from_cache, save_to_cache, _read_cache, _write_cache, RulesDatabase.update"]}
{"id": "C98", "title": "Concurrent updates", "statement": "When several processes update caches at the same time, each cache file holds afterwards the complete record of one of the processes that updated it; sources that only one process updates are not affected by the others.", "quantifier": "every number of processes, every interleaving of their file operations, every crash point", "why_tests_cant": "All interleavings at byte granularity.", "anchors": ["xylem/sources/database.py:_write_cache, RulesDatabase.update"]}
{"id": "C99", "title": "Meaning of configuration values", "statement": "A value given to an option in YAML denotes: for null, the unset value; for texts, booleans and options of any type, itself; for paths the expanded path; for lists the list of what the elements denote; for dictionaries the entries, where of entries whose keys are equal after path expansion the last one wins. A value that denotes nothing for the option's type is rejected with the configuration value error, and no other value is rejected.", "quantifier": "every option type (nested to any depth), every YAML value", "why_tests_cant": "All types and values of any depth.", "anchors": ["xylem/config_utils.py:ConfigType.from_yaml, List.from_yaml, Dict.from_yaml, Path.from_yaml"]}
{"id": "C100", "title": "Meaning of flags", "statement": "The occurrences of a flag on the command line denote: for lists, the concatenation of all occurrences, each with or without enclosing brackets; for dictionaries, the union of all occurrences, each with or without enclosing braces, a key given twice being the configuration value error; texts and paths the text itself, anything else the YAML value. A flag that is not given leaves the option unset.", "quantifier": "every option type, every number and content of occurrences, every YAML reader", "why_tests_cant": "All texts and numbers of occurrences.", "anchors": ["xylem/config_utils.py:ConfigType.from_command_line, List.from_command_line, Dict.from_command_line, String.from_command_line"]}
{"id": "C101", "title": "Detectors on other systems", "statement": "A detector's version and codename raise OsNotDetected on every system the detector does not recognise, and they never give an answer there.", "quantifier": "every bundled detector with any file names, every system state", "why_tests_cant": "All file contents and program outputs.", "anchors": ["xylem/os_support/os_detect.py:OsDetector and its subclasses"]}
{"id": "C102", "title": "Versions and codenames from release files", "statement": "From a release file of the distribution's format the detectors give the version after the word release (Fedora, RHEL), in the second line (openSUSE) or in the fifth word (Gentoo), and the codename in parentheses in lower case (Fedora, RHEL) or after CODENAME (openSUSE), whatever the white space between the words.", "quantifier": "every file of the format, every amount and kind of white space", "why_tests_cant": "All file contents of the format.", "anchors": ["xylem/os_support/os_detect.py:read_issue, Fedora, Rhel, OpenSuse, Gentoo"]}
{"id": "C103", "title": "Documented error of detectors", "statement": "Detectors raise no exception but OsNotDetected.", "quantifier": "every bundled detector, every system state", "why_tests_cant": "All file contents and program failures.", "anchors": ["xylem/os_support/os_detect.py:OsDetector and its subclasses, _read_stdout"]}
{"id": "C104", "title": "The OS detection object", "statement": "If exactly one registered detector matches, detect_os answers its name, version and codename wherever it is in the list; ROS_OS_OVERRIDE replaces name, version and codename; an answer is remembered until the next detection; a detection that fails, or finds nothing, leaves no answer.", "quantifier": "every list of detectors, every history of calls, every sequence of system states", "why_tests_cant": "All histories.", "anchors": ["xylem/os_support/os_detect.py:OsDetect.detect_os, get_name, get_version, get_codename, get_detector, add_detector, register_default"]}
{"id": "C105", "title": "End to end installation on the bundled systems", "statement": "With the default configuration on the bundled systems, `install --simulate` for keys the database knows shows exactly the commands of the preferred tool for the packages of each key, in the order of the keys, without pip packages that are installed already, and executes nothing; without --simulate the same commands are executed, each once, in that order; if all of them succeed no error is reported and nothing is left out.", "quantifier": "every database, every list of keys, every list of packages, every machine state in which the tools are installed, every option combination without --reinstall", "why_tests_cant": "All databases, keys, packages and machine states; the claim spans detection, configuration, resolution, detection of installed packages and execution.", "anchors": ["xylem/install.py:install, install_resolutions", "xylem/resolve.py:resolve", "xylem/installers/impl.py:InstallerContext", "xylem/installers/plugins/apt.py", "xylem/installers/plugins/homebrew.py", "xylem/installers/plugins/pip.py"]}
{"id": "C106", "title": "A printed configuration can be loaded again", "statement": "The configuration shown by --print-config, stored as config.yaml in a directory (keys in any order, unknown entries added), gives the same effective configuration when xylem is run with that directory as --config-dir and no other options: every option, including the derived cache and sources directories, has the same value, whatever files, command line, environment and current directory produced it.", "quantifier": "every description, every set of configuration files, every command line, every process environment of the first and second run, every order of keys in the stored file", "why_tests_cant": "All configurations, file contents, environments and key orders; the two runs differ in all of them.", "anchors": ["xylem/config_utils.py:load_config, merge_configs, config_from_file, handle_global_config_arguments_post", "xylem/config.py:process_config, handle_config_arguments", "xylem/yaml_utils.py:dump_yaml"]}
{"id": "C107", "title": "Without --write the license tool predicts the run with --write", "statement": "Run without --write, the license header tool changes no file, prints exactly the lines, gives exactly the count and fails with exactly the exception of the run with --write on the same tree; the count is the number of files reported as replaced or inserted.", "quantifier": "every directory tree, every set of patterns, header and file contents", "why_tests_cant": "All trees, contents and pattern engines; also runs that end in an exception half way.", "anchors": ["maintenance_utils/update_license_headers.py:replace_headers_recursive, replace_headers_file"]}
{"id": "C108", "title": "The license tool changes nothing but headers", "statement": "With --write only files with a selected name outside excluded directories are changed, never links; in each changed file either one match of the old header is replaced by the new header or the header is inserted at the start or after a first line with a special comment, and all other text stays, even if the run ends with an exception; after a complete run every selected file has excluded content or contains the header.", "quantifier": "every directory tree, every set of patterns, header and file contents, every point of failure", "why_tests_cant": "All texts, all line endings, all trees and all points of failure.", "anchors": ["maintenance_utils/update_license_headers.py:replace_headers_recursive, replace_headers_file, insert_header"]}
{"id": "C109", "title": "A second run of the license tool changes nothing", "statement": "After a complete run with --write, running the tool again with the same arguments changes no file and reports zero files.", "quantifier": "every tree, every header, every set of old-header patterns", "why_tests_cant": "All trees and all pattern languages.", "anchors": ["maintenance_utils/update_license_headers.py:replace_headers_file"]}
{"id": "C110", "title": "The license tool handles every readable file", "statement": "A run fails only if a selected file cannot be read or decoded; all other files, including empty ones, are handled.", "quantifier": "every tree and settings", "why_tests_cant": "All trees.", "anchors": ["maintenance_utils/update_license_headers.py:replace_headers_file, read_file"]}
{"id": "C111", "title": "The pattern options of the license tool are optional", "statement": "Each of --old-header, --matching, --except-dirs, --except-matching and --except-content may be left out (files are then selected by '*'), and each selects what its help text says.", "quantifier": "every command line, every set of readable files", "why_tests_cant": "All combinations of options and all pattern engines.", "anchors": ["maintenance_utils/update_license_headers.py:main, process_args"]}
{"id": "C112", "title": "A configuration is an object of its own", "statement": "Merging configurations, loading them and making the default configuration never changes an existing object, even if it fails and however the inputs share structure; the result has the values of merging the values, and setting its options or those of its groups changes no other configuration. Each call of get_default_config gives a fresh object: changing options of one, also in place, does not change later ones.", "quantifier": "every description, every heap of objects with any sharing, every list of configurations", "why_tests_cant": "All shapes of sharing between configurations and default objects, and all orders of later changes.", "anchors": ["xylem/config_utils.py:copy_conifg_dict, merge_configs, merge_with_defaults, config_from_defaults, ConfigType.merge, MergingDict.merge", "xylem/config.py:get_default_config, process_config"]}
{"id": "C113", "title": "Conversions between dict and ConfigDict keep the contents", "statement": "copy_to_dict returns a regular dict with the same contents and no ConfigDict left in it; ceorce_config_dict returns a ConfigDict with the same contents for every dict.", "quantifier": "every nested configuration", "why_tests_cant": "All nestings of dicts, lists and classes.", "anchors": ["xylem/config_utils.py:ceorce_config_dict, copy_to_dict"]}
{"id": "C114", "title": "From the files on the servers to the command lines", "statement": "On the bundled systems with the default configuration, after an update, a later `xylem install` of distinct keys shows (simulation) or executes (with --continue-on-error) exactly the package manager commands for the packages that the rules files want: per key the rule of the system's own tool from the first source that has one (within a file: specific version, then any_version, then any_os, reading default_installer as that tool), otherwise pip's; in the order of the keys, each package once per mention, without pip packages already installed. A source that can not be reached during the update counts with its cached file.", "quantifier": "every list of sources, every content they serve, every cache, every machine of the supported systems, every list of distinct keys", "why_tests_cant": "Unbounded combinations of files, caches, failures and keys; the claim spans update, cache, lookup, resolution and installation.", "anchors": ["xylem/update.py:update", "xylem/sources/database.py:RulesDatabase.update, load_from_cache, lookup", "xylem/resolve.py:resolve", "xylem/install.py:install"]}
{"id": "C115", "title": "Loading and saving the database step by step", "statement": "load_from_source and save_to_cache of the database treat every source independently when errors are not raised (others are processed, no foreign file is touched), and stop at the first failing source, leaving those behind it as they were, when they are. Loading everything and then saving everything is the same as update, and does not damage the cache of a source that could not be loaded.", "quantifier": "every list of sources, every network, file system and outcome of writes", "why_tests_cant": "All combinations of failing and working sources and caches.", "anchors": ["xylem/sources/database.py:RulesDatabase.load_from_source, save_to_cache, update"]}
{"id": "C116", "title": "Disabled plugins are not used", "statement": "A plugin (os, installer or spec) whose declared name is listed under disabled_plugins has no effect: contexts are exactly those of a system on which these plugins are not installed. With the bundled plugins: no installer of a disabled name can be looked up or is core or additional (unless the fake installer was given that name), all others are there; a disabled system is neither detected nor accepted as override; with the rules spec disabled no source can be used.", "quantifier": "every list of disabled names, every set of entry points, every configuration and machine", "why_tests_cant": "All combinations of plugins, disabled names and machines.", "anchors": ["xylem/installers/impl.py:InstallerContext.__init__, setup_os", "xylem/sources/impl.py:SourcesContext.__init__", "xylem/plugin_utils.py:load_plugins"]}
{"id": "C117", "title": "Configuration and context arguments of the API", "statement": "update, lookup, resolve and install take a configuration (None for the global one, a ConfigDict, or a plain dict that is validated and completed) and contexts or a database (None to make them from the configuration). Passing a context is the same as having it made; what is passed wins over the configuration; arguments of another type are rejected before anything happens. install resolves exactly as resolve does. The global configuration is the defaults until one is set, and a command line that can not be handled does not change it.", "quantifier": "every combination of arguments, configurations, plugins, caches and machines; every history of set_config and command lines", "why_tests_cant": "Unbounded combinations of arguments and states.", "anchors": ["xylem/config.py:get_config, set_config, ensure_config", "xylem/sources/impl.py:SourcesContext, ensure_sources_context", "xylem/installers/impl.py:ensure_installer_context", "xylem/update.py:update", "xylem/lookup.py:lookup", "xylem/resolve.py:resolve", "xylem/install.py:install"]}
{"id": "C118", "title": "Layout of help texts", "statement": "Help texts and descriptions shown by --help are divided at three or more newlines into paragraphs (printed with one empty line between them) and at two newlines into blocks, in exactly one way. Every block starts on a new line, no line is longer than the width, every line is indented, and nothing but white space is lost: no word is dropped, reordered or joined with another. Lines are filled with as many words as fit. Paragraphs marked R| keep their lines; only the indentation common to their lines is replaced.", "quantifier": "every text, width and indentation (narrower than the width), and every way textwrap finds break positions that loses no character", "why_tests_cant": "All texts: runs of newlines, long words, blank lines, mixed indentation.", "anchors": ["xylem/config_utils.py:ConfigHelpFormatter"]}
{"id": "C119", "title": "The script xylem-update", "statement": "The installed script xylem-update does the same as the command xylem update.", "quantifier": "every command line, configuration, list of sources and cache state", "why_tests_cant": "No test runs the installed scripts; all states.", "anchors": ["setup.py:entry_points", "xylem/commands/update.py:main", "xylem/commands/main.py:command_handle_args, create_command_parser"]}
{"id": "C120", "title": "An invalid configuration file", "statement": "When the configuration file in the directory given by --xylem-dir can not be parsed or has invalid contents, no command is run and nothing is changed, and xylem reports the problem as an error message.", "quantifier": "every command, command line, environment, and file contents", "why_tests_cant": "All file contents and command lines; the unit tests only exercise the parsing functions.", "anchors": ["xylem/commands/main.py:main", "xylem/config.py:handle_config_arguments, load_config"]}
{"id": "C121", "title": "What the options after a command mean", "statement": "Every command accepts exactly its own, the global and the configuration options; anything else ends with exit code 2 before anything is read or changed. A flag of the command is on exactly when it occurs on the command line, so `install --dry-run` executes nothing whatever else is given; a configuration option yields the parsed last value (or, for list-like options, all values in order), exactly what the effective configuration receives from the command line.", "quantifier": "every list of option occurrences after a command, every environment, every declared set of options with distinct flags and destinations", "why_tests_cant": "All orders, repetitions and combinations of options; unit tests try a handful of command lines.", "anchors": ["xylem/commands/install.py:prepare_arguments, main", "xylem/commands/resolve.py:prepare_arguments", "xylem/commands/update.py:prepare_arguments", "xylem/commands/rules_dict_compact.py:prepare_arguments", "xylem/config.py:add_config_arguments", "xylem/arguments.py:add_global_arguments, handle_global_arguments"]}
{"id": "C122", "title": "Command plugins do not disturb each other", "statement": "`xylem NAME ...` runs the command plugin that is listed as NAME, with its own, the configuration and the global options, whatever other command plugins are installed; a plugin that adds options of its own or to the configuration does not affect the other commands.", "quantifier": "every set and discovery order of command plugins (titles, options, additions to the configuration), every command line and environment", "why_tests_cant": "All sets of plugins and their interplay through shared state; the test suite has only the bundled commands.", "anchors": ["xylem/commands/main.py:create_subparsers, create_command_parser, main", "xylem/config_utils.py:config_from_args, ConfigDescription.add_arguments", "xylem/config.py:add_config_arguments, handle_config_arguments", "setup.py:entry_points"]}
{"id": "C123", "title": "What is said about sources", "statement": "When the rules database is set up, one warning naming the sources directory is given exactly if it does not exist and the directories are not those of the system, and every list file with invalid YAML is reported by an error naming it. `xylem update` gives one report per source, in order: a line with its origin if that is new, a line with its arguments, and an error naming the source and the reason exactly if its update failed; the cache files written are those of the silent computation.", "quantifier": "every sources directory and list file contents, all spec plugins, all network, parse and write failures per source, all previous cache contents, verbose or not", "why_tests_cant": "All combinations of failing and succeeding sources; the bundled tests never look at the messages of update.", "anchors": ["xylem/sources/database.py:RulesDatabase.init_from_sources, update", "xylem/sources/impl.py:get_source_descriptions, parse_source_descriptions, SourcesContext.is_default_dirs", "xylem/update.py:update"]}
{"id": "C124", "title": "What is said about plugins", "statement": "When plugins are loaded there is exactly one message for each entry point, in order, that says what became of it: an error for an invalid definition or plugin, a warning that names the clash for a plugin whose name is taken, and with --verbose a line for each disabled and each loaded plugin. Without --verbose nothing is shown exactly if every plugin is disabled or loaded. If an entry point raises, those before it have been reported. The plugins returned are those of the silent computation.", "quantifier": "every list of entry points with any definitions, classes and failures; every list of disabled plugins", "why_tests_cant": "All combinations and orders of valid, invalid, disabled, duplicate and failing plugins.", "anchors": ["xylem/plugin_utils.py:load_plugins, verify_plugin_definition"]}
{"id": "C125", "title": "Warning about ambiguous OS detection", "statement": "When the operating system is detected, a warning is given exactly if there is no single most specific system among the detected ones (as documented in detect_os); each warning names two detected systems of which neither is derived from the other. Without a warning the single most specific system is used.", "quantifier": "every machine and every list of OS plugins, in any order, in which a derived system's names end with those of the system it is derived from (true of the bundled ones)", "why_tests_cant": "All sets and orders of detected plugins and all derivation relations.", "anchors": ["xylem/os_support/impl.py:OSSupport.detect_os", "xylem/os_support/plugins.py"]}
{"id": "C126", "title": "Unknown options and rule keys", "statement": "Entries of installer options, OS plugin options and installer rules that the plugin does not know are ignored: they make no difference to the value. A warning is given exactly if there are such entries, and it names them all and nothing else.", "quantifier": "every description of options or rules a plugin can set up, every dict of options or rule, with keys of any type", "why_tests_cant": "All descriptions and all dicts.", "anchors": ["xylem/installers/installer_base.py:InstallerBase.options, _parse_installer_rule", "xylem/os_support/os_base.py:OSBase.options"]}
{"id": "C127", "title": "The database is what the source files describe", "statement": "With the bundled specs, a sources directory makes a database with exactly the sources described in its files, in the order of the listing and of the descriptions, with nothing loaded, if all descriptions are rules with ASCII urls of which no two have the same hash. The first description of another spec (UnknownSpecError) or with arguments that are no text (ValueError) makes it fail; otherwise a non-ASCII url (ValueError) or a repeated url (RuntimeError) does.", "quantifier": "every directory listing, file contents, yaml parser and hash function", "why_tests_cant": "All listings and descriptions.", "anchors": ["xylem/sources/database.py:RulesDatabase.init_from_sources, verify_unique_ids", "xylem/sources/impl.py", "xylem/specs/plugins/rules.py:RulesSpec.verify_arguments"]}
{"id": "C128", "title": "What resolve and lookup print", "statement": "For each resolved key, in order, resolve prints one line `key --> installer: items` in which the installer is left out exactly if it is the default one and was not asked for; lookup prints for each key the key, the system and the value as YAML below. Colours only add colour codes to these texts. The texts determine key, installer and items (key, system and YAML) if keys and items contain no spaces, items are not empty, and installers contain neither spaces nor colons (if key and system contain no quotes).", "quantifier": "every list of results, keys, answers, every default installer, colour table, way of showing rules and YAML dumper", "why_tests_cant": "All results and all texts in them.", "anchors": ["xylem/commands/resolve.py:main", "xylem/commands/lookup.py:main"]}
{"id": "C129", "title": "The count of the license tool", "statement": "A run of the license tool with --write ends by saying how many files it changed, or that it did not need to change any. A run without --write changes nothing and says how many files the run with --write would change, with the same messages before. If a path can not be processed nothing is counted, and the paths after it are not looked at.", "quantifier": "every file system, list of paths, set of options and pattern engine that answers with spans, for a header that is not empty", "why_tests_cant": "All trees, paths and patterns.", "anchors": ["maintenance_utils/update_license_headers.py:replace_headers", "maintenance_utils/update_license_headers.py:main"]}
{"id": "C130", "title": "What setting up the installer context says", "statement": "Looking at the messages does not change the context. Setting up the context names, with --verbose, the operating system and version in use and whether they were detected or configured, the core installers asked for and where they come from, and last the additional installers. Exactly the core installers asked for that are not loaded are reported as errors and the others are used, in the order asked for. When the operating system is detected, nothing is shown without --verbose exactly if every plugin is used or disabled, there is a single most specific operating system, no option is unknown and every core installer asked for is loaded. With the bundled plugins and the default configuration that is the case on every system but OS X, where the missing core installer gem is always reported.", "quantifier": "every configuration, set of entry points, plugins and state of the machine", "why_tests_cant": "All combinations of configuration, plugins and machine.", "anchors": ["xylem/installers/impl.py:InstallerContext.__init__", "xylem/installers/impl.py:InstallerContext.setup_os", "xylem/installers/impl.py:InstallerContext.setup_installers"]}
{"id": "C131", "title": "Every error is reported, with what it says", "statement": "When a command ends with an error, or resolve and install collect errors, what is printed names every exception of the chain with its message, the root cause first, once, on stderr: in bold red without tracebacks, or with tracebacks and without colours for --debug and internal errors; the exit code is 1. This works for every message and every terminal, and messages can be read as they were written.", "quantifier": "every chain of exceptions, message (text or bytes), traceback, terminal encoding and console setting", "why_tests_cant": "All messages, in all characters, and chains of any length.", "anchors": ["xylem/exception.py:exc_to_str", "xylem/util.py:print_exc", "xylem/commands/main.py:main", "xylem/commands/resolve.py:main", "xylem/commands/install.py:main"]}
{"id": "C132", "title": "Uncaught exceptions and --pdb", "statement": "An exception that no command handles is reported with its traceback once on stderr; with --pdb or XYLEM_PDB, and only then, and only in a terminal, the debugger starts after the report. This holds for every console script of xylem.", "quantifier": "every exception, traceback, console setting and path of the script", "why_tests_cant": "All combinations of settings, paths and exceptions.", "anchors": ["xylem/util.py:custom_exception_handler", "xylem/util.py:set_excepthook", "xylem/util.py:running_script_name"]}
{"id": "C133", "title": "Words of the command line", "statement": "Command lines mean the same however options are written (one word with `=` or two words, abbreviated to a unique beginning, one-letter options together), before the command or around its keys. Usage errors exit with 2, help and version with 0.", "quantifier": "every set of options and commands, and every command line", "why_tests_cant": "Command lines of any length with options in every spelling and order.", "anchors": ["xylem/commands/main.py:main", "xylem/commands/main.py:create_subparsers", "xylem/commands/main.py:create_command_parser", "xylem/arguments.py:add_global_arguments", "xylem/config_utils.py:add_global_config_arguments", "xylem/config_utils.py:ConfigDescription"]}
