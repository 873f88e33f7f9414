# A Rocq model of catkin/xylem

The model lives in `rocq/theories` (logical name `Verif`).  It uses the Coq 8.16.1
standard library only: no axioms, no functors or module types, no plugins, no
`Admitted`.

## 1. Approach

* **Shallow model, function by function.**  Every Python function that matters for a
  property becomes a Gallina function with the same branches in the same order.  Each
  definition carries a comment with the file and lines it models (`tools/cite.py` checks
  the ranges of citations that name a function against `/repo`).  Simplifications are
  stated in these comments.
* **Exceptions are values.**  `res A := Ok a | Err e`, where `e : exn` (Base.v) is the
  exception *class*; which class a handler catches is modelled.  Messages are not.
* **Reference semantics is Python 2.7.**  The code only runs there
  (`descr.items()[0]` in `sources/database.py`, `keys[0]` in `sources/impl.py`).
* **Dicts are association lists in iteration order** with unique keys.  The iteration
  order of a Python 2.7 dict is arbitrary, so theorems quantify over all association
  lists, hence over all orders; order independence is stated and proved explicitly where
  a user relies on it (`veq`, Order.v: equality of values up to dict order).
* **Values** read from YAML are the inductive type `pyval` (null, bool, int, text, other
  scalar, list, dict with arbitrary scalar keys).
* **Text** is `list N` (code points).  Membership of code points >= 128 in the unicode
  class `\w` is a parameter of the model.
* **Effects** (network, file system, subprocesses, clocks) are state-passing: an abstract
  world plus oracles, which are Section variables or explicit function arguments and are
  universally quantified in the closed theorems.
* **Crash points**: cache writes are sequences of micro steps (truncate, append a prefix,
  ..., complete); a crash keeps an arbitrary prefix of the micro steps (Crash.v).
* **False properties.**  Where the code violates a property, a theorem `..._refuted`
  exhibits the witness on the model, and the strongest true part is proved beside it
  (suffix `_partial` when it stands for the full claim).  The MANIFEST status is then
  `partial` and the note says what fails.
* **Layout.**  `X.v` = model of a part of the code, `XSpec.v` = small independent
  specification, `XProofs.v` = lemmas, `PropX.v` = the property theorems `Cnn_*` with
  concrete `Example`s meeting their hypotheses and `Print Assumptions` for each theorem.

## 2. Properties: model and proof

| id | what is modelled | how it is proved |
|----|------------------|------------------|
| C01-C02 | `lookup_rules`, `merge_installer_dict`, `replace_default_installer` on typed nested dicts (RulesDict.v) | relational specification "this entry offers rule r for installer i" (RulesSpec.v); fold invariant over the installer dict |
| C03 | the same plus `veq` (equality up to dict order, Order.v) on raw parsed data | permutation argument per level; witness for the ambiguous case |
| C04 | `has_rule_for_os`, `RulesSpec.keys` | case analysis; converse refuted by witness |
| C05-C07 | `merge_rules` and all its helpers in the error monad, with the in-place removal loops | invariant: lookup(combined) = first answer of the lookups merged so far, by induction on list, key, os, version level; totality refuted by witness, proved without keyword clashes; `C07_fails_exactly` says exactly which clash makes a merge fail |
| C08-C09 | database `lookup`, `keys` over arbitrary sources (Sources.v) | induction over the reversed source list |
| C10-C12, C60 | `verify_*` on arbitrary `pyval`, the regular expression as a character class (Verify.v) | inductive well-formedness specification (VerifySpec.v), iff by induction on the dicts; newline and parameter refutations |
| C13-C15 | `expand_*` on arbitrary `pyval` (Expand.v) | declarative shorthand specification (ExpandSpec.v); induction on dict lists |
| C16, C81, C83 | `compact_*` (Compact.v) and the `_compact_rules_file` command (Commands.v) | lookup equality after re-expansion per level; file command: YAML library as an oracle pair with a round-trip hypothesis for the file at hand |
| C17-C22, C56, C57 | source objects, cache records, cache files as a map path -> bytes, `RulesDatabase` loops (Sources.v), crash micro steps (Crash.v) | invariants over operation lists; prefix induction; pickle is an encode/decode pair with round-trip hypothesis (instantiated by Codec.v, so the hypotheses are satisfiable) |
| C23, C24, C61 | source list parsing, directory selection, lazy generator order | iff / filter specification, witnesses |
| C25-C28 | `resolve` over an abstract database and installer context (Resolve.v) | induction over the key list; declarative choice specification |
| C29-C36, C62, C63 | `install` and helpers, state passing over an arbitrary world with an event log (Install.v) | trace invariants by induction over groups/commands/items (InstallSpec.v, InstallProofs.v) |
| C37-C39, C67-C70 | `InstallerBase`, `Resolution`, `PackageManagerInstaller` and the five bundled installers (Installers.v) | case analysis, list induction, instantiation of the generic install theorems |
| C40 | `load_plugins` (Plugins.v) | induction over entry points |
| C41, C74, C76, C77 | `InstallerContext` set up (Context.v) on the real configuration description | list induction; computation for the bundled plugins |
| C42-C45, C71-C73, C75 | `OSSupport`, `OSOverride`, `OSBase`, `OsDetect`, the bundled OS plugins (OsSupport.v) | relational "most specific" specification, order laws, history induction |
| C46-C52, C64-C66 | config types, items, descriptions, argparse results, files, merging (Config.v), paths (Paths.v), `process_config`, `parse_os_override` (XylemConfig.v) | induction on types/values/descriptions/histories (ConfigSpec.v); string lemmas |
| C53 | `load_url` as a loop over an oracle network | induction on the remaining retries |
| C54, C55 | `remove_duplicates` (Util.v), `fmt`/`sanitize` with `string.Template` semantics (Terminal.v) | induction; scanner invariants |
| C58, C59, C82 | `lookup`, the command `main` functions, `commands/main.py` (Commands.v) | case analysis over outcomes; refutations |
| C78 | the documented pseudo-code as an inductive specification, compared with `lookup_rules` | composition with C01; witnesses for the difference |
| C79 | default configuration on the bundled systems, from database answer to command lines | composition of C76, C27, C37, C69 |
| C80 | update, then lookup on the caches written, end to end | composition of C17, C20, C08, C03, C14 |
| C84-C88 | exception chains, context managers, `indent`, UTF-8, log functions and global flags (Output.v), from the command line to the settings (Globals.v, PropGlobals.v) | induction over chains, histories, lines, code points (arithmetic by lia), call sequences |
| C89-C91 | `merge_rules`, `lookup_rules`, `RulesDatabase.lookup` and in place `expand_rules` on a heap of mutable objects (Heap.v, HeapExpand.v) | simulation of the heap programs by the functions on values, with ownership (who may write which object) and level invariants |
| C92-C94 | argparse parsers, subparsers and namespaces, `xylem_main`, `handle_global_config_arguments`, options of the bundled commands (CommandLine.v) | namespaces equal up to some destinations; induction on the occurrences |
| C95, C96 | `setup_paths`, `is_default_dirs`, default directories (Directories.v), `ensure_config` | inversion of successful runs, per option |
| C97, C98 | updates as byte-wise file operations of any number of processes with their own offsets, and a byte-wise reader (Concurrent.v, Crash.v) | invariants over all schedules (offset = length for a file used alone; provenance of every byte) |
| C99, C100 | `from_yaml`, `from_command_line` of all types (Config.v) | declarative meaning of values and of flag texts (PropFlags.v), induction on types and occurrences |
| C101-C104 | all detectors of os_detect.py and the `OsDetect` object with its memory (Detectors.v) | case analysis per detector; word splitting by induction; history induction |
| C105 | composition of default context, resolve, install and the bundled installers (PropEndToEnd.v) | groups are lists of (tool, package) requests; squash, filter and run by induction on requests |
| C106 | `load_config` and `process_config` run twice, the second time on a file with the options of the first result (ConfigReload.v, PropConfigPrint.v) | values in loaded form are fixed points of `from_yaml` in every environment and absorb the default; paths built by `process_config` are normal |
| C107-C111 | the whole license header tool on a tree of files, links and directories; `re` and `fnmatch` are arbitrary functions (License.v, PropLicense.v) | induction on the tree (nested lists); the two runs of C107 and the second run of C109 are related entry by entry; C109 uses only that a search finds a header or an old pattern if there is one |
| C112 | the functions that build configurations, on the heap of Heap.v (ConfigHeap.v, ConfigHeapProofs.v, PropConfigHeap.v) | invariant of the result under construction: its dict and its group dicts are the only objects written, they are new and pairwise distinct, all other values are read without passing through them; simulation of Config.v with equal exceptions |
| C113 | values whose dicts carry their class (ConfigDict.v, PropConfigDict.v) | induction on nested values |
| C114 | update, load_from_cache, lookup, resolve, install composed (PropFull.v) | C80 gives the lookup answers after an update, translated to the typed rules by C01's characterisation; C105 takes it from there |
| C115 | the loops over sources with both settings of raise_on_error (Sources.v, PropDatabase.v) | induction over the sources; commutation of loading with file system steps |
| C116 | loading with disabled names, InstallerContext, SourcesContext (Plugins.v, Context.v, Api.v, PropDisabled.v) | induction over entry points: disabling = filtering them out; then C41, C43, C76 on the filtered lists |
| C117 | the first lines of the API functions composed with their models (Api.v, PropApi.v) | case analysis over the kinds of arguments; induction over histories |
| C118 | ConfigHelpFormatter with textwrap's dedent and line filling (HelpText.v, PropHelp.v); textwrap's search for break positions is an arbitrary function that loses nothing | inductive specification of paragraphs and blocks, equivalence with the scanners; induction over lines with a decreasing weight |
| C119 | command_handle_args, the main functions of the update command (Commands.v, PropCommands.v) | evaluation for all inputs |
| C120 | main with load_config and the file parser (CommandLine.v, Config.v; PropBadConfig.v) | C50's exact acceptance combined with the command line parser for all options and contents |
| C121 | argparse options, namespace, configuration from the command line (CommandLine.v, Config.v; PropOptions.v) | fold invariant over the occurrences: every attribute is what the occurrences so far say |
| C122 | the whole set of command parsers, the shared configuration description, dispatch by name (CommandSet.v; PropCommandSet.v) | fold invariant over the plugins in discovery order; for additions to the configuration, the keys of the namespace against the arguments of the final description |
| C123 | `init_from_sources`, `parse_source_descriptions` and `update` with their messages (SourcesLog.v; PropSourcesLog.v) | the loop with messages refines that of Sources.v; one report per source by induction on the sources |
| C124 | `load_plugins` with its messages (PluginsLog.v; PropPluginsLog.v) | refinement of Plugins.v; inductive relation `told` between entry points, messages and plugins, by induction on the entry points |
| C125 | `detect_os` with its warnings (PluginsLog.v; PropPluginsLog.v) | loop invariants: without a message the result carries all detected names; suffixes of one list of names are comparable |
| C126 | setters of `options`, `_parse_installer_rule` with their warnings (PluginsLog.v; PropPluginsLog.v) | the keys of a parsed configuration are exactly the known entries (induction over the loops of build and merge) |
| C127 | `init_from_sources` with the rules spec (Sources.v; PropDescriptions.v) | inductive relation `described` between directory entries and descriptions; the nested loops are one loop over descriptions |
| C128 | `resolve_command`, `lookup_command` (Commands.v; PropPrinted.v) | relation `coloured` between a text and the text with colour codes; injectivity of the printed texts by splitting at the first space, colon or quote |
| C129 | `replace_headers`, `main` (License.v; PropLicenseMain.v) | tree with paths; number of files with another content in two trees; additivity of that number for paths that do not overlap, triangle inequality for any |
| C130 | `InstallerContext` with its messages (ContextLog.v; PropContextLog.v) | the model with messages returns the context of the model without; who is asked for, used and missing as separate relations; silence as an equivalence over the parts (C124-C126); the bundled systems computed |
| C131 | the text of exceptions in python 2.7, `exc_to_str`, `print_exc`, the reports of main, resolve and install (Reports.v; PropReports.v) | how a message is shown as a relation on characters (hexadecimal numbers), shown to be unambiguous for messages without backslashes; success of a report as an equivalence; the bytes on stderr computed; refines the model of `exc_to_str` in Output.v |
| C132 | `custom_exception_handler`, `set_excepthook`, `running_script_name` (Reports.v; PropReports.v) | the bytes on stderr, and an equivalence for the debugger; the hook as an equivalence on the name of the script |
| C133 | the tokenizer of python 2.7's argparse with the option strings and positionals of xylem's parsers (Argv.v; PropArgv.v) | a relation `written` between words and options says how options may be written; parsing such words equals the model of CommandLine.v on the options, by induction on the relation; all outcomes by induction on the events |

All listed properties can be expressed in the model; what each partial one lacks is in the
note of `MANIFEST.json`.

## 3. What is modelled, per Python file

| file | modelled | not modelled |
|------|----------|--------------|
| `sources/rules_dict.py` | all functions | - |
| `sources/database.py` | all of `RulesSource`, `RulesDatabase`, cache helpers | time stamps, log output; `pickle` is an encode/decode pair, SHA-1 an arbitrary function |
| `sources/impl.py` | parsing, verification, selection of source lists, `SourcesContext`, `get_spec`, `ensure_sources_context`, cache directory outcome | `pkg_resources` access (outcome is a parameter) |
| `specs/impl.py`, `specs/plugins/rules.py` | whole spec plugin: load, verify, expand, lookup, keys, compact | - |
| `lookup.py`, `update.py`, `resolve.py`, `install.py` | all functions, with the preparation of configuration, contexts and database (Api.v) | `print`/`info` texts |
| `installers/impl.py` | `InstallerContext`, `ensure_installer_context`, `lookup_installer`, exceptions | docstring-only abstract methods (arbitrary functions in the model) |
| `installers/installer_base.py`, `package_manager_installer.py`, `plugins/*.py` | all methods | prompting when interactive |
| `os_support/impl.py`, `os_base.py`, `plugins.py` | all methods used for detection, override, core installers | - |
| `os_support/os_detect.py` | all detectors and `OsDetect` (OsSupport.v, Detectors.v) | changes of files between two reads of one call |
| `plugin_utils.py` | `load_plugins` and verification of definitions | class hierarchy checks are flags of an entry point |
| `config_utils.py` | types, items, descriptions, loading, merging, directories, help formatter | metavars, contents of help texts |
| `config.py` | description, `process_config`, `parse_os_override`, `ensure_config`, the global configuration (Api.v) | - |
| `commands/*.py` | `main` functions, command plugins, options of main parser and subparsers | the pager of --help and the messages of usage errors (argparse's tokenizer is in Argv.v) |
| `util.py`, `terminal_color.py`, `load_url.py`, `exception.py`, `text_utils.py`, `log_utils.py`, `arguments.py` | all functions that compute something (Util.v, Terminal.v, LoadUrl.v, Output.v) | pdb and exception hooks, pager, `to_str` of objects other than strings, `file` arguments of the log functions |
| `maintenance_utils/update_license_headers.py` | `process_args`, `replace_headers_recursive`, `replace_headers_file`, `insert_header` (License.v) | `re`, `fnmatch` (arbitrary functions), the loop over several start paths |

Further limits of the model:

* In most files objects are values.  That this loses nothing is proved where code modifies
  dicts in place: merging and lookup (C89, C90), configurations (C112) and expansion (C91, except for aliases used at
  two levels, where the code really differs).  Documents with cycles are outside.
* Python 2's implicit `UnicodeEncodeError`/`UnicodeDecodeError` when formatting messages is
  not modelled (messages are not modelled), nor is decoding with `errors='replace'`
  (an oracle that never fails).
* A crash keeps a prefix of the bytes written to one file; reordering by the file system is
  not modelled.  There are no threads in the code; processes are interleaved in C97 and C98
  only.

## 4. Trusted base

* Coq's kernel (8.16.1, `coqc`), and the definitions and statements.
* `Print Assumptions` is run at the end of every `PropX.v` for every property theorem; each
  one prints **"Closed under the global context"**: no axiom at all is used.  (Checkers that
  list the axioms of loaded library files may show those of the standard library's
  `ssrunder`, loaded transitively and used by no theorem here.)
* The reading of the Python code: the model was transcribed by hand from `/repo`, which
  cannot be run here.  Library behaviour relied on: Python 2.7 dict/list/str semantics,
  `os.path` (transcribed in Paths.v), `string.Template` (Terminal.v), the `re` pattern of
  `rules_dict.py:283`, argparse destinations.
* Wrong-program tests: `seeded/LOG.jsonl` records edits of the model and the theorems that
  failed because of them (`tools/mutate.py`, `tools/mutlog.py`).

## 5. Findings (claims false of the code, each with a `_refuted` theorem unless noted)

* **C03** (`C03_order_matters_when_ambiguous_refuted`): Order independence under the stated proviso is proved; the second half of the property (without it, order matters) is the _refuted theorem.
* **C04** (`C04_listed_key_without_rule_refuted`): Completeness, membership and uniqueness proved. The converse a user expects is false: any_os with an empty any_version entry lists a key without rule.
* **C07** (`C07_merge_total_refuted`): False in general: merge_version_dict passes None as default installer (rules_dict.py:381), so two dicts using default_installer under any_version raise ValueError. Proved when only the lowest-priority dict does that; `C07_fails_exactly` characterises every failure.
* **C12** (`C12_identifier_refuted`): Full claim false: '$' matches before a trailing newline, so 'any_os\n' is accepted as a key. Proved up to one trailing newline.
* **C15** (`C15_documented_error_refuted`): 'Fails exactly on malformed input' is proved; 'with the documented error' is false: constructing SpecParsingError raises TypeError.
* **C16** (`C16_other_default_refuted`): Proved for the os's configured default installer (the one compaction bakes in) and any real os; for other default installers the claim is false (C16_other_default_refuted). Failure condition characterised exactly. any_os as the queried os name is excluded.
* **C21** (`C21_atomic_replacement_refuted`): At most one damaged file and repair by rerunning are proved; the parenthesised expectation (atomic replacement of the file being written) is false.
* **C22** (`C22_foreign_arguments_refuted`): Exact condition for a successful load. Additionally shown: the record's arguments are neither compared nor verified (C22_foreign_arguments_refuted). Arbitrary code execution by pickle is outside the model.
* **C23** (`C23_non_list_accepted_refuted`): Exact condition proved; an empty mapping and an empty text are accepted too, so the claim as stated is false for these two values.
* **C24** (`C24_hidden_files_refuted`): Exact condition proved; hidden files are NOT skipped (the check is applied to the joined path), and a sources dir path starting with a dot hides all files.
* **C27** (`C27_first_additional_refuted`): Core installers: as claimed. Additional installers: the LAST one with a rule wins (missing break, resolve.py:127-133), so the claim is false there.
* **C30** (`C30_no_commands_refuted`): Every group with commands: all executed with exit code 0, then all detected as installed. False for an installer that composes no command: no check is made.
* **C34** (`C34_swallowed_refuted`): Nothing is installed (proved), but no error is returned (refuted); the text of the list of errors is printed once per error (C34_printed).
* **C35** (`C35_reinstall_refuted`): False: with reinstall=True, install raises UnboundLocalError (install.py:95) and composes nothing.
* **C36** (`C36_composition_error_refuted`): False for the documented InstallerError (UnboundLocalError); other exceptions become XylemInternalError.
* **C37** (`C37_null_package_refuted`, `C37_not_a_mapping_refuted`): Exact for rules that are mappings, with and without further rule options; a null package name is accepted and a rule that is not a mapping raises AttributeError instead of InvalidRuleError (both _refuted).
* **C39** (`C39_bundled_refuted`): Outcome of the check is exact for any package manager; the error type is proved when hooks raise only NotImplementedError, and refuted for apt, homebrew, macports and pip with fix requested (TypeError).
* **C40** (`C40_failing_plugin_refuted`): 
* **C46** (`C46_shared_destination_refuted`): Priority of the layers and key-wise merging proved for every description; the command line layer is the flag's own occurrences if the flags are plain and their destinations distinct (true for xylem's own flags, C46_xylem_flags). In general false: flags differing only in - and _ share an argparse destination (C46_shared_destination_refuted). argparse is modelled (dest, append, last wins), abbreviations are not.
* **C47** (`C47_invalid_default_refuted`): Verification exact; all parsed values valid; loaded configurations valid if declared defaults are. False otherwise: defaults are never verified (C47_invalid_default_refuted).
* **C50** (`C50_group_error_refuted`): Accepted contents characterised exactly. Rejections carry the configuration error as long as groups are mappings; a group that is null or not a mapping raises AttributeError (C50_group_error_refuted).
* **C51** (`C51_rejection_refuted`): Names never clash in any history; flags are distinct if all additions were accepted. A rejection because of a taken flag leaves the option added (C51_rejection_refuted).
* **C52** (`C52_empty_parts_refuted`): Round trip proved in both directions; nothing is ever rejected, so empty names and versions are accepted (C52_empty_parts_refuted).
* **C53** (`C53_read_failure_refuted`): A failing read() after a successful connect is not retried or converted; see C53_read_failure_refuted.
* **C55** (`C55_braces_refuted`, `C55_disabled_refuted`): 
* **C56** (`C56_dry_run_refuted`): False: dry_run is ignored by update().
* **C57** (`C57_clear_cache_refuted`): False: clear_cache and is_cache_outdated raise TypeError; proved is the case without a cache file.
* **C58** (`C58_plain_refuted`): False without compact presentation: lookup() raises UnboundLocalError (lookup.py:44, C58_plain_refuted). With compact presentation the answer is the database's, in a notation that determines it.
* **C59** (`C59_update_refuted`, `C59_install_refuted`): main, resolve and lookup proved. update exits with 0 although sources failed (C59_update_refuted; they are reported on stderr); install exits with 0 although it printed errors when the check for installed packages fails (C59_install_refuted; the messages are the text of the list of errors, once per error: C34_printed). What does hold for these two is C59_update_partial, C59_install_partial and C59_install_success.
* **C60** (`C60_rules_dict_refuted`): Holds for os dicts; false for whole rules dicts (argument not passed on, rules_dict.py:100).
* **C61** (`C61_priority_by_name_refuted`): The order is exactly the directory listing order; independence of the listing order is false.
* **C62** (`C62_at_sign_refuted`): False for commands with '@' (KeyError from fmt before execution, e.g. pip install git+ssh://git@github.com/...).
* **C67** (`C67_bundled_refuted`): Proved for every context of working installers and instantiated for the fake installer; false for apt, homebrew and macports, which always report an error.
* **C68** (`C68_hashable_refuted`, `C68_resolved_refuted`): False for every resolution object.
* **C69** (`C69_flags_ignored_refuted`): The composed commands are characterised exactly; neither setting has any effect (refuted).
* **C70** (`C70_spelling_refuted`): Exact for names without '='; spelling differences matter (refuted).
* **C71** (`C71_lsb_version_refuted`): Proved for OS X. False for Debian, Ubuntu and Xubuntu: the lsb codename is passed on unchecked; proved that the version is exactly that codename.
* **C72** (`C72_detection_refuted`): Proved for queries by name; false for detection, where the first registered matching detector of the list wins (every match overwrites the previous result).
* **C73** (`C73_order_refuted`): Proved for machines without sw_vers next to lsb information; false with both (order decides).
* **C74** (`C74_refuted`): Proved when options do not change names. False for the fake installer: its name is an option, and it can take over 'apt'.
* **C75** (`C75_refuted`): False: only the rules of the very os (and any_os) are consulted; get_all_tuples is unused. The _partial theorem proves exactly that restriction.
* **C77** (`C77_null_options_refuted`, `C77_null_installer_refuted`, `C77_override_refuted`, `C77_sw_vers_refuted`): Proved for processed configurations whose installer options are mappings and whose core installers are names, and a working sw_vers. Four kinds of validated configurations or machine states that raise other errors are given.
* **C81** (`C81_crash_refuted`): Proved for completed writes and for every failure before the file is opened, assuming the YAML library reads back what it dumped for this file (false for None inside a list, which dump_yaml writes as an empty scalar). A write that dies in the middle leaves a damaged file (C81_crash_refuted).
* **C82** (`C82_broken_plugin_refuted`): Proved for entry points that load but are no definition. One that raises on loading takes all commands away (C82_broken_plugin_refuted).
* **C83** (`C83_not_canonical_refuted`): False (C83_not_canonical_refuted); proved: the second pass only unwraps lone any_version lists, and the third changes nothing.
* **C78** (`C78_exact_answer_refuted`): The exact documented answer is refuted: lookup_rules merges the levels per installer, so less specific entries add rules for other installers, and an os without entry for the version falls through to any_os. Proved: every documented rule is found, and every addition comes from a less specific entry for an installer the documented entry does not name.
* **C85** (`C85_original_deleted_refuted`, `C85_leak_refuted`, `C85_removal_fails_refuted`, `C85_default_directory_refuted`): Proved when the original directory still exists and can be entered, and removal of the temporary directory succeeds. Refuted otherwise: the temporary directory leaks if it can not be entered, a failing removal loses the body's exception and does not restore the directory, a deleted original directory is not restored; change_directory() with its default argument always fails.
* **C88** (`C88_second_command_refuted`): Streams and settings of the first command are proved. A later command in the same process keeps --verbose and --no-color of an earlier one (refuted). Python 2: under Python 3 print(to_bytes(msg)) shows a bytes literal; not modelled.
* **C90** (`C90_rules_are_shared_refuted`): Proved for changes to the dict answered. The rules inside the answer are the objects of the database itself, so changing one of them changes later answers (C90_rules_are_shared_refuted).
* **C91** (`C91_alias_at_two_levels_refuted`): Proved if every dict object is used at one level only (and in particular without aliases). False in general: with 'any_os: &v {apt: [..]}, ubuntu: *v' the first expansion spoils the second.
* **C92** (`C92_empty_variable_refuted`): `XYLEM_DIR=''` is not treated as unset; the working directory becomes the configuration directory.
* **C93** (`C93_position_refuted`), **C94** (`C94_before_command_refuted`): with Python >= 2.7.9 the subparser's defaults overwrite what was given before the command: `xylem --os x resolve` ignores `--os`, and `xylem --print-config update` updates.
* **C95** (`C95_empty_directory_refuted`): an existing sources directory without list files gives no sources, not the default ones.
* **C96** (`C96_user_sources_refuted`): `user_sources` in a dict given to the API has no effect.
* **C97** (`C97_overlapping_read_refuted`), **C98** (`C98_one_record_refuted`, `C98_readable_refuted`): cache files are rewritten in place without locks; a lookup overlapping with an update, and two overlapping updates, can get or leave a mixture of two records, or garbage.
* **C102** (`C102_codename_words_refuted`): codenames of several words are cut after the first.
* **C103** (`C103_documented_error_refuted`): detectors raise IndexError, ValueError and AttributeError on unexpected release files and if `uname` can not be run.
* **C104** (`C104_stale_refuted`, `C104_failure_refuted`, `C104_override_detector_refuted`): the OsDetect object answers with results of earlier detections after it found nothing or failed; `get_detector()` is None under ROS_OS_OVERRIDE.
* **C105** (`C105_aborts_refuted`): with the default configuration on ubuntu, `xylem install a b` with an apt key `a` and a pip key `b`: apt-get succeeds, xylem reports "failed to detect successful installation" and `b` is not installed.
* **C106** (`C106_override_refuted`): config.py:293-296 stores the pair (name, version) in `os_override`; --print-config shows it as a list, which the String type of the option rejects. With `os_override` or --os set, the printed configuration can never be used as a configuration file.
* **C28** (`C28_order_refuted`): a key under two installers in `install_from` is resolved with whichever the dict yields first; config.py reads the mapping into a plain dict.
* **C109** (`C109_refuted`): update_license_headers.py:30 tries the old patterns before the new header. If an old pattern matches a proper beginning of the new header, every run replaces that part of the header by the whole header: the file grows each time.
* **C110** (`C110_empty_file_refuted`, exact condition in `C110_fails_exactly`): lines 93-94 read `lines[0]` of an empty file: IndexError. An empty `__init__.py` stops the run, files listed later are not handled (the repository has such files under test/).
* **C111** (`C111_optional_refuted`): if one of the repeatable options is not given, its value is None and `process_args` raises TypeError; the default for --matching (lines 155-156) is assigned to an unused variable.
* **C112** (`C112_fresh_default_refuted`, `C112_loaded_list_refuted`): config_utils.py:1135-1137 puts the default objects of the description themselves into each configuration. After `get_default_config().install_from['apt'] = ...` every later default configuration has that entry; the lists `disabled_plugins.*` of a loaded configuration are the default objects, too.
* **C113** (`C113_coerce_refuted`): config_utils.py:340-357 has no return statement after its loop: `ceorce_config_dict` returns None for every regular dict, and with `copy=True` for every dict (the function is not used elsewhere).
* **C115** (`C115_failed_overwritten_refuted`): `save_to_cache` after a `load_from_source` with errors not raised also saves the sources that could not be loaded: their good cache files are replaced by files without data, which later loads reject (`update` avoids this).
* **C117** (`C117_plain_dict_refuted`): `update` and `lookup` do not call `ensure_config`: a plain dict, documented as the type of `config`, raises AttributeError there, while `resolve` and `install` accept it.
* **C119** (`C119_script_refuted`): the console script `xylem-update` can never work: `create_command_parser` (commands/main.py:64-74) has no return statement, so `command_handle_args(None, ...)` calls `parse_args` on None (AttributeError).
* **C120** (`C120_reported_refuted`): `main` (commands/main.py:140) calls `handle_config_arguments` before its `try`, so every invalid configuration file ends in a traceback of ConfigValueError instead of the error message given for all other XylemErrors.
* **C122** (`C122_later_option_refuted`): `create_command_parser` (commands/main.py:72-73) lets each command add options to the shared configuration description while the parsers are built one after another, and `config_from_args` (config_utils.py:1160) looks up every option of the final description. A plugin that adds a command line option therefore breaks every command discovered before it: `xylem update` ends in KeyError whatever the command line.
* **C122** (`C122_title_refuted`): commands are run under the `title` of the definition while the entry point names are listed (commands/main.py:65, 99); a plugin titled `install` silently replaces the install command. (`C122_conflict_refuted`): a plugin with an option called like a global one takes all commands away (argparse.ArgumentError).
* **C123** (`C123_message_refuted`): the messages about failed sources are made with `format` of the exception (database.py:298, 308), which fails in python 2 if the exception has a message with bytes that are not ASCII; then the update ends there and the remaining sources are not updated, although `raise_on_error` is off. C20 and C123_update_partial assume that messages can be made.
* **C124** (`C124_taken_name_refuted`): the warning about a plugin with a taken name has the plugin name twice (plugin_utils.py:180 uses the format field 1 twice), so it does not say which name is taken.
* C129: a file reached by two path arguments is counted twice by the dry run, although the run with --write changes it once (and counts it once): `C129_twice_refuted`.
* C130: on OS X the core installers of the os plugin are homebrew, pip and gem, and no gem installer is bundled: every run on OS X with the default configuration reports an error about it (`C130_bundled`).
* C131: characters of a message that are not ASCII are shown as `\xfc`, so messages are not shown as they were written (`C131_escaped_refuted`); if a message anywhere in a chain is a byte string that is not ASCII, as for a YAML error next to an umlaut in a configuration file, formatting the report raises UnicodeDecodeError, and nothing of the report is printed (`C131_bytes_refuted`, `C131_main_lost_refuted`, `C131_errors`). The same happens with a traceback that shows a source line or a path that is not ASCII (`C131_source_refuted`).
* C132: the exception hook, and with it --pdb, is only installed for a script named xylem, not for xylem-update (`C132_xylem_update_refuted`).
* C133: `xylem -- install boost` takes `--` for the command (`C133_separator_refuted`); keys separated by options are rejected (`C133_keys_apart_refuted`), `install --all` still needs a key (`C133_all_needs_key`), a value that begins with a dash must be given with `=` (`C133_dash_value_refuted`), and `xylem -v=` ends with an IndexError (`C133_crash_refuted`).
* Not covered by a theorem: `dump_yaml` writes `None` inside a flow
  list as an empty scalar.
