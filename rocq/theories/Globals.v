(** Model of arguments.py:97-112: from the parsed arguments of a command to the settings of the console. *)
From Verif Require Import Base Dict PyVal RulesDict Verify Sources Util Paths Config XylemConfig Commands CommandLine Output.

(** arguments.py:104-110: what [handle_global_arguments] reads from the namespace and from [os.environ];
    whether a variable is set counts, not its value. *)
Definition global_flags_of (environ : dict text text) (ns : namespace) : global_flags := {|
  g_debug := ns_flag ns (u "debug"); g_pdb := ns_flag ns (u "pdb");
  g_verbose := ns_flag ns (u "verbose"); g_no_color := ns_flag ns (u "no_color");
  g_env_debug := has (u "XYLEM_DEBUG") environ; g_env_pdb := has (u "XYLEM_PDB") environ |}.

(** log_utils.py:58-60 and arguments.py:97-112: the console of a command in a new process. *)
Definition command_console (environ : dict text text) (ns : namespace) : console :=
  handle_global_arguments (global_flags_of environ ns) (fresh_console (has (u "XYLEM_DEBUG") environ)).
