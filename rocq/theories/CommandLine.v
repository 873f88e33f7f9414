(** Model of the way from the command line to the configuration a command runs with:
    commands/main.py:64-84, 126-156, arguments.py:60-112, config_utils.py:932-1026,
    config.py:193-232, and the parts of python 2.7's argparse they rely on.
    Here options are given as occurrences; Argv.v models how the words of the command line (abbreviated and
    combined flags, [--help], [--version], positional arguments) become occurrences. *)
From Verif Require Import Base Dict PyVal RulesDict Verify Paths Sources Config XylemConfig Commands.
From Verif Require Install.

(** *** argparse *)
(** The value of an attribute of a namespace. *)
Inductive nsval := NFlag (b : bool) | NVal (v : clval).
(** [vars(args)] *)
Notation namespace := (dict text nsval).

(** [action="store_true"], the default action, [action="append"]. *)
Inductive action := StoreTrue | Store | Append.
(** A call of [add_argument] for an optional argument: the flag (without "--"), [dest] and
    [action].  Flags without a value default to False, others to None. *)
Record opt := { o_flag : text; o_dest : text; o_action : action }.
Definition default_value (a : action) : nsval :=
  match a with StoreTrue => NFlag false | _ => NVal CLNone end.

(** [ArgumentParser.parse_known_args]: attributes missing in the namespace get their
    defaults. *)
Definition add_defaults (p : list opt) (ns : namespace) : namespace :=
  fold_left (fun ns o => match get (o_dest o) ns with
                         | Some _ => ns
                         | None => set (o_dest o) (default_value (o_action o)) ns
                         end) p ns.

(** One occurrence [--flag] or [--flag value]; usage errors leave with status 2. *)
Definition occurrence := (text * option text)%type.
Definition take (p : list opt) (ns : namespace) (oc : occurrence) : res namespace :=
  match find (fun o => eqb (o_flag o) (fst oc)) p with
  | None => Err (SystemExit 2)
  | Some o =>
    match o_action o, snd oc with
    | StoreTrue, None => Ok (set (o_dest o) (NFlag true) ns)
    | Store, Some v => Ok (set (o_dest o) (NVal (CLText v)) ns)
    | Append, Some v =>
      Ok (set (o_dest o) (NVal (CLList (match get (o_dest o) ns with
                                        | Some (NVal (CLList l)) => l ++ [v]
                                        | _ => [v]
                                        end))) ns)
    | _, _ => Err (SystemExit 2)
    end
  end.
Definition parse_into (p : list opt) (occs : list occurrence) (ns : namespace) : res namespace :=
  foldM (take p) occs (add_defaults p ns).

(** Calling the parser of a command ([_SubParsersAction.__call__]).  Since python 2.7.9
    ([fresh]), the arguments after the command are parsed into a new namespace, the attributes
    of which are then copied to the one of the main parser; before, they were parsed into the
    latter. *)
Definition call_subparser (fresh : bool) (sub : list opt) (after : list occurrence) (ns : namespace)
  : res namespace :=
  if fresh then
    let* sns := parse_into sub after [] in
    Ok (fold_left (fun ns q => set (fst q) (snd q) ns) sns ns)
  else parse_into sub after ns.

(** [parser.parse_args] for [xylem BEFORE... command AFTER...]. *)
Definition parse_command_line (fresh : bool) (top sub : list opt) (before after : list occurrence)
  : res namespace :=
  let* ns := parse_into top before [] in
  call_subparser fresh sub after ns.

(** *** The arguments of xylem *)
(** [add_global_arguments], arguments.py:60-94, and [add_global_config_arguments],
    config_utils.py:932-973. *)
Definition global_options : list opt :=
  [ {| o_flag := u "verbose"; o_dest := u "verbose"; o_action := StoreTrue |};
    {| o_flag := u "debug"; o_dest := u "debug"; o_action := StoreTrue |};
    {| o_flag := u "pdb"; o_dest := u "pdb"; o_action := StoreTrue |};
    {| o_flag := u "no-color"; o_dest := u "no_color"; o_action := StoreTrue |};
    {| o_flag := u "print-config"; o_dest := u "print_config"; o_action := StoreTrue |};
    {| o_flag := u "no-user-config"; o_dest := u "no_user_config"; o_action := StoreTrue |};
    {| o_flag := u "prefix"; o_dest := u "prefix"; o_action := Store |};
    {| o_flag := u "xylem-dir"; o_dest := u "config_dir"; o_action := Store |} ].

(** [ConfigDescription.add_arguments], config_utils.py:902-929, 815-825. *)
Definition config_options (d : desc) : list opt :=
  map (fun p => {| o_flag := fst p; o_dest := argparse_dest (fst p);
                   o_action := if cl_multiple (i_type (snd p)) then Append else Store |}) (d_arguments d).

(** commands/main.py:127-133: the main parser. *)
Definition main_options (d : desc) : list opt := config_options d ++ global_options.

(** [create_command_parser], commands/main.py:64-74: [own] are the options of the command
    itself.  The commands bundled with xylem add nothing to the description. *)
Definition command_options (d : desc) (own : list opt) : list opt :=
  own ++ config_options d ++ global_options.

(** The options of the bundled commands: commands/install.py:38-46, commands/resolve.py:51-72,
    commands/update.py:34-36, commands/_compact_rules_file.py:44-49; lookup has none. *)
Definition flag_option (f dest : text) : opt := {| o_flag := f; o_dest := dest; o_action := StoreTrue |}.
Definition install_options : list opt :=
  [ flag_option (u "all") (u "all"); flag_option (u "reinstall") (u "reinstall");
    flag_option (u "dry-run") (u "dry_run"); flag_option (u "continue-on-error") (u "continue_on_error");
    flag_option (u "fix-prerequisites") (u "fix_prerequisites") ].
Definition resolve_options : list opt :=
  [ flag_option (u "all") (u "all"); flag_option (u "show-default-installer") (u "show_default_installer") ].
Definition update_options : list opt := [ flag_option (u "dry-run") (u "dry_run") ].
Definition compact_options : list opt := [ flag_option (u "write") (u "write") ].

(** *** From the namespace to the configuration *)
Definition ns_flag (ns : namespace) (dest : text) : bool :=
  match get dest ns with Some (NFlag b) => b | _ => false end.
Definition ns_text (ns : namespace) (dest : text) : option text :=
  match get dest ns with Some (NVal (CLText t)) => Some t | _ => None end.
(** [vars(args)] restricted to the configuration arguments. *)
Definition config_dests (d : desc) : list text := map (fun p => argparse_dest (fst p)) (d_arguments d).
Definition ns_values (d : desc) (ns : namespace) : dict text clval :=
  flat_map (fun p => match snd p with
                     | NVal v => if existsb (eqb (fst p)) (config_dests d) then [(fst p, v)] else []
                     | NFlag _ => []
                     end) ns.

Section Main.
  Variable env : penv.
  (** [os.environ] *)
  Variable environ : dict text text.
  Variable yaml : text -> res pyval.
  Variable file : text -> option (res text).

  Definition or_else {A} (a b : option A) : option A := match a with Some _ => a | None => b end.

  (** [handle_global_config_arguments], config_utils.py:976-1003, for the tool name xylem;
      updates the namespace. *)
  Definition nsval_of (t : option text) : nsval := NVal (match t with Some t => CLText t | None => CLNone end).
  Definition handle_global_config_arguments (ns : namespace) : namespace :=
    let dir := or_else (ns_text ns (u "config_dir")) (get (u "XYLEM_DIR") environ) in
    let prefix := match ns_text ns (u "prefix") with
                  | Some p => p
                  | None => match get (u "XYLEM_PREFIX") environ with Some p => p | None => u "/" end
                  end in
    set (u "prefix") (nsval_of (Some (expand_input_path env prefix)))
      (set (u "config_dir") (nsval_of (option_map (expand_input_path env) dir)) ns).

  (** What [load_config] and [process_config] read from the namespace. *)
  Definition clargs_of (d : desc) (ns : namespace) : clargs :=
    {| a_config_dir := ns_text ns (u "config_dir");
       a_prefix := match ns_text ns (u "prefix") with Some p => p | None => [] end;
       a_no_user_config := ns_flag ns (u "no_user_config");
       a_values := ns_values d ns |}.

  (** config.py:218-231 [handle_config_arguments] before --print-config. *)
  Definition effective_config (d : desc) (ns : namespace) : res pydict :=
    let* c := load_config env yaml file (clargs_of d ns) d xylem_tool in
    process_config env c (clargs_of d ns).

  (** commands/main.py:126-156 for a command line with a command.  [dump] is [dump_yaml];
      [func] is the command, given the namespace and the global configuration; an exception
      before line 143 leaves the process. *)
  Definition xylem_main (fresh : bool) (d : desc) (own : list opt) (dump : pydict -> text)
      (func : namespace -> pydict -> run_of unit) (before after : list occurrence) : list output * exn :=
    match parse_command_line fresh (main_options d) (command_options d own) before after with
    | Err e => ([], e)
    | Ok ns0 =>
      let ns := handle_global_config_arguments ns0 in
      match effective_config d ns with
      | Err e => ([], e)
      | Ok c => if ns_flag ns (u "print_config") then ([Line (dump c)], SystemExit 0)
                else main (Ok tt) (func ns c)
      end
    end.
End Main.

(** commands/install.py:57-64: the arguments of the call of [install] ([interactive] keeps its default, True);
    the first component is [all_keys]. *)
Definition install_args (ns : namespace) : bool * Install.options :=
  (ns_flag ns (u "all"),
   {| Install.o_interactive := true; Install.o_reinstall := ns_flag ns (u "reinstall");
      Install.o_simulate := ns_flag ns (u "dry_run"); Install.o_continue := ns_flag ns (u "continue_on_error");
      Install.o_fix := ns_flag ns (u "fix_prerequisites") |}).
(** commands/resolve.py:92-93, 100: [all_keys], and whether the default installer is shown. *)
Definition resolve_args (ns : namespace) : bool * bool :=
  (ns_flag ns (u "all"), ns_flag ns (u "show_default_installer")).
(** commands/update.py:46, commands/_compact_rules_file.py:75 *)
Definition update_args (ns : namespace) : bool := ns_flag ns (u "dry_run").
Definition compact_args (ns : namespace) : bool := ns_flag ns (u "write").
