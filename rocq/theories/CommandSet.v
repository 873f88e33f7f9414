(** Model of commands/main.py:46-156 for a whole set of command plugins: one parser per command definition, the
    configuration description they share, and the dispatch by name.  Simplifications: options are long options
    given as occurrences (CommandLine.v); a definition is a dict with all five keys and an ASCII title, and
    [prepare_arguments] returns None and only adds options. *)
From Verif Require Import Base Dict PyVal RulesDict Verify Paths Sources Config XylemConfig Commands CommandLine.

(** A command definition, e.g. commands/update.py:53-59: title, options added by [prepare_arguments], the effect of
    [prepare_config] on the description, and [main]. *)
Record command_def := {
  cd_title : text;
  cd_own : list opt;
  cd_config : desc -> res desc;
  cd_main : namespace -> pydict -> run_of unit
}.

(** [argparse.ArgumentError], raised when an option is added to a parser that has the flag already. *)
Definition ArgumentError : exn := OtherError 1%N.
Definition help_flags : list text := [u "help"; u "version"].

(** The calls of [add_argument] for one parser. *)
Definition parser_of (opts : list opt) : res (list opt) :=
  if distinct (map o_flag opts ++ help_flags) then Ok opts else Err ArgumentError.

(** commands/main.py:64-74 [create_command_parser]: lines 70, 72, 73-74. *)
Definition command_parser (d : desc) (cd : command_def) : res (desc * list opt) :=
  let* d' := cd_config cd d in
  let* p := parser_of (command_options d' (cd_own cd)) in
  Ok (d', p).

(** What the subparsers action knows: name -> parser with [func] ([add_parser] of python 2.7 silently replaces the
    parser of a name). *)
Definition parsers := dict text (list opt * (namespace -> pydict -> run_of unit)).

(** commands/main.py:107-108 *)
Definition add_command (s : desc * parsers) (cd : command_def) : res (desc * parsers) :=
  let* '(d, p) := command_parser (fst s) cd in
  Ok (d, set (cd_title cd) (p, cd_main cd) (snd s)).
Definition add_commands (cds : list command_def) (d : desc) : res (desc * parsers) :=
  foldM add_command cds (d, []).

Section Xylem.
  Variable env : penv.
  Variable environ : dict text text.
  Variable yaml : text -> res pyval.
  Variable file : text -> option (res text).

  (** commands/main.py:126-156 for [xylem BEFORE... NAME AFTER...]; [d] is the description before any command was
      prepared.  A name without parser is a usage error. *)
  Definition xylem (fresh : bool) (d : desc) (eps : list (command_ep command_def)) (dump : pydict -> text)
      (before : list occurrence) (name : text) (after : list occurrence) : list output * exn :=
    match (let* top := parser_of (main_options d) in
           let* '(cds, _) := create_subparsers eps in
           let* '(d', ps) := add_commands cds d in Ok (top, d', ps)) with
    | Err e => ([], e)
    | Ok (top, d', ps) =>
      match get name ps with
      | None => ([], SystemExit 2)
      | Some (sub, func) =>
        match parse_command_line fresh top sub before after with
        | Err e => ([], e)
        | Ok ns0 =>
          let ns := handle_global_config_arguments env environ ns0 in
          match effective_config env yaml file d' ns with
          | Err e => ([], e)
          | Ok c => if ns_flag ns (u "print_config") then ([Line (dump c)], SystemExit 0)
                    else main (Ok tt) (func ns c)
          end
        end
      end
    end.
End Xylem.

(** setup.py:65-71 and the definitions at the end of the modules in commands/: the bundled commands; the functions
    behind them are arguments. *)
Definition bundled_command (title : text) (own : list opt) (func : namespace -> pydict -> run_of unit) : command_ep command_def :=
  {| ce_name := title;
     ce_load := Ok (Some {| cd_title := title; cd_own := own; cd_config := fun d => Ok d; cd_main := func |}) |}.
Definition bundled_commands (update resolve lookup install compact : namespace -> pydict -> run_of unit) : list (command_ep command_def) :=
  [ bundled_command (u "update") update_options update;
    bundled_command (u "resolve") resolve_options resolve;
    bundled_command (u "lookup") [] lookup;
    bundled_command (u "install") install_options install;
    bundled_command (u "_compact_rules_file") compact_options compact ].
