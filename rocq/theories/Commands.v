(** Model of the command line: xylem/lookup.py, xylem/commands/*.py. *)
From Verif Require Import Base Dict PyVal RulesDict Verify Sources Util Installer Resolve Install Expand Compact.

(** *** Errors and exit codes *)

(** Subclasses of [XylemError] (xylem/exception.py:40-49; the classes named in
    config_utils.py:131-150, rules.py:335, installers/impl.py:42-55,
    plugin_utils.py:33, install.py:42, resolve.py:38, sources/impl.py:192,
    os_support/impl.py:37-50, load_url.py:31). *)
Definition is_XylemError (e : exn) : bool :=
  match e with
  | XylemError | XylemInternalError | ResolutionError | InstallError | InstallerError
  | InvalidRuleError | InstallerPrerequisiteError | SpecParsingError | UnknownSpecError
  | DownloadFailure | InvalidPluginError | ConfigValueError | ConfigDescriptionError
  | UnsupportedOSError | UnsupportedOSVersionError => true
  | _ => false
  end.

(** What a command prints: a line on stdout ([info]), or a report of errors on stderr
    ([error] or [print_exc]; the text of exceptions is in Reports.v). *)
Inductive output := Line (t : text) | ErrorReport (es : list exn).

(** A run of a command: what it printed and how it ended. *)
Notation run_of A := (list output * res A)%type.

(** [except (KeyboardInterrupt, EOFError): info(''); sys.exit(1)], the last lines of
    every command (commands/resolve.py:111-113, commands/install.py:75-77,
    commands/lookup.py:55-58, commands/update.py:47-49). *)
Definition exit_on_interrupt {A} (r : run_of A) : run_of A :=
  match snd r with
  | Err KeyboardInterrupt | Err EOFError => (fst r ++ [Line []], Err (SystemExit 1))
  | _ => r
  end.

(** commands/main.py:126-156 from line 142 on.  [parse] is the outcome of building the
    parsers, parsing and handling global and configuration arguments (lines 127-140;
    argparse itself leaves with SystemExit 2 on wrong usage and SystemExit 0 for
    --help); [func] the run of the selected command, which returns None.  The result
    is the exception that leaves the process. *)
Definition main (parse : res unit) (func : run_of unit) : list output * exn :=
  match parse with
  | Err e => ([], e)
  | Ok _ =>
    let '(out, x) := func in
    match x with
    | Ok _ => (out, SystemExit 0)
    | Err KeyboardInterrupt | Err EOFError => (out ++ [Line []], SystemExit 1)
    | Err e => if is_XylemError e then (out ++ [ErrorReport [e]], SystemExit 1) else (out, e)
    end
  end.

(** Exit status of the interpreter: that of SystemExit modulo 256, 1 for any other
    uncaught exception. *)
Definition process_status (e : exn) : Z :=
  match e with SystemExit c => (c mod 256)%Z | _ => 1%Z end.

(** *** Command plugins, commands/main.py:46-74, 87-108 *)
Section CommandPlugins.
  Context {D : Type}.
  (** An entry point: its name, and what loading it gives: a dict, another object, or
      an exception. *)
  Record command_ep := { ce_name : text; ce_load : res (option D) }.

  (** commands/main.py:46-50 [list_commands] *)
  Definition list_commands (eps : list command_ep) : list text := map ce_name eps.

  (** commands/main.py:53-61 [load_command_definition] *)
  Definition load_command_definition (eps : list command_ep) (name : text) : res (option D) :=
    match find (fun e => eqb (ce_name e) name) eps with
    | Some e => ce_load e
    | None => Ok None
    end.

  (** [del cmds[cmds.index(cmd)]] *)
  Fixpoint remove_first (a : text) (l : list text) : list text :=
    match l with [] => [] | x :: l' => if eqb a x then l' else x :: remove_first a l' end.

  (** commands/main.py:88-95: the loop over a copy of [cmds]; returns the definitions and the
      commands left. *)
  Fixpoint load_definitions (eps : list command_ep) (todo cmds : list text) : res (list D * list text) :=
    match todo with
    | [] => Ok ([], cmds)
    | c :: todo' =>
      let* d := load_command_definition eps c in
      match d with
      | None => load_definitions eps todo' (remove_first c cmds)
      | Some d => let* '(ds, cmds') := load_definitions eps todo' cmds in Ok (d :: ds, cmds')
      end
    end.

  (** commands/main.py:98: the commands shown in the usage. *)
  Definition public_cmds (cmds : list text) : list text :=
    filter (fun c => negb (is_prefix (u "_") c)) cmds.

  (** commands/main.py:87-108: definitions added as subparsers. *)
  Definition create_subparsers (eps : list command_ep) : res (list D * list text) :=
    let* '(ds, cmds) := load_definitions eps (list_commands eps) (list_commands eps) in
    Ok (ds, public_cmds cmds).

  (** commands/main.py:64-74 [create_command_parser]: builds a parser (its own failures are not modelled) and
      has no return statement: the result is None. *)
  Definition create_command_parser {P} : option P := None.
  (** [parser.parse_args()] *)
  Definition parse_args_of {P A} (parse : P -> res A) (parser : option P) : res A :=
    match parser with Some p => parse p | None => Err AttributeError end.

  (** commands/main.py:77-84 [command_handle_args]: without arguments from the main parser (console script
      xylem-update, setup.py:63) a parser of its own is created; [parse] is the parsing of the command line
      with it. *)
  Definition command_handle_args {P A} (parse : P -> res A) (args : option A) : res A :=
    match args with Some a => Ok a | None => parse_args_of parse create_command_parser end.
End CommandPlugins.
Arguments command_ep : clear implicits.

(** *** lookup.py *)

(** Python's [len]; defined for texts, lists and dicts here. *)
Definition py_len (v : pyval) : res nat :=
  match v with
  | VStr s => Ok (List.length s)
  | VList l => Ok (List.length l)
  | VDict d => Ok (List.length d)
  | _ => Err TypeError
  end.

(** rules.py:453-466 on any value. *)
Definition raw_compact_rule (v : pyval) : res pyval :=
  let* b := text_in (u "packages") v in
  if b then
    let* n := py_len v in
    if Nat.eqb n 1 then
      match v with
      | VDict d => match get k_packages d with Some x => Ok x | None => Err KeyError end
      | _ => Err TypeError
      end
    else Ok v
  else Ok v.

(** rules.py:475-484 *)
Definition raw_compact_rename (result : pydict) (def : option text) : res (pydict * text) :=
  match def with
  | Some (c :: n) =>
    match get (KStr default_installer) result with
    | Some rule => if has (KStr (c :: n)) result then Err ValueError
                   else Ok (del (KStr default_installer) (set (KStr (c :: n)) rule result), c :: n)
    | None => Ok (result, c :: n)
    end
  | _ => Ok (result, default_installer)
  end.

(** rules.py:469-491 on any dict. *)
Definition raw_compact_installer_dict (d : pydict) (def : option text) : res pyval :=
  let* result := mapM (fun p => let* c := raw_compact_rule (snd p) in Ok (fst p, c)) d in
  let* '(result, key) := raw_compact_rename result def in
  match get (KStr key) result with
  | Some rule =>
    if Nat.eqb (List.length result) 1 && negb (match rule with VDict _ => true | _ => false end)
    then Ok rule else Ok (VDict result)
  | None => Ok (VDict result)
  end.

Section Lookup.
  Variable uni_word : N -> bool.
  Variable sha1 : text -> list N.
  Variable loads : text -> res pyval.

  (** lookup.py:24-43.  [sources]: the sources of the context (or the error of
      creating it, line 30); the database raises on the first unreadable cache.
      Without [compact] the variable [compacted] is unbound in line 43. *)
  Definition lookup (sources : res (list source)) (cache_dir : text) (f : dict text text) (ic : ictx)
      (xylem_key : text) (compact : bool) : res pyval :=
    let* l := sources in
    let '(l', _, r) := db_load_from_cache sha1 loads true cache_dir l f in
    let* _ := r in
    let* d := db_lookup uni_word l' xylem_key ic in
    if compact then raw_compact_installer_dict d (ic_default ic) else Err UnboundLocalError.

  (** commands/lookup.py:42-58.  [dump] is [dump_yaml]; its last character (a newline)
      is cut off.  [ic_string] is the os string of the context. *)
  Variable ansi : text -> text.
  Variable dump : pyval -> text.

  Definition rules_line (os_string key : text) (v : pyval) : text :=
    u "Rules for '" ++ ansi (u "cyanf") ++ key ++ ansi (u "reset") ++ u "' on '" ++
    ansi (u "cyanf") ++ os_string ++ ansi (u "reset") ++ u "':" ++ [10%N] ++
    ansi (u "yellowf") ++ removelast (dump v).

  Fixpoint lookup_loop (look : text -> res pyval) (os_string : text) (keys : list text) : run_of unit :=
    match keys with
    | [] => ([], Ok tt)
    | k :: keys' =>
      match look k with
      | Err e => ([], Err e)
      | Ok v => let '(out, x) := lookup_loop look os_string keys' in
                (Line (rules_line os_string k v) :: out, x)
      end
    end.

  (** [ctx]: the installer context with its os string, or the error of creating it. *)
  Definition lookup_command (ctx : res (ictx * text)) (sources : res (list source)) (cache_dir : text)
      (f : dict text text) (keys : list text) : run_of unit :=
    exit_on_interrupt
      match ctx with
      | Err e => ([], Err e)
      | Ok (ic, os_string) => lookup_loop (fun k => lookup sources cache_dir f ic k true) os_string keys
      end.
End Lookup.

(** *** commands/resolve.py:87-113 *)
Section ResolveCommand.
  Context {W R : Type}.
  Variable ansi : text -> text.
  (** [to_str] of a resolution. *)
  Variable show : R -> text.

  Fixpoint join (sep : text) (l : list text) : text :=
    match l with [] => [] | [x] => x | x :: l' => x ++ sep ++ join sep l' end.

  (** commands/resolve.py:98-108 *)
  Definition result_line (default : option text) (show_default : bool) (r : text * (text * list R)) : text :=
    let '(key, (installer, rs)) := r in
    let installer_string :=
      if negb (eqb (Some installer) default) || show_default then installer ++ u ": " else [] in
    ansi (u "cyanf") ++ key ++ ansi (u "reset") ++ u " --> " ++ ansi (u "bluef") ++ installer_string ++
    ansi (u "yellowf") ++ join (u ", ") (map show rs).

  (** [ctx]: the default installer of the context or the error of creating it;
      [resolved] the outcome of [resolve]. *)
  Definition resolve_command (show_default : bool) (ctx : res (option text))
      (resolved : res (list (text * (text * list R)) * list (text * exn))) : run_of unit :=
    exit_on_interrupt
      match ctx with
      | Err e => ([], Err e)
      | Ok default =>
        match resolved with
        | Err e => ([], Err e)
        | Ok (results, errors) =>
          let out := (match errors with [] => [] | _ => [ErrorReport (map snd errors)] end) ++
                     map (fun r => Line (result_line default show_default r)) results in
          (out, match errors with [] => Ok tt | _ => Err (SystemExit 1) end)
        end
      end.
End ResolveCommand.

(** *** commands/install.py:53-77; [installed] is the outcome of [install]. *)
Definition install_command (installed : res (list (text * exn) * list exn)) : run_of unit :=
  exit_on_interrupt
    match installed with
    | Err e => ([], Err e)
    | Ok (resolve_errors, install_errors) =>
      ((match resolve_errors with [] => [] | _ => [ErrorReport (map snd resolve_errors)] end) ++
       (match install_errors with [] => [] | _ => [ErrorReport install_errors] end),
       match resolve_errors, install_errors with [], [] => Ok tt | _, _ => Err (SystemExit 1) end)
    end.

(** *** commands/update.py:43-49. *)

(** The errors of single sources that [RulesDatabase.update] reports and goes on
    (database.py:290-308 with [raise_on_error] off); companion of [for_sources]. *)
Fixpoint reported_failures (body : nat -> source -> dict text text -> source * dict text text * res unit)
    (i : nat) (l : list source) (f : dict text text) : list exn :=
  match l with
  | [] => []
  | s :: l' =>
    let '(_, f', r) := body i s f in
    match r with
    | Ok _ => reported_failures body (S i) l' f'
    | Err e => if is_Exception e then e :: reported_failures body (S i) l' f' else []
    end
  end.

(** [ensure], [sources]: outcome of update.py:78-82; then the database is updated. *)
Definition update_command (sha1 : text -> list N) (dumps : pyval -> text) (version : pyval)
    (ensure : res unit) (sources : res (list source)) (envs : nat -> step_env) (cache_dir : text)
    (f : dict text text) : run_of unit :=
  exit_on_interrupt
    match (let* _ := ensure in sources) with
    | Err e => ([], Err e)
    | Ok l =>
      let failures := reported_failures (update_source sha1 dumps version envs cache_dir) 0 l f in
      (match failures with [] => [] | _ => [ErrorReport failures] end,
       snd (db_update sha1 dumps version envs false cache_dir l f))
    end.

(** commands/update.py:43-45 with arguments from the main parser or without; [dry_run] is ignored by
    [update] (C56).  Returns the files, and what is printed. *)
Definition update_main {P} (parse : P -> res bool) (args : option bool) (sha1 : text -> list N) (dumps : pyval -> text)
    (version : pyval) (ensure : res unit) (sources : res (list source)) (envs : nat -> step_env) (cache_dir : text)
    (f : dict text text) : dict text text * run_of unit :=
  match command_handle_args parse args with
  | Err e => (f, ([], Err e))
  | Ok _ =>
    (match (let* _ := ensure in sources) with
     | Err _ => f
     | Ok l => snd (fst (db_update sha1 dumps version envs false cache_dir l f))
     end, update_command sha1 dumps version ensure sources envs cache_dir f)
  end.

(** *** commands/_compact_rules_file.py:56-81 *)

(** The typed view of a rules dict; defined for every dict that passes verification. *)
Fixpoint opt_map {A B} (f : A -> option B) (l : list A) : option (list B) :=
  match l with
  | [] => Some []
  | x :: l' => match f x, opt_map f l' with Some y, Some ys => Some (y :: ys) | _, _ => None end
  end.
Definition out_dict {V} (g : pyval -> option V) (v : pyval) : option (dict text V) :=
  match v with
  | VDict d => opt_map (fun p : pkey * pyval =>
                 match fst p with
                 | KStr k => match g (snd p) with Some x => Some (k, x) | None => None end
                 | _ => None
                 end) d
  | _ => None
  end.
Definition out_rules : pyval -> option (rules_dict pyval) :=
  out_dict (out_dict (out_dict (out_dict (fun x => Some x)))).

(** commands/_compact_rules_file.py:59-71.  A file is its decoded text ([to_str] replaces malformed bytes, which
    is not modelled). *)
Definition compacted_file (uni_word : N -> bool) (yaml : text -> res pyval) (defs : dict text (option text))
    (content : option text) : res pyval :=
  let* t := match content with Some t => Ok t | None => Err IOError end in
  let* v := yaml t in
  let* v := expand_rules v in
  let* _ := verify_rules_dict uni_word v true in
  match out_rules v with
  | Some r => compact_rules r defs
  | None => Err AttributeError
  end.

(** The whole command.  The file is opened for writing (and thereby truncated) only
    after everything else; [wo] is the fate of that write. *)
Definition compact_rules_file (uni_word : N -> bool) (yaml : text -> res pyval) (dump : pyval -> text)
    (defs : dict text (option text)) (write : bool) (wo : write_outcome) (path : text) (f : dict text text)
  : dict text text * run_of unit :=
  match compacted_file uni_word yaml defs (get path f) with
  | Err KeyboardInterrupt | Err EOFError => (f, ([], Err (SystemExit 1)))
  | Err e => (f, ([], Err e))
  | Ok c =>
    if write then
      match wo with
      | WriteOk => (set path (dump c) f, ([], Ok tt))
      | OpenFails e => (f, ([], Err e))
      | WriteFails n e => (set path (firstn n (dump c)) f, ([], Err e))
      end
    else (f, ([Line (dump c)], Ok tt))
  end.
