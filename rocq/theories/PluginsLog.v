(** What is written to the console about plugins: while they are loaded (plugin_utils.py:131-187), while
    the operating system is detected (os_support/impl.py:356-386), and about unknown options and rule keys
    (installers/installer_base.py:123-158, os_support/os_base.py:88-101).  The definitions of Plugins.v,
    OsSupport.v and Installers.v, with the messages. *)
From Verif Require Import Base Dict PyVal Verify Paths Sources Config XylemConfig Plugins Installers OsSupport Output SourcesLog.

(** ** Loading plugins *)
Section LoadPlugins.
  Context {P : Type}.
  Variable name_of : P -> res pkey.
  (** The kind of plugin and the group of entry points, e.g. "installer" and "xylem.installers". *)
  Variables kind group : text.
  (** [format] of a definition and of a name, and [exc_to_str] of the error of the verification; formatting
      them does not fail here. *)
  Variable show_definition : definition P -> text.
  Variable show_key : pkey -> text.
  Variable show_problem : P -> text.

  (** plugin_utils.py:158-161 with the message of plugin_utils.py:126-128 *)
  Definition said_definition (ep_name : text) (d : definition P) : log_call :=
    Error (Text (u "Skipping " ++ kind ++ u " plugin. Failed to load from '" ++ group ++
                 u "' entry point with name '" ++ ep_name ++ u "':" ++ [nl] ++
                 u "The following definition of " ++ kind ++ u " plugin is invalid:" ++ [nl] ++ show_definition d)).
  (** plugin_utils.py:165-166 *)
  Definition said_disabled (plugin_name : text) : log_call :=
    InfoV (Text (u "Skipping disabled " ++ kind ++ u " plugin '" ++ plugin_name ++ u "'.")).
  (** plugin_utils.py:175-176 *)
  Definition said_invalid (plugin_name : text) (obj : P) : log_call :=
    Error (Text (u "Skipping " ++ kind ++ u " plugin '" ++ plugin_name ++ u "'. Plugin is invalid:" ++ [nl] ++
                 show_problem obj)).
  (** plugin_utils.py:180-181.  The format string uses the field 1 twice, so the name of the object (field 2)
      is not shown. *)
  Definition said_duplicate (plugin_name : text) (obj_name : pkey) : log_call :=
    Warning (Text (u "Ignoring " ++ kind ++ u " plugin '" ++ plugin_name ++ u "' with duplicate name '" ++
                   plugin_name ++ u "'")).
  (** plugin_utils.py:183-184 *)
  Definition said_loaded (plugin_name : text) (obj_name : pkey) : log_call :=
    InfoV (Text (u "Loaded " ++ kind ++ u " plugin '" ++ plugin_name ++ u "' with " ++ kind ++ u " name '" ++
                 show_key obj_name ++ u "'.")).

  (** The body of the loop, plugin_utils.py:153-186; an entry point is its name and what loading it gives. *)
  Definition load_said (disabled : list text) (st : list P * list pkey) (ep : text * res (definition P))
    : list log_call * res (list P * list pkey) :=
    let '(plugin_list, name_set) := st in
    match snd ep with
    | Err e => ([], Err e)
    | Ok d =>
      match verify_plugin_definition d with
      | Err InvalidPluginError => ([said_definition (fst ep) d], Ok st)
      | Err e => ([], Err e)
      | Ok (plugin_name, c) =>
        if mem plugin_name disabled then ([said_disabled plugin_name], Ok st)
        else
          match pc_new c with
          | Err e => ([], Err e)
          | Ok obj =>
            match name_of obj with
            | Err e => ([], Err e)
            | Ok obj_name =>
              match pc_verify c obj with
              | Err InvalidPluginError => ([said_invalid plugin_name obj], Ok st)
              | Err e => ([], Err e)
              | Ok _ =>
                if mem obj_name name_set then ([said_duplicate plugin_name obj_name], Ok st)
                else ([said_loaded plugin_name obj_name], Ok (plugin_list ++ [obj], obj_name :: name_set))
              end
            end
          end
      end
    end.

  Fixpoint load_loop (disabled : list text) (eps : list (text * res (definition P))) (st : list P * list pkey)
    : list log_call * res (list P * list pkey) :=
    match eps with
    | [] => ([], Ok st)
    | ep :: eps' =>
      match load_said disabled st ep with
      | (said, Err e) => (said, Err e)
      | (said, Ok st') => let (said', r) := load_loop disabled eps' st' in (said ++ said', r)
      end
    end.

  (** plugin_utils.py:131-187 [load_plugins] *)
  Definition load_plugins_run (eps : list (text * res (definition P))) (disabled : list text)
    : list log_call * res (list P) :=
    let (said, r) := load_loop disabled eps ([], []) in (said, let* st := r in Ok (fst st)).
End LoadPlugins.

(** ** Detection of the operating system *)
Section Detect.
  Context {W : Type}.

  (** os_support/impl.py:380-381 *)
  Definition said_ignored (o r : os_plugin W) : log_call :=
    Warning (Text (u "ignoring detection of OS '" ++ os_name o ++ u "'; '" ++ os_name r ++ u "' already detected")).

  (** os_support/impl.py:367-381 *)
  Fixpoint detect_said (result : option (os_plugin W)) (plugins : list (os_plugin W)) (w : W)
    : list log_call * res (option (os_plugin W)) :=
    match plugins with
    | [] => ([], Ok result)
    | o :: rest =>
      match os_is o w with
      | Err e => ([], Err e)
      | Ok false => detect_said result rest w
      | Ok true =>
        match result with
        | None => detect_said (Some o) rest w
        | Some r =>
          if mem (os_name o) (os_all_names r) then detect_said (Some r) rest w
          else if mem (os_name r) (os_all_names o) then detect_said (Some o) rest w
          else let (said, x) := detect_said (Some r) rest w in (said_ignored o r :: said, x)
        end
      end
    end.

  (** os_support/impl.py:356-386 [detect_os] *)
  Definition detect_run (s : os_support W) (w : W) : list log_call * (res unit * os_support W) :=
    let (said, r) := detect_said None (s_plugins s) w in
    (said, match r with
           | Err e => (Err e, s)
           | Ok None => (Err UnsupportedOSError, s)
           | Ok (Some o) => (Ok tt, with_os s (Plugin o))
           end).
End Detect.

(** ** Unknown options and rule keys *)
Section Unknown.
  Variable env : penv.
  (** [to_str] of a list of keys; the order of [list(set)] and the iteration order of a dict are inside. *)
  Variable show_keys : list pkey -> text.
  Variable show : pyval -> text.

  (** [set(value.keys()) - set(options.keys())] *)
  Definition unused_keys (value options : pydict) : list pkey := filter (fun k => negb (has k options)) (keys value).

  Definition warn_unless_empty (unused : list pkey) (m : text) : list log_call :=
    match unused with [] => [] | _ => [Warning (Text m)] end.

  (** installers/installer_base.py:123-137 and os_support/os_base.py:88-101; [whose] is "installer" or
      "os plugin", [name] the name of the plugin. *)
  Definition set_options_run (whose name : text) (d : desc) (value : pyval) : list log_call * res pydict :=
    match value with
    | VDict v =>
      match config_from_parsed_yaml env v d true with
      | Err e => ([], Err e)
      | Ok c =>
        (warn_unless_empty (unused_keys v c)
           (u "ignoring the following unknown options for " ++ whose ++ u " '" ++ name ++ u "': " ++
            show_keys (unused_keys v c) ++ u " -- known options are: " ++ show_keys (keys c)), Ok c)
      end
    | _ => ([], Err AttributeError)
    end.

  (** installers/installer_base.py:142-158 [_parse_installer_rule] *)
  Definition parse_rule_run (name : text) (d : desc) (rule : pyval) : list log_call * res pydict :=
    match rule with
    | VDict r =>
      match config_from_parsed_yaml env r d true with
      | Err ConfigValueError => ([], Err InvalidRuleError)
      | Err e => ([], Err e)
      | Ok c =>
        match unused_keys r c with
        | [] => ([], Ok c)
        | unused =>
          match get (KStr (u "packages")) c with
          | None => ([], Err AttributeError)
          | Some p =>
            ([Warning (Text (u "ignoring the following unknown installer rule keys for installer '" ++ name ++
                             u "' while parsing installer rule with packages " ++ show p ++ u ": " ++
                             show_keys unused))], Ok c)
          end
        end
      end
    | _ => ([], Err AttributeError)
    end.
End Unknown.
