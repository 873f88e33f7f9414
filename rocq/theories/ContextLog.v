(** [InstallerContext(config)] with what it writes to the console: xylem/installers/impl.py:255-289 and 386-430.
    The definitions of Context.v, with the messages; those about plugins, detection and unknown options are in
    PluginsLog.v. *)
From Verif Require Import Base Dict PyVal Sources Util Paths Config XylemConfig Installer Installers Plugins OsSupport Context
  Output SourcesLog PluginsLog.

Section ContextLog.
  Context {W R : Type}.
  Variable env : penv.
  (** How definitions, names, problems and lists of keys are shown. *)
  Variable show_os_definition : definition (os_plugin W) -> text.
  Variable show_inst_definition : definition (inst_plugin W R) -> text.
  Variable show_key : pkey -> text.
  Variable show_os_problem : os_plugin W -> text.
  Variable show_inst_problem : inst_plugin W R -> text.
  Variable show_keys : list pkey -> text.
  (** The declared options of an installer plugin, installer_base.py:110-115. *)
  Variable describes : inst_plugin W R -> desc.

  Definition comma : text := u ", ".

  (** impl.py:285; a version that is not given is shown as None. *)
  Definition said_overriding (t : text * option text) : log_call :=
    InfoV (Text (u "overriding OS to [" ++ fst t ++ u ":" ++
                 match snd t with Some v => v | None => u "None" end ++ u "]")).
  (** impl.py:283 and 288 *)
  Definition said_detected (what : text) (t : text * text) : log_call :=
    InfoV (Text (u "detected OS" ++ what ++ u " [" ++ fst t ++ u ":" ++ snd t ++ u "]")).
  (** impl.py:405-412 *)
  Definition said_core (from : text) (names : list text) : log_call :=
    InfoV (Text (u "setting up core installers from " ++ from ++ u ": '" ++ join comma names ++ u "'")).
  (** impl.py:417-418 *)
  Definition said_no_core (name : text) : log_call :=
    Error (Text (u "ignoring core installer '" ++ name ++ u "'; according plugin was not found")).
  (** impl.py:429-430 *)
  Definition said_additional (names : list text) : log_call :=
    InfoV (Text (u "Using additional installers: '" ++ join comma names ++ u "'")).

  (** impl.py:289, with os_base.py:88-101 *)
  Definition os_options_run (config : pydict) (x : os_object W) : list log_call * res (os_object W * pydict) :=
    match attr config (u "os_options") with
    | Err e => ([], Err e)
    | Ok oo =>
      let (said, r) := set_options_run env show_keys (u "os plugin") (obj_name x) (os_options_description (delegate x)) oo in
      (said, let* o := r in Ok (x, o))
    end.

  (** [setup_os], impl.py:272-289 *)
  Definition setup_os_run (config : pydict) (plugins : list (os_plugin W)) (w : W)
    : list log_call * res (os_object W * pydict) :=
    let s := {| s_plugins := plugins; s_os := None |} in
    match attr config (u "os_override") with
    | Err e => ([], Err e)
    | Ok VNone =>
      let (said, rs) := detect_run s w in
      match (let* _ := fst rs in let* x := fst (current_os (snd rs) w) in let* t := obj_tuple x w in Ok (x, t)) with
      | Err e => (said, Err e)
      | Ok (x, t) => let (said', r) := os_options_run config x in (said ++ [said_detected [] t] ++ said', r)
      end
    | Ok ov =>
      match override_tuple ov with
      | Err e => ([], Err e)
      | Ok t =>
        let (r, s) := override_os s (Some t) w in
        match (let* _ := r in let* x := fst (current_os s w) in let* t' := obj_tuple x w in Ok (x, t')) with
        | Err e => ([said_overriding t], Err e)
        | Ok (x, t') =>
          let (said', r) := os_options_run config x in
          ([said_overriding t] ++ match snd t with None => [said_detected (u " version") t'] | Some _ => [] end ++ said', r)
        end
      end
    end.

  (** impl.py:399-401, with installer_base.py:123-137; the name in the warning is the one with the new options. *)
  Definition set_options_said (p : inst_plugin W R) (v : pyval) : list log_call :=
    match ip_set_options p v with
    | Ok i => fst (set_options_run env show_keys (u "installer") (in_name i) (describes p) v)
    | Err _ => []
    end.
  Fixpoint configure_run (d : pydict) (plugins : list (inst_plugin W R)) : list log_call * res (list (installer W R)) :=
    match plugins with
    | [] => ([], Ok [])
    | p :: rest =>
      let v := match get (KStr (ip_name p)) d with Some v => v | None => VDict [] end in
      match ip_set_options p v with
      | Err e => ([], Err e)
      | Ok i =>
        let (said, r) := configure_run d rest in
        (set_options_said p v ++ said, let* l := r in Ok (i :: l))
      end
    end.
  Definition configure_installers_run (config : pydict) (plugins : list (inst_plugin W R))
    : list log_call * res (list (installer W R)) :=
    match attr config (u "installer_options") with
    | Err e => ([], Err e)
    | Ok (VDict d) => configure_run d plugins
    | Ok _ => ([], match plugins with [] => Ok [] | _ => Err AttributeError end)
    end.

  (** impl.py:403-412 *)
  Definition core_names_run (config : pydict) (x : os_object W) (version : text) (os_options : pydict)
    : list log_call * res (list text) :=
    match attr config (u "core_installers") with
    | Err e => ([], Err e)
    | Ok VNone =>
      let names := os_core (delegate x) version os_options in
      ([said_core (u "os plugin") names], Ok names)
    | Ok c =>
      match names_of c with
      | Err e => ([], Err e)
      | Ok names => ([said_core (u "config") names], Ok names)
      end
    end.

  (** impl.py:414-420 *)
  Definition missing_said (insts : list (installer W R)) (names : list text) : list log_call :=
    flat_map (fun n => match find_index (fun i => eqb (in_name i) n) insts with Some _ => [] | None => [said_no_core n] end) names.

  (** [setup_installers], impl.py:386-430 *)
  Definition setup_installers_run (config : pydict) (x : os_object W) (os_options : pydict)
    (plugins : list (inst_plugin W R)) (w : W) : list log_call * res (context W R) :=
    match obj_tuple x w with
    | Err e => ([], Err e)
    | Ok (os, version) =>
      let (said1, r1) := configure_installers_run config plugins in
      match r1 with
      | Err e => (said1, Err e)
      | Ok insts =>
        let (said2, r2) := core_names_run config x version os_options in
        match r2 with
        | Err e => (said1 ++ said2, Err e)
        | Ok names =>
          let said3 := missing_said insts names in
          match attr config (u "use_additional_installers") with
          | Err e => (said1 ++ said2 ++ said3, Err e)
          | Ok ua =>
            let core := core_indices insts names in
            let additional := at_indices insts (if truthy ua then additional_indices insts core else []) in
            (said1 ++ said2 ++ said3 ++ [said_additional (map in_name additional)],
             Ok {| cx_ic := {| ic_os := os; ic_version := version; ic_default := os_default (delegate x) |};
                   cx_plugins := insts;
                   cx_core := at_indices insts core;
                   cx_additional := additional |})
          end
        end
      end
    end.

  (** [InstallerContext(config)], impl.py:255-270; entry points with their names. *)
  Definition make_context_run (config : pydict) (os_eps : list (text * res (definition (os_plugin W))))
    (inst_eps : list (text * res (definition (inst_plugin W R)))) (w : W) : list log_call * res (context W R) :=
    match (let* v := attr2 config (u "disabled_plugins") (u "os") in texts_of v) with
    | Err e => ([], Err e)
    | Ok dos =>
      let (said1, r1) := load_plugins_run (fun o => Ok (KStr (os_name o))) (u "os") (u "xylem.os")
                           show_os_definition show_key show_os_problem os_eps dos in
      match r1 with
      | Err e => (said1, Err e)
      | Ok oses =>
        let (said2, r2) := setup_os_run config oses w in
        match r2 with
        | Err e => (said1 ++ said2, Err e)
        | Ok xo =>
          match (let* v := attr2 config (u "disabled_plugins") (u "installer") in texts_of v) with
          | Err e => (said1 ++ said2, Err e)
          | Ok di =>
            let (said3, r3) := load_plugins_run (fun i => Ok (KStr (ip_name i))) (u "installer") (u "xylem.installers")
                                 show_inst_definition show_key show_inst_problem inst_eps di in
            match r3 with
            | Err e => (said1 ++ said2 ++ said3, Err e)
            | Ok insts =>
              let (said4, r4) := setup_installers_run config (fst xo) (snd xo) insts w in
              (said1 ++ said2 ++ said3 ++ said4, r4)
            end
          end
        end
      end
    end.
End ContextLog.
