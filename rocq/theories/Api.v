(** Model of the arguments of the API functions: how configurations, contexts and databases are
    obtained.  config.py:148-184, 299-318; sources/impl.py:206-218, 244-260;
    installers/impl.py:433-449; the first lines of update.py, lookup.py, resolve.py, install.py. *)
From Verif Require Import Base Dict PyVal RulesDict Verify Sources Util Paths Config XylemConfig Directories
  Plugins Installer Resolve Install OsSupport Context Commands.

(** ** Arguments *)
(** A [config] argument: [None], a [ConfigDict], another dict, or something else (that has none of
    the attributes of a configuration). *)
Inductive config_arg :=
| CfgNone
| CfgConfig (c : pydict)
| CfgDict (d : pydict)
| CfgOther.

(** A context argument: [None], an object of the right class, or something else, true or false. *)
Inductive context_arg (C : Type) :=
| CtxNone
| CtxGiven (c : C)
| CtxOther (truth : bool).
Arguments CtxNone {C}.
Arguments CtxGiven {C} _.
Arguments CtxOther {C} _.

(** ** The global configuration, config.py:148-184: its value over time *)
(** The calls of [set_config] and the ways in which [handle_config_arguments] (config.py:218-231)
    ends: with a configuration, which is set, or an exception. *)
Inductive config_event :=
| SetConfig (c : pydict)
| HandleArguments (r : res pydict).

(** config.py:176-184, and the last line of config.py:218-231. *)
Definition config_step (g : pydict) (e : config_event) : pydict :=
  match e with SetConfig c => c | HandleArguments (Ok c) => c | HandleArguments (Err _) => g end.

(** config.py:148-149, 165-173: what [get_config] returns after these events. *)
Definition get_config (d : desc) (l : list config_event) : res pydict :=
  let* g := config_from_defaults d in Ok (fold_left config_step l g).

(** ** Contexts *)
(** sources/impl.py:206-218: the attributes of a [SourcesContext]. *)
Record sources_context := { sc_dir : text; sc_cache : text; sc_specs : list spec }.

(** sources/impl.py:206-218 [SourcesContext(config, spec_plugins)]; [given] are the plugins passed, [eps] the
    entry points. *)
Definition make_sources_context (eps : list (res (definition spec))) (given : list spec) (config : pydict) : res sources_context :=
  let* p := setup_paths config in
  let* specs := match given with
                | [] => let* v := attr2 config (u "disabled_plugins") (u "spec") in
                        let* names := texts_of v in
                        load_plugins (fun sp => Ok (KStr (sp_name sp))) eps names
                | _ => Ok given
                end in
  Ok {| sc_dir := fst p; sc_cache := snd p; sc_specs := specs |}.

(** setup.py:72-74: the entry points of the bundled spec plugins. *)
Definition bundled_spec_eps (uni : N -> bool) (yaml : text -> res pyval) : list (res (definition spec)) :=
  [entry_point uni (fun sp => Ok (KStr (sp_name sp))) (u "rules") (rules_spec uni yaml)].

(** sources/impl.py:244-260 [ensure_sources_context], installers/impl.py:433-449 [ensure_installer_context];
    [make] creates one from the configuration. *)
Definition ensure_context {C} (make : res C) (a : context_arg C) : res C :=
  match a with
  | CtxNone => make
  | CtxGiven c => Ok c
  | CtxOther _ => Err ValueError
  end.

(** [context or Context(config)], update.py:80, lookup.py:30-31; [None]: an object without the
    needed attributes. *)
Definition or_context {C} (make : res C) (a : context_arg C) : res (option C) :=
  match a with
  | CtxNone | CtxOther false => let* c := make in Ok (Some c)
  | CtxGiven c => Ok (Some c)
  | CtxOther true => Ok None
  end.

(** The first use of an attribute of such an object. *)
Definition usable_context {C} (c : option C) : res C :=
  match c with Some c => Ok c | None => Err AttributeError end.

Section Api.
  Context {W : Type}.
  Variable env : penv.
  Variable d : desc.
  (** What [get_config] returns. *)
  Variable g : pydict.
  Variable uni : N -> bool.
  Variable yaml : text -> res pyval.
  Variable sha1 : text -> list N.
  Variable dumps : pyval -> text.
  Variable loads : text -> res pyval.
  Variable version : pyval.
  Variable spec_eps : list (res (definition spec)).
  Variable os_eps : list (res (definition (os_plugin W))).
  Variable inst_eps : list (res (definition (inst_plugin W pydict))).
  (** The directories of source files, and the packaged files. *)
  Variable dirs : text -> dir_state.
  Variable defaults : list (text * text).

  (** config.py:299-318 [ensure_config]. *)
  Definition ensure_config (a : config_arg) : res pydict :=
    match a with
    | CfgNone => Ok g
    | CfgConfig c => Ok c
    | CfgDict x => ensure_config_dict env d x
    | CfgOther => Err ValueError
    end.

  (** update.py:78-80, lookup.py:27-31: the configuration is used as it is; a plain dict has no
      attribute [sources_dir] or [disabled_plugins]. *)
  Definition config_attributes (a : config_arg) : res pydict :=
    match a with
    | CfgNone => Ok g
    | CfgConfig c => Ok c
    | CfgDict _ | CfgOther => Err AttributeError
    end.

  Definition sources_context_of (c : pydict) : res sources_context := make_sources_context spec_eps [] c.

  (** update.py:61-86.  [ensure] is the outcome of [ensure_cache_dir] for a directory. *)
  Definition api_update (dry_run : bool) (config : config_arg) (sctx : context_arg sources_context)
      (ensure : text -> res unit) (envs : nat -> step_env) (f : dict text text) : dict text text * res unit :=
    match (let* o := or_context (let* c := config_attributes config in sources_context_of c) sctx in usable_context o) with
    | Err e => (f, Err e)
    | Ok sc => Sources.update yaml sha1 dumps version dry_run (ensure (sc_cache sc)) (sc_specs sc) (sc_dir sc) (sc_cache sc)
                 (dirs (sc_dir sc)) defaults envs f
    end.

  (** database.py:190-220: [RulesDatabase(sources_context)]. *)
  Definition make_database (sc : sources_context) : res (list source) :=
    init_from_sources yaml sha1 (sc_specs sc) (sc_dir sc) (dirs (sc_dir sc)) defaults.

  (** lookup.py:24-43.  An unusable installer context is taken to raise before the sources are asked. *)
  Definition api_lookup (key : text) (compact : bool) (config : config_arg) (sctx : context_arg sources_context)
      (ictx : context_arg (context W pydict)) (f : dict text text) (w : W) : res pyval :=
    let* so := or_context (let* c := config_attributes config in sources_context_of c) sctx in
    let* io := or_context (let* c := config_attributes config in make_context env c os_eps inst_eps w) ictx in
    let* sc := usable_context so in
    let* l := make_database sc in
    let '(l', _, r) := db_load_from_cache sha1 loads true (sc_cache sc) l f in
    let* _ := r in
    let* ic := usable_context io in
    let* answer := db_lookup uni l' key (cx_ic ic) in
    if compact then raw_compact_installer_dict answer (ic_default (cx_ic ic)) else Err UnboundLocalError.

  (** The mapping [config.install_from]; other values than a mapping of texts to lists of texts are
      outside (an error here). *)
  Definition install_from_of (c : pydict) : res (dict text (list text)) :=
    let* v := attr c (u "install_from") in
    match v with
    | VDict m => mapM (fun p => match fst p with
                                | KStr n => let* ks := names_of (snd p) in Ok (n, ks)
                                | _ => Err TypeError
                                end) m
    | _ => Err AttributeError
    end.

  (** The keys of the database that are texts; verified rules have no others. *)
  Definition text_keys (r : res (list pkey)) : res (list text) :=
    let* ks := r in Ok (flat_map (fun k => match k with KStr s => [s] | _ => [] end) ks).

  (** resolve.py:43-156: lines 52-58 and then [resolve] (Resolve.v).  The mapping is read before the keys are listed
      here; the code does it afterwards. *)
  Definition api_resolve (keys : list text) (all_keys : bool) (config : config_arg) (database : option (list source))
      (sctx : context_arg sources_context) (ictx : context_arg (context W pydict)) (f : dict text text) (w : W)
    : res (list (text * (text * list pydict)) * list (text * exn)) :=
    let* c := ensure_config config in
    let* ic := ensure_context (make_context env c os_eps inst_eps w) ictx in
    let* l := match database with
              | Some l => Ok l
              | None =>
                let* sc := ensure_context (sources_context_of c) sctx in
                let* l := make_database sc in
                let '(l', _, r) := db_load_from_cache sha1 loads true (sc_cache sc) l f in
                let* _ := r in Ok l'
              end in
    let* m := install_from_of c in
    resolve (fun key => db_lookup uni l key (cx_ic ic)) (text_keys (db_keys l (cx_ic ic))) ic m keys all_keys.

  (** install.py:52-111: lines 64-73 and then [install] (Install.v). *)
  Definition api_install (run : cmd -> act W Z) (ansi : dict text text) (keys : list text) (all_keys : bool) (o : options)
      (config : config_arg) (database : option (list source)) (sctx : context_arg sources_context)
      (ictx : context_arg (context W pydict)) (f : dict text text) (w : W)
    : res (list (text * exn) * list exn) * (W * list (event pydict)) :=
    match (let* c := ensure_config config in
           let* ic := ensure_context (make_context env c os_eps inst_eps w) ictx in Ok (c, ic)) with
    | Err e => (Err e, (w, []))
    | Ok (c, ic) =>
      install run ansi ic o (api_resolve keys all_keys (CfgConfig c) database sctx (CtxGiven ic) f w) (w, [])
    end.
End Api.
