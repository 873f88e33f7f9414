(** What the database of rules writes to the console while it is set up and updated:
    sources/impl.py:63-144, sources/database.py:190-220 and 273-308, update.py:61-86.  The definitions
    of Sources.v, with the messages. *)
From Verif Require Import Base Dict PyVal RulesDict Verify Paths Sources Config XylemConfig Directories Output.
From Coq Require Import Lia.
Notation S := Datatypes.S.

Section SourcesLog.
  Variable yaml : text -> res pyval.
  Variable sha1 : text -> list N.
  Variable dumps : pyval -> text.
  Variable xylem_version : pyval.
  (** [format] of a value. *)
  Variable show : pyval -> text.
  (** The position (line and column, from 1) and the text of a YAML error.  The text can always be
      produced here. *)
  Variable yaml_position : text -> option (text * text).
  Variable yaml_message : text -> text.
  (** [format] (and [to_str]) of the exception of step [i].  In python 2 this fails if the message has
      bytes that are not ASCII. *)
  Variable show_exn : nat -> exn -> res text.

  Definition quoted (before : string) (t : text) (after : string) : text := u before ++ t ++ u after.

  (** ** Setting up the database *)
  (** sources/impl.py:129-143 *)
  Definition invalid_yaml (file data : text) : log_call :=
    Error (Text (match yaml_position data with
                 | Some (line, col) => quoted "Invalid YAML in source list file '" file "' at '" ++ line ++ u ":" ++ col ++ u "':" ++ [10%N]
                 | None => quoted "Invalid YAML in source list file '" file "':" ++ [10%N]
                 end ++ yaml_message data)).

  (** sources/impl.py:117-144 [parse_source_descriptions] *)
  Definition parse_run (file data : text) : list log_call * res pyval :=
    match (let* v := yaml data in let* _ := verify_source_description_list v in Ok v) with
    | Err YAMLError => ([invalid_yaml file data], Ok (VList []))
    | r => ([], r)
    end.

  (** database.py:211-219: one file *)
  Definition file_run (specs : list spec) (p : text * res text) : list log_call * res (list source) :=
    match snd p with
    | Err e => ([], Err e)
    | Ok data =>
      let (said, r) := parse_run (fst p) data in
      (said, let* d := r in mapM (init_source specs (fst p)) (descr_items d))
    end.

  Fixpoint files_run (specs : list spec) (files : list (text * res text)) : list log_call * res (list source) :=
    match files with
    | [] => ([], Ok [])
    | p :: files' =>
      let (said, r) := file_run specs p in
      match r with
      | Err e => (said, Err e)
      | Ok l => let (said', r') := files_run specs files' in
                (said ++ said', let* l' := r' in Ok (l ++ l'))
      end
    end.

  (** database.py:197-220 [init_from_sources] with sources/impl.py:70-73; [dirs] are the sources and the
      cache directory of the context. *)
  Definition init_run (verbose : bool) (specs : list spec) (dirs : text * text) (st : dir_state)
      (defaults : list (text * text)) : list log_call * res (list source) :=
    let said0 := [Debug (Text (quoted "initializing database with sources dir `" (fst dirs) "` and cache dir `" ++ snd dirs ++ u "`"))] in
    let said1 := match st with
                 | Missing => []
                 | _ => if verbose then [Info (Text (quoted "Loading source urls from '" (fst dirs) "'"))] else []
                 end in
    match get_source_files (fst dirs) st with
    | Err e => (said0 ++ said1, Err e)
    | Ok g =>
      let said2 := match g with
                   | Some _ => []
                   | None => (if is_default_dirs dirs then []
                              else [Warning (Text (quoted "no source files found in source dir '" (fst dirs) "'; using default sources"))]) ++
                             (if verbose then [Info (Text (u "Loading default source urls"))] else [])
                   end in
      let (said3, r) := files_run specs (match g with Some l => l | None => default_source_files defaults end) in
      (said0 ++ said1 ++ said2 ++ said3,
       let* l := r in let* _ := verify_unique_ids sha1 l in Ok l)
    end.

  (** ** Updating the database *)
  (** database.py:283-289; [seen] are the origins met before. *)
  Definition announce (seen : list pyval) (s : source) : list log_call :=
    (if existsb (pyeq (s_origin s)) seen then []
     else [Info (Text (quoted "Processing '" (show (s_origin s)) "'..."))]) ++
    [Info (Text (quoted "Loading: " (sp_name (s_spec s)) " : " ++ show (s_args s)))].

  (** database.py:292-307: a failed step is logged; [raise_on_error] is off in [update]. *)
  Definition failed (i : nat) (e : exn) (message : text -> text) : list log_call * res unit :=
    if negb (is_Exception e) then ([], Err e)
    else match show_exn i e with
         | Ok t => ([Error (Text (message t))], Ok tt)
         | Err x => ([], Err x)
         end.
  Definition not_loaded (s : source) (t : text) : text :=
    quoted "Failed to load source '" (show (unique_id s)) "':" ++ [10%N] ++ t.
  Definition not_saved (s : source) (t : text) : text :=
    quoted "Failed to save source '" (show (unique_id s)) "' to cache:" ++ [10%N] ++ t.

  (** database.py:273-308 [update] *)
  Fixpoint update_loop (envs : nat -> step_env) (cache_dir : text) (i : nat) (seen : list pyval)
      (l : list source) (f : dict text text) : list log_call * (dict text text * res unit) :=
    match l with
    | [] => ([], (f, Ok tt))
    | s :: l' =>
      let said := announce seen s in
      let '(s', r) := load_from_source (envs i) s in
      let '(said', f', r') :=
        match r with
        | Err e => let (x, y) := failed i e (not_loaded s) in (x, f, y)
        | Ok _ => let '(f', w) := save_to_cache sha1 dumps xylem_version (envs i) cache_dir s' f in
                  match w with
                  | Ok _ => ([], f', Ok tt)
                  | Err e => let (x, y) := failed i e (not_saved s) in (x, f', y)
                  end
        end in
      match r' with
      | Err e => (said ++ said', (f', Err e))
      | Ok _ => let (said'', r'') := update_loop envs cache_dir (S i) (s_origin s :: seen) l' f' in
                (said ++ said' ++ said'', r'')
      end
    end.

  (** update.py:61-86 [update]; [ensure] as in Sources.v. *)
  Definition update_run (verbose : bool) (ensure : res unit) (specs : list spec) (dirs : text * text) (st : dir_state)
      (defaults : list (text * text)) (envs : nat -> step_env) (f : dict text text)
    : list log_call * (dict text text * res unit) :=
    match ensure with
    | Err e => ([], (f, Err e))
    | Ok _ => let (said, r) := init_run verbose specs dirs st defaults in
              match r with
              | Err e => (said, (f, Err e))
              | Ok l => let (said', r') := update_loop envs (snd dirs) 0 [] l f in (said ++ said', r')
              end
    end.
End SourcesLog.
