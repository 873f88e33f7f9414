(** Model of rules sources and the rules database, xylem/sources/database.py, and
    of the 'rules' spec plugin, xylem/specs/plugins/rules.py:271-328.

    State is passed explicitly.  A file system is a dict from paths to file
    contents (regular files only).  Pickle is a pair of functions, SHA-1 a function,
    the YAML parser a function; they are section variables, hence universally
    quantified in every theorem.  Log output is not modelled. *)
From Verif Require Import Base Dict PyVal RulesDict Verify Expand.

(** What a lookup needs to know of the installer context
    (installers/impl.py:300-325): os name, os version, default installer. *)
Record ictx := { ic_os : text; ic_version : text; ic_default : option text }.

(** Network as seen by one call: url -> decoded data or exception. *)
Notation network := (text -> res text).

(** specs/impl.py:40-124, the interface of a spec plugin.  [is_data_outdated] is
    left out: no code path reaches a call of it (see [is_cache_outdated]). *)
Record spec := {
  sp_name : text;
  sp_version : pyval;
  sp_unique_id : pyval -> pyval;
  sp_load_data : network -> pyval -> res pyval;
  sp_verify_arguments : pyval -> res unit;
  sp_verify_data : pyval -> pyval -> res unit;      (* data, arguments *)
  sp_lookup : pyval -> text -> ictx -> res pyval;   (* data, key *)
  sp_keys : pyval -> ictx -> res (list pkey)
}.

(** [except Exception] catches everything but these two. *)
Definition is_Exception (e : exn) : bool :=
  match e with KeyboardInterrupt | SystemExit _ => false | _ => true end.

(** Python's [in] with a text on the left.  Values of other types than dict, list
    and text are treated as not iterable. *)
Fixpoint is_prefix (p t : text) : bool :=
  match p, t with
  | [], _ => true
  | a :: p', b :: t' => eqb a b && is_prefix p' t'
  | _ :: _, [] => false
  end.
Fixpoint is_substring (p t : text) : bool :=
  is_prefix p t || match t with [] => false | _ :: t' => is_substring p t' end.

Definition text_in (k : text) (v : pyval) : res bool :=
  match v with
  | VDict d => Ok (has (KStr k) d)
  | VList l => Ok (existsb (pyeq (VStr k)) l)
  | VStr t => Ok (is_substring k t)
  | _ => Err TypeError
  end.

(** rules_dict.py:75-81 [has_rule_for_os] on arbitrary values.  [os_dict[os_name]]
    on a list or text raises TypeError. *)
Definition raw_has_rule_for_os (od : pyval) (os version : text) : res bool :=
  let* b := text_in any_os od in
  if b then Ok true
  else let* b := text_in os od in
       if b then
         match od with
         | VDict d => match get (KStr os) d with
                      | Some vd => let* b := text_in version vd in
                                   if b then Ok true else text_in any_version vd
                      | None => Err KeyError
                      end
         | _ => Err TypeError
         end
       else Ok false.

(** rules.py:322-328 [RulesSpec.keys]. *)
Definition raw_keys (data : pyval) (ic : ictx) : res (list pkey) :=
  match data with
  | VDict d =>
    foldM (fun acc p => let* b := raw_has_rule_for_os (snd p) (ic_os ic) (ic_version ic) in
                        Ok (if b then acc ++ [fst p] else acc)) d []
  | _ => Err AttributeError
  end.

(** posixpath.join with two arguments. *)
Definition slash : N := 47%N.
Definition path_join (a b : text) : text :=
  match b with
  | c :: _ => if eqb c slash then b
              else if (match a with [] => true | _ => eqb (last a 0%N) slash end) then a ++ b
              else a ++ slash :: b
  | [] => if (match a with [] => true | _ => eqb (last a 0%N) slash end) then a else a ++ [slash]
  end.

(** [hexdigest] of a byte string. *)
Definition hex_digit (n : N) : N := if (n <? 10)%N then (48 + n)%N else (87 + n)%N.
Definition hexdigest (bs : list N) : text :=
  flat_map (fun b => [hex_digit (b / 16 mod 16); hex_digit (b mod 16)])%N bs.

Section Sources.
  (** Unicode database, see [Verify.v]. *)
  Variable uni_word : N -> bool.
  (** [yaml.load] with [MyLoader], yaml_utils.py:28-47. *)
  Variable yaml : text -> res pyval.
  (** [hashlib.sha1(s).digest()]. *)
  Variable sha1 : text -> list N.
  (** [pickle.dump] (to a complete byte string) and [pickle.load]. *)
  Variable dumps : pyval -> text.
  Variable loads : text -> res pyval.
  (** [xylem.__version__]. *)
  Variable xylem_version : pyval.

  (** rules.py:271-328 [RulesSpec]. *)
  Definition rules_verify_arguments (a : pyval) : res unit :=
    match a with VStr _ => Ok tt | _ => Err ValueError end.

  Definition rules_load_data (net : network) (a : pyval) : res pyval :=
    match a with
    | VStr url => let* t := net url in let* v := yaml t in expand_rules v
    | _ => Err AttributeError
    end.

  Definition rules_spec : spec := {|
    sp_name := u "rules";
    sp_version := VInt 1;
    sp_unique_id := fun a => a;
    sp_load_data := rules_load_data;
    sp_verify_arguments := rules_verify_arguments;
    sp_verify_data := fun d _ => verify_rules_dict uni_word d true;
    sp_lookup := fun d key ic => raw_lookup d key (ic_os ic) (ic_version ic) (ic_default ic);
    sp_keys := raw_keys
  |}.

  (** database.py:40-41 [_id_string].  In python 2 sha1 of a unicode string encodes
      it as ASCII; UnicodeEncodeError is a ValueError. *)
  Definition id_string (v : pyval) : res text :=
    match v with
    | VStr t => if forallb (fun c => c <? 128)%N t then Ok (hexdigest (sha1 t)) else Err ValueError
    | _ => Err TypeError
    end.

  (** database.py:44-46 [_cache_file_path]. *)
  Definition cache_file_path (cache_dir : text) (uid : pyval) : res text :=
    let* i := id_string uid in Ok (path_join cache_dir (i ++ u ".pickle")).

  (** database.py:49-65 [_create_cache_data]. *)
  Definition k_xylem_version : pkey := KStr (u "xylem_version").
  Definition k_spec_name : pkey := KStr (u "spec_name").
  Definition k_spec_version : pkey := KStr (u "spec_version").
  Definition k_arguments : pkey := KStr (u "arguments").
  Definition k_origin : pkey := KStr (u "origin").
  Definition k_data : pkey := KStr (u "data").
  Definition k_time : pkey := KStr (u "time_data_loaded").

  (** database.py:100-185 [RulesSource]; the sources context only contributes the
      cache dir, which is passed explicitly below. *)
  Record source := {
    s_spec : spec;
    s_args : pyval;
    s_origin : pyval;
    s_data : pyval;
    s_time : pyval
  }.

  (** database.py:102-110 [RulesSource.__init__]. *)
  Definition new_source (sp : spec) (args origin : pyval) : res source :=
    let* _ := sp_verify_arguments sp args in
    Ok {| s_spec := sp; s_args := args; s_origin := origin; s_data := VNone; s_time := VNone |}.

  (** database.py:112-118. *)
  Definition unique_id (s : source) : pyval := sp_unique_id (s_spec s) (s_args s).
  Definition source_path (cache_dir : text) (s : source) : res text :=
    cache_file_path cache_dir (unique_id s).

  Definition cache_record (s : source) : pyval :=
    VDict [(k_xylem_version, xylem_version); (k_spec_name, VStr (sp_name (s_spec s)));
           (k_spec_version, sp_version (s_spec s)); (k_arguments, s_args s);
           (k_origin, s_origin s); (k_data, s_data s); (k_time, s_time s)].

  (** File systems and what can happen to one write: success, failing [open], or an
      error after a prefix of the bytes reached the (truncated) file. *)
  Notation fs := (dict text text).
  Inductive write_outcome :=
  | WriteOk
  | OpenFails (e : exn)
  | WriteFails (n : nat) (e : exn).

  (** database.py:94-97 [_write_cache]. *)
  Definition write_cache (w : write_outcome) (path : text) (rec : pyval) (f : fs) : fs * res unit :=
    match w with
    | WriteOk => (set path (dumps rec) f, Ok tt)
    | OpenFails e => (f, Err e)
    | WriteFails n e => (set path (firstn n (dumps rec)) f, Err e)
    end.

  (** database.py:68-78 [_verify_cache_data_structure]. *)
  Definition verify_cache_structure (v : pyval) : res unit :=
    match v with
    | VDict d => if forallb (fun k => has k d)
                      [k_xylem_version; k_spec_name; k_spec_version; k_arguments;
                       k_origin; k_data; k_time]
                 then Ok tt else Err ValueError
    | _ => Err ValueError
    end.

  (** Subscript of a value that passed [verify_cache_structure]. *)
  Definition item (k : pkey) (v : pyval) : res pyval :=
    match v with VDict d => getitem k d | _ => Err TypeError end.

  (** database.py:81-84 [_verify_cache_data_spec_name]. *)
  Definition verify_cache_spec_name (v : pyval) (name : text) : res unit :=
    let* n := item k_spec_name v in
    if pyeq (VStr name) n then Ok tt else Err ValueError.

  (** database.py:87-91 [_read_cache]. *)
  Definition read_cache (path : text) (f : fs) : res pyval :=
    match get path f with
    | None => Err IOError
    | Some bytes => let* v := loads bytes in
                    let* _ := verify_cache_structure v in Ok v
    end.

  (** One environment per step of a loop over sources: the network, the clock and
      the fate of a write. *)
  Record step_env := { e_net : network; e_now : pyval; e_write : write_outcome }.

  (** database.py:120-124 [load_from_source]. *)
  Definition load_from_source (e : step_env) (s : source) : source * res unit :=
    match (let* d := sp_load_data (s_spec s) (e_net e) (s_args s) in
           let* _ := sp_verify_data (s_spec s) d (s_args s) in Ok d) with
    | Ok d => ({| s_spec := s_spec s; s_args := s_args s; s_origin := s_origin s;
                  s_data := d; s_time := e_now e |}, Ok tt)
    | Err x => (s, Err x)
    end.

  (** database.py:126-134 [load_from_cache]. *)
  Definition load_from_cache (cache_dir : text) (f : fs) (s : source) : source * res unit :=
    match (let* p := source_path cache_dir s in
           let* v := read_cache p f in
           let* _ := verify_cache_spec_name v (sp_name (s_spec s)) in
           let* _ := sp_verify_arguments (s_spec s) (s_args s) in
           let* d := item k_data v in
           let* _ := sp_verify_data (s_spec s) d (s_args s) in
           let* a := item k_arguments v in
           let* o := item k_origin v in
           let* t := item k_time v in
           Ok (d, a, o, t)) with
    | Ok (d, a, o, t) => ({| s_spec := s_spec s; s_args := a; s_origin := o;
                             s_data := d; s_time := t |}, Ok tt)
    | Err x => (s, Err x)
    end.

  (** database.py:136-146 [save_to_cache]. *)
  Definition save_to_cache (e : step_env) (cache_dir : text) (s : source) (f : fs) : fs * res unit :=
    match source_path cache_dir s with
    | Ok p => write_cache (e_write e) p (cache_record s) f
    | Err x => (f, Err x)
    end.

  (** database.py:157-161 [is_cache_available]. *)
  Definition is_cache_available (cache_dir : text) (f : fs) (s : source) : res bool :=
    let* p := source_path cache_dir s in Ok (has p f).

  (** database.py:148-155 [is_cache_outdated]; line 153 calls the dict. *)
  Definition is_cache_outdated (cache_dir : text) (f : fs) (s : source) : res bool :=
    let* a := is_cache_available cache_dir f s in
    if negb a then Ok true
    else let* p := source_path cache_dir s in
         let* v := read_cache p f in
         Err TypeError.

  (** database.py:163-175 [clear_cache]; line 168 passes an argument to a method
      without parameters, so nothing after it runs. *)
  Definition clear_cache (cache_dir : text) (s : source) (f : fs) : fs * res unit :=
    (f, Err TypeError).

  (** database.py:177-181 [RulesSource.lookup]. *)
  Definition source_lookup (s : source) (key : text) (ic : ictx) : res pyval :=
    let* d := sp_lookup (s_spec s) (s_data s) key ic in
    let* _ := verify_installer_dict uni_word d false in
    Ok d.

  (** database.py:183-185 [RulesSource.keys]. *)
  Definition source_keys (s : source) (ic : ictx) : res (list pkey) :=
    sp_keys (s_spec s) (s_data s) ic.

  (** The shape of all loops over sources, database.py:229-308: an error of one
      source either ends the loop ([raise_on_error], or it is no [Exception]) or is
      logged. [i] counts the iterations. *)
  Fixpoint for_sources (body : nat -> source -> fs -> source * fs * res unit)
      (raise_on_error : bool) (i : nat) (l : list source) (f : fs)
    : list source * fs * res unit :=
    match l with
    | [] => ([], f, Ok tt)
    | s :: l' =>
      let '(s', f', r) := body i s f in
      let continue := let '(l'', f'', r') := for_sources body raise_on_error (S i) l' f' in
                      (s' :: l'', f'', r') in
      match r with
      | Ok _ => continue
      | Err e => if raise_on_error || negb (is_Exception e) then (s' :: l', f', Err e)
                 else continue
      end
    end.

  (** database.py:229-239 *)
  Definition db_load_from_cache (raise_on_error : bool) (cache_dir : text) (l : list source) (f : fs) :=
    for_sources (fun _ s f => let '(s', r) := load_from_cache cache_dir f s in (s', f, r))
                raise_on_error 0 l f.

  (** database.py:241-251 *)
  Definition db_save_to_cache (envs : nat -> step_env) (raise_on_error : bool) (cache_dir : text)
      (l : list source) (f : fs) :=
    for_sources (fun i s f => let '(f', r) := save_to_cache (envs i) cache_dir s f in (s, f', r))
                raise_on_error 0 l f.

  (** database.py:253-271 *)
  Definition db_load_from_source (envs : nat -> step_env) (raise_on_error : bool)
      (l : list source) (f : fs) :=
    for_sources (fun i s f => let '(s', r) := load_from_source (envs i) s in (s', f, r))
                raise_on_error 0 l f.

  (** database.py:273-308 [RulesDatabase.update]: body of the loop. *)
  Definition update_source (envs : nat -> step_env) (cache_dir : text) (i : nat) (s : source) (f : fs)
    : source * fs * res unit :=
    let '(s', r) := load_from_source (envs i) s in
    match r with
    | Ok _ => let '(f', r') := save_to_cache (envs i) cache_dir s' f in (s', f', r')
    | Err e => (s', f, Err e)
    end.

  Definition db_update (envs : nat -> step_env) (raise_on_error : bool) (cache_dir : text)
      (l : list source) (f : fs) :=
    for_sources (update_source envs cache_dir) raise_on_error 0 l f.

  (** database.py:310-318 [RulesDatabase.lookup]. *)
  Definition db_lookup (l : list source) (key : text) (ic : ictx) : res pydict :=
    foldM (fun acc s => let* new := source_lookup s key ic in raw_merge new acc None) (rev l) [].

  (** database.py:320-325 [RulesDatabase.keys]; a set is a list without duplicates. *)
  Definition set_add {A} `{EqB A} (l : list A) (x : A) : list A := if mem x l then l else l ++ [x].
  Definition db_keys (l : list source) (ic : ictx) : res (list pkey) :=
    foldM (fun acc s => let* ks := source_keys s ic in Ok (fold_left set_add ks acc)) l [].

  (** database.py:222-227 [verify_unique_ids]. *)
  Fixpoint distinct (l : list text) : bool :=
    match l with [] => true | x :: l' => negb (mem x l') && distinct l' end.
  Definition verify_unique_ids (l : list source) : res unit :=
    let* ids := mapM (fun s => id_string (unique_id s)) l in
    if distinct ids then Ok tt else Err RuntimeError.

  (** ** Source descriptions, sources/impl.py *)

  (** impl.py:164-181 [verify_source_description]; specs/impl.py:127-136
      [verify_spec_name].  Line 180 calls [raise_from] with two arguments, so a bad
      spec name gives TypeError (converted by the caller below). *)
  Definition verify_source_description (v : pyval) : res unit :=
    match v with
    | VDict [(KStr _, _)] => Ok tt
    | VDict [(_, _)] => Err TypeError
    | _ => Err ValueError
    end.

  (** impl.py:147-161 [verify_source_description_list].  Iterating a dict gives its
      keys, iterating a text its characters; neither are dicts.  Other scalars are
      not iterable ([VOther] is treated as not iterable too). *)
  Definition verify_source_description_list (v : pyval) : res unit :=
    match (match v with
           | VList l => forM_ verify_source_description l
           | VDict [] | VStr [] => Ok tt
           | VDict (_ :: _) | VStr (_ :: _) => Err ValueError
           | _ => Err TypeError
           end) with
    | Err TypeError | Err ValueError => Err ValueError
    | r => r
    end.

  (** impl.py:117-144 [parse_source_descriptions], the list of descriptions. *)
  Definition parse_source_descriptions (data : text) : res pyval :=
    match (let* v := yaml data in let* _ := verify_source_description_list v in Ok v) with
    | Err YAMLError => Ok (VList [])
    | r => r
    end.

  (** A directory entry: whether it is a regular file, and what reading it gives. *)
  Record dir_entry := { de_name : text; de_isfile : bool; de_read : res text }.
  Inductive dir_state := Missing | NotADirectory | Listing (l : list dir_entry).

  Definition starts_with_dot (t : text) : bool := match t with c :: _ => eqb c 46%N | [] => false end.
  Definition ends_with (suffix t : text) : bool := is_prefix (rev suffix) (rev t).

  (** impl.py:91-99 [_load_sources], selection; the path is the joined one. *)
  Definition source_file_selected (path : text) (e : dir_entry) : bool :=
    negb (starts_with_dot path) && ends_with (u ".yaml") path && de_isfile e.

  (** impl.py:63-112: the selected files with the outcome of reading them (lazily,
      line 110-112).  [None] if the directory does not exist. *)
  Definition get_source_files (dir : text) (st : dir_state) : res (option (list (text * res text))) :=
    match st with
    | Missing => Ok None
    | NotADirectory => Err OSError
    | Listing l =>
      Ok (Some (map (fun p => (fst p, de_read (snd p)))
                 (filter (fun p => source_file_selected (fst p) (snd p))
                         (map (fun e => (path_join dir (de_name e), e)) l))))
    end.

  (** impl.py:49-60 [get_default_source_descriptions]; [defaults] are the packaged
      files (name, contents). *)
  Definition default_source_files (defaults : list (text * text)) : list (text * res text) :=
    map (fun p => (u "xylem_default_sources:" ++ path_join (u "sources.d") (fst p), Ok (snd p))) defaults.

  (** impl.py:237-241 [SourcesContext.get_spec]. *)
  Definition get_spec (specs : list spec) (name : text) : res spec :=
    match find (fun sp => eqb (sp_name sp) name) specs with
    | Some sp => Ok sp
    | None => Err UnknownSpecError
    end.

  (** database.py:211-218, one description. *)
  Definition init_source (specs : list spec) (file : text) (descr : pyval) : res source :=
    match descr with
    | VDict ((KStr name, args) :: _) =>
      let* sp := get_spec specs name in new_source sp args (VStr file)
    | VDict ((_, _) :: _) => Err UnknownSpecError
    | VDict [] => Err IndexError
    | _ => Err AttributeError
    end.

  Definition descr_items (v : pyval) : list pyval := match v with VList l => l | _ => [] end.

  (** database.py:210-218, one file of the (lazy) generator. *)
  Definition init_file (specs : list spec) (p : text * res text) : res (list source) :=
    let* data := snd p in
    let* d := parse_source_descriptions data in
    mapM (init_source specs (fst p)) (descr_items d).

  (** database.py:197-220 [init_from_sources]. *)
  Definition init_from_sources (specs : list spec) (dir : text) (st : dir_state)
      (defaults : list (text * text)) : res (list source) :=
    let* g := get_source_files dir st in
    let files := match g with Some l => l | None => default_source_files defaults end in
    let* ll := mapM (init_file specs) files in
    let l := List.concat ll in
    let* _ := verify_unique_ids l in
    Ok l.

  (** update.py:61-86 [update].  [ensure] is the outcome of [ensure_cache_dir]
      (impl.py:220-225).  [dry_run] is not used by the code. *)
  Definition update (dry_run : bool) (ensure : res unit) (specs : list spec) (dir cache_dir : text)
      (st : dir_state) (defaults : list (text * text)) (envs : nat -> step_env) (f : fs)
    : fs * res unit :=
    match ensure with
    | Err e => (f, Err e)
    | Ok _ => match init_from_sources specs dir st defaults with
              | Err e => (f, Err e)
              | Ok l => let '(_, f', r) := db_update envs false cache_dir l f in (f', r)
              end
    end.

End Sources.
