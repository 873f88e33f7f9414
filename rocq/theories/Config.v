(** Model of xylem/config_utils.py: configuration types, items, descriptions, loading and
    merging of configurations. *)
From Verif Require Import Base Dict PyVal Sources Util Paths.

(** Types a dictionary option's keys can have.  config_utils.py:628-630 takes any type;
    only those with hashable, non-boolean values are modelled (the code base only uses the
    default [String]). *)
Inductive ktype := KtAny | KtString | KtPath.

(** The configuration types of config_utils.py:378-740. *)
Inductive ctype :=
| TAny                              (* config_utils.py:511-517 *)
| TString                           (* config_utils.py:520-540 *)
| TBoolean                          (* config_utils.py:543-554 *)
| TList (e : ctype)                 (* config_utils.py:557-621 *)
| TDict (k : ktype) (e : ctype)     (* config_utils.py:624-699 *)
| TMerging (k : ktype) (e : ctype)  (* config_utils.py:702-721 *)
| TPath.                            (* config_utils.py:724-740 *)

(** [unset_value()], config_utils.py:470-483 and 715-716. *)
Definition unset (t : ctype) : pyval :=
  match t with TMerging _ _ => VDict [] | _ => VNone end.

(** [is_unset], config_utils.py:485-487: comparison with [==]. *)
Definition is_unset (t : ctype) (v : pyval) : bool := pyeq v (unset t).

(** [command_line_multiple], config_utils.py:489-496, 612-613, 690-691. *)
Definition cl_multiple (t : ctype) : bool :=
  match t with TList _ | TDict _ _ | TMerging _ _ => true | _ => false end.

(** [key_type.verify(k)], config_utils.py:684, with the [verify] of Any, String and Path. *)
Definition verify_key (kt : ktype) (k : pkey) : res unit :=
  match kt, k with
  | KtAny, _ => Ok tt
  | _, (KStr _ | KNone) => Ok tt
  | _, _ => Err ConfigValueError
  end.

(** [verify], config_utils.py:440-454, 524-528, 547-551, 601-610, 678-688.  Returns the value unchanged;
    errors of elements are re-raised as ConfigValueError. *)
Fixpoint verify_type (t : ctype) (v : pyval) : res pyval :=
  match t with
  | TAny => Ok v
  | TString | TPath =>
    if is_unset t v then Ok v
    else match v with VStr _ => Ok v | _ => Err ConfigValueError end
  | TBoolean =>
    if is_unset t v then Ok v
    else match v with VBool _ => Ok v | _ => Err ConfigValueError end
  | TList e =>
    if is_unset t v then Ok v
    else match v with
         | VList l =>
           let* _ := forM_ (fun x => let* _ := verify_type e x in Ok tt) l in Ok v
         | _ => Err ConfigValueError
         end
  | TDict k e | TMerging k e =>
    if is_unset t v then Ok v
    else match v with
         | VDict d =>
           let* _ := forM_ (fun p => let* _ := verify_key k (fst p) in
                                     let* _ := verify_type e (snd p) in Ok tt) d in Ok v
         | _ => Err ConfigValueError
         end
  end.

(** Values of the argparse namespace: [None], one text, or a list of texts (for
    [action="append"]).  Texts are already decoded. *)
Inductive clval := CLNone | CLText (s : text) | CLList (l : list text).

Section Config.
  Variable env : penv.
  (** [load_yaml], yaml_utils.py:28-47. *)
  Variable yaml : text -> res pyval.

  (** [key_type.from_yaml(k)] *)
  Definition key_from_yaml (kt : ktype) (k : pkey) : res pkey :=
    match kt, k with
    | KtAny, _ => Ok k
    | _, KNone => Ok KNone
    | KtString, KStr s => Ok k
    | KtPath, KStr s => Ok (KStr (expand_input_path env s))
    | _, _ => Err ConfigValueError
    end.

  (** [from_yaml], config_utils.py:393-411, 564-570, 632-641, 728-732. *)
  Fixpoint from_yaml (t : ctype) (v : pyval) : res pyval :=
    match t with
    | TAny | TString | TBoolean =>
      match v with VNone => Ok (unset t) | _ => verify_type t v end
    | TPath =>
      match v with
      | VNone => Ok (unset t)
      | _ => let* v' := verify_type TString v in
             match v' with
             | VStr s => verify_type t (VStr (expand_input_path env s))
             | _ => verify_type t v'
             end
      end
    | TList e =>
      match v with
      | VNone => Ok (unset t)
      | VList l => let* l' := mapM (from_yaml e) l in verify_type t (VList l')
      | _ => Err ConfigValueError
      end
    | TDict k e | TMerging k e =>
      match v with
      | VNone => Ok (unset t)
      | VDict d =>
        let* d' := foldM (fun acc p =>
                            let* x := from_yaml e (snd p) in
                            let* k' := key_from_yaml k (fst p) in
                            Ok (set k' x acc)) d [] in
        verify_type t (VDict d')
      | _ => Err ConfigValueError
      end
    end.

  (** [parse_single], config_utils.py:576-591 and 647-664: parse as is; unless that gives the right kind of
      value, parse with enclosing brackets. *)
  Definition open_bracket : N := 91%N.
  Definition close_bracket : N := 93%N.
  Definition open_brace : N := 123%N.
  Definition close_brace : N := 125%N.

  Definition is_YAMLError (e : exn) : bool := match e with YAMLError => true | _ => false end.

  (** [try: result = load_yaml(input) except YAMLError: result = None] *)
  Definition try_yaml (s : text) : res pyval :=
    match yaml s with
    | Err e => if is_YAMLError e then Ok VNone else Err e
    | r => r
    end.
  (** [try: load_yaml(...) except YAMLError as e: raise_from(ConfigValueError, ...)] *)
  Definition cfg_yaml (s : text) : res pyval :=
    match yaml s with
    | Err e => if is_YAMLError e then Err ConfigValueError else Err e
    | r => r
    end.

  Definition parse_single_list (s : text) : res (list pyval) :=
    let* r := try_yaml s in
    match r with
    | VList l => Ok l
    | _ => let* r' := cfg_yaml (open_bracket :: s ++ [close_bracket]) in
           match r' with VList l => Ok l | _ => Err ConfigValueError end
    end.

  Definition parse_single_dict (s : text) : res pydict :=
    let* r := try_yaml s in
    match r with
    | VDict d => Ok d
    | _ => let* r' := cfg_yaml (open_brace :: s ++ [close_brace]) in
           match r' with VDict d => Ok d | _ => Err ConfigValueError end
    end.

  (** [d.update(e)] *)
  Definition update {K V} `{EqB K} (d e : dict K V) : dict K V :=
    fold_left (fun acc p => set (fst p) (snd p) acc) e d.

  (** [from_command_line], config_utils.py:413-438, 530-533, 572-599, 643-676.  For a list value given to a
      type that takes a single value: [to_str] of a list of texts for String and Path,
      AttributeError in the YAML reader otherwise. *)
  Definition from_command_line (t : ctype) (v : clval) : res pyval :=
    match v with
    | CLNone => Ok (unset t)
    | _ =>
      match t with
      | TString | TPath =>
        from_yaml t (VStr (match v with
                           | CLText s => s
                           | CLList l => open_bracket :: join (u ", ") l ++ [close_bracket]
                           | CLNone => []
                           end))
      | TAny | TBoolean =>
        match v with
        | CLText s => let* r := cfg_yaml s in from_yaml t r
        | _ => Err AttributeError
        end
      | TList _ =>
        let args := match v with CLText s => [s] | CLList l => l | CLNone => [] end in
        let* parts := mapM parse_single_list args in
        from_yaml t (VList (List.concat parts))
      | TDict _ _ | TMerging _ _ =>
        let args := match v with CLText s => [s] | CLList l => l | CLNone => [] end in
        let* d := foldM (fun acc s =>
                           let* d := parse_single_dict s in
                           if existsb (fun k => has k acc) (keys d) then Err ConfigValueError
                           else Ok (update acc d)) args [] in
        from_yaml t (VDict d)
      end
    end.

  (** [merge], config_utils.py:456-468 and 709-713.  [bottom.copy()] of a non-dict is an AttributeError;
      [update] with a non-dict is modelled as TypeError (texts and lists of pairs are not
      modelled as arguments of update). *)
  Definition merge_type (t : ctype) (top bottom : pyval) : res pyval :=
    match t with
    | TMerging _ _ =>
      match bottom with
      | VDict b => match top with
                   | VDict a => Ok (VDict (update b a))
                   | _ => Err TypeError
                   end
      | _ => Err AttributeError
      end
    | _ => Ok (if is_unset t top then bottom else top)
    end.

  (** ** Items, config_utils.py:742-826 *)
  Record item := {
    i_name : text;
    i_type : ctype;
    i_default : pyval;
    i_command_line : bool;
    i_argument : option text
  }.

  Definition minus : N := 45%N.
  Definition underscore : N := 95%N.

  (** config_utils.py:183-198 *)
  Definition dashify (s : text) : text := replace_char slash minus (replace_char underscore minus s).
  Definition underscorify (s : text) : text :=
    replace_char slash underscore (replace_char minus underscore s).
  Definition strip_leading_dashdash (s : text) : text :=
    match s with
    | a :: b :: s' => if eqb a minus && eqb b minus then s' else s
    | _ => s
    end.

  (** [split_group], config_utils.py:173-180, for a name that contains a slash: split at the last one. *)
  Definition split_group (name : text) : text * text :=
    match split_once slash (rev name) with
    | Some (a, b) => (rev b, rev a)
    | None => ([], name)
    end.
  (** ["/" in name] *)
  Definition is_group_name (name : text) : bool := mem slash name.

  (** Constructor of ConfigItem, config_utils.py:765-793 (help texts are not modelled; the metavar only
      matters through being given). *)
  Definition make_item (name : text) (t : ctype) (default : pyval) (command_line : option bool)
      (argument metavar : option text) : item :=
    let cl := match command_line with
              | Some b => b
              | None => match argument, metavar with None, None => false | _, _ => true end
              end in
    {| i_name := name;
       i_type := t;
       i_default := match default with VNone => unset t | _ => default end;
       i_command_line := cl;
       i_argument :=
         match argument with
         | Some ((_ :: _) as a) => Some (strip_leading_dashdash a)
         | _ => if cl then Some (dashify name) else argument
         end |}.

  (** ** Descriptions, config_utils.py:828-930 *)
  Record desc := {
    d_namespace : text;
    d_itemlist : list item;
    d_items : dict text item;
    d_groups : dict text (dict text item);
    d_arguments : dict text item
  }.

  Definition empty_desc (namespace : text) : desc :=
    {| d_namespace := namespace; d_itemlist := []; d_items := []; d_groups := []; d_arguments := [] |}.

  (** [ConfigDescription.add], config_utils.py:861-900; [it] is the constructed item.  The description is
      modified step by step, so an exception leaves the modifications made so far. *)
  Definition add (d : desc) (it : item) : desc * res unit :=
    let name := i_name it in
    if has name (d_items d) then (d, Err ConfigDescriptionError)
    else if has name (d_groups d) then (d, Err ConfigDescriptionError)
    else
      let go (groups : dict text (dict text item)) :=
        let d1 := {| d_namespace := d_namespace d;
                     d_itemlist := d_itemlist d ++ [it];
                     d_items := set name it (d_items d);
                     d_groups := groups;
                     d_arguments := d_arguments d |} in
        match i_command_line it, i_argument it with
        | true, Some arg =>
          if has arg (d_arguments d) then (d1, Err ConfigDescriptionError)
          else ({| d_namespace := d_namespace d1;
                   d_itemlist := d_itemlist d1;
                   d_items := d_items d1;
                   d_groups := d_groups d1;
                   d_arguments := set arg it (d_arguments d1) |}, Ok tt)
        | _, _ => (d1, Ok tt)
        end in
      if is_group_name name then
        let (group, subname) := split_group name in
        match get group (d_groups d) with
        | Some gd => go (set group (set subname it gd) (d_groups d))
        | None =>
          if has group (d_items d) then (d, Err ConfigDescriptionError)
          else go (set group [(subname, it)] (d_groups d))
        end
      else go (d_groups d).

  (** ** Configurations: dicts from option and group names to values and group dicts. *)

  (** [target[group][subname]], [target[name]]: indexing. *)
  Definition index (v : pyval) (k : text) : res pyval :=
    match v with
    | VDict d => getitem (KStr k) d
    | _ => Err TypeError
    end.

  (** [copy_conifg_dict], config_utils.py:1029-1034.  [ConfigDict(x)] of a non-dict: empty for an empty list
      or text, TypeError otherwise (sequences of pairs are not modelled). *)
  Definition dict_of (v : pyval) : res pydict :=
    match v with
    | VDict d => Ok d
    | VList [] | VStr [] => Ok []
    | _ => Err TypeError
    end.

  Definition copy_config (d : desc) (c : pydict) : res pydict :=
    foldM (fun acc g => let* v := getitem (KStr g) acc in
                        let* gd := dict_of v in
                        Ok (set (KStr g) (VDict gd) acc)) (keys (d_groups d)) c.

  (** Body of the inner loop of [merge_configs], config_utils.py:1061-1069. *)
  Definition merge_item (bottom : pydict) (result : pydict) (p : text * item) : res pydict :=
    let (name, it) := p in
    if is_group_name name then
      let (group, subname) := split_group name in
      let* rg := getitem (KStr group) result in
      let* r := index rg subname in
      let* bg := getitem (KStr group) bottom in
      let* b := index bg subname in
      let* m := merge_type (i_type it) r b in
      match rg with
      | VDict gd => Ok (set (KStr group) (VDict (set (KStr subname) m gd)) result)
      | _ => Err TypeError
      end
    else
      let* r := getitem (KStr name) result in
      let* b := getitem (KStr name) bottom in
      let* m := merge_type (i_type it) r b in
      Ok (set (KStr name) m result).

  (** [merge_configs], config_utils.py:1037-1070. *)
  Definition merge_configs (d : desc) (top : pydict) (more : list pydict) : res pydict :=
    let* r := copy_config d top in
    foldM (fun r bottom => foldM (merge_item bottom) (d_items d) r) more r.

  (** [config_from_defaults], config_utils.py:1121-1138. *)
  Definition config_from_defaults (d : desc) : res pydict :=
    foldM (fun (r : pydict) (p : text * item) =>
             let (name, it) := p in
             if is_group_name name then
               let (group, subname) := split_group name in
               let r' := if has (KStr group) r then r else set (KStr group) (VDict []) r in
               match get (KStr group) r' with
               | Some (VDict gd) =>
                 Ok (set (KStr group) (VDict (set (KStr subname) (i_default it) gd)) r')
               | _ => Err TypeError
               end
             else Ok (set (KStr name) (i_default it) r)) (d_items d) [].

  (** The loops shared by [config_from_args] (config_utils.py:1165-1173) and
      [config_from_parsed_yaml] (config_utils.py:1213-1221): [fg group subname item] and [fi name item] are [process_item]; [pre] is
      what is evaluated at the start of each group. *)
  Definition build (d : desc) (pre : text -> res unit)
      (fg : text -> text -> item -> res pyval) (fi : text -> item -> res pyval) : res pydict :=
    let* c := foldM (fun (c : pydict) (g : text * dict text item) =>
                       let* _ := pre (fst g) in
                       let* gd := foldM (fun (acc : pydict) (p : text * item) =>
                                           let* v := fg (fst g) (fst p) (snd p) in
                                           Ok (set (KStr (fst p)) v acc)) (snd g) [] in
                       Ok (set (KStr (fst g)) (VDict gd) c)) (d_groups d) [] in
    foldM (fun (c : pydict) (p : text * item) =>
             if is_group_name (fst p) then Ok c
             else let* v := fi (fst p) (snd p) in Ok (set (KStr (fst p)) v c)) (d_items d) c.

  (** Command line arguments after [parse_args]. *)
  Record clargs := {
    a_config_dir : option text;
    a_prefix : text;
    a_no_user_config : bool;
    a_values : dict text clval   (** [vars(args)] restricted to the config arguments *)
  }.

  (** What argparse (python 2.7) makes of the arguments declared by
      [ConfigDescription.add_arguments], config_utils.py:902-929, and
      [ConfigItem.add_argument], config_utils.py:815-825: the
      flag "--ARG" is stored under ARG without leading dashes and with underscores for dashes;
      with [action="append"] all occurrences are collected, otherwise the last one wins.
      [occs] are the occurrences (ARG, value) on the command line.  Abbreviated flags are not
      modelled. *)
  Fixpoint lstrip_minus (s : text) : text :=
    match s with c :: s' => if eqb c minus then lstrip_minus s' else s | [] => [] end.
  Definition argparse_dest (arg : text) : text := replace_char minus underscore (lstrip_minus arg).

  Definition initial_values (d : desc) : dict text clval :=
    fold_left (fun ns p => set (argparse_dest (fst p)) CLNone ns) (d_arguments d) [].

  Definition parse_occurrence (d : desc) (ns : dict text clval) (o : text * text) : res (dict text clval) :=
    match get (fst o) (d_arguments d) with
    | None => Err (SystemExit 2)
    | Some it =>
      let dest := argparse_dest (fst o) in
      if cl_multiple (i_type it) then
        Ok (set dest (CLList (match get dest ns with
                              | Some (CLList l) => l ++ [snd o]
                              | _ => [snd o]
                              end)) ns)
      else Ok (set dest (CLText (snd o)) ns)
    end.
  Definition parse_args (d : desc) (occs : list (text * text)) : res (dict text clval) :=
    foldM (parse_occurrence d) occs (initial_values d).

  (** [process_item] of [config_from_args], config_utils.py:1157-1163. *)
  Definition arg_value (args : clargs) (it : item) : res pyval :=
    if i_command_line it then
      match i_argument it with
      | Some arg => let* v := getitem (underscorify arg) (a_values args) in
                    from_command_line (i_type it) v
      | None => Err AttributeError
      end
    else Ok (unset (i_type it)).

  (** [config_from_args], config_utils.py:1141-1173. *)
  Definition config_from_args (args : clargs) (d : desc) : res pydict :=
    build d (fun _ => Ok tt) (fun _ _ it => arg_value args it) (fun _ it => arg_value args it).

  (** [data.get(key, None)] then [from_yaml], config_utils.py:1207-1210.  [data] must have a [get] method. *)
  Definition yaml_value (source : pyval) (key : text) (it : item) : res pyval :=
    match source with
    | VDict s => from_yaml (i_type it) (match get (KStr key) s with Some v => v | None => VNone end)
    | _ => Err AttributeError
    end.

  (** [config_from_parsed_yaml], config_utils.py:1192-1225, with
      [merge_with_defaults], config_utils.py:1073-1083. *)
  Definition config_from_parsed_yaml (data : pydict) (d : desc) (use_defaults : bool) : res pydict :=
    let* c := build d (fun _ => Ok tt)
                (fun g s it => yaml_value (match get (KStr g) data with
                                           | Some v => v | None => VDict [] end) s it)
                (fun n it => yaml_value (VDict data) n it) in
    if use_defaults then
      let* dflt := config_from_defaults d in merge_configs d c [dflt]
    else Ok c.

  (** [process_config_file_yaml], config_utils.py:208-228. *)
  Definition process_config_file_yaml (v : pyval) : res pydict :=
    let v' := match v with VNone => VDict [] | _ => v end in
    match v' with
    | VDict d => if forallb (fun p => match fst p with KStr _ => true | _ => false end) d
                 then Ok d else Err ConfigValueError
    | _ => Err ConfigValueError
    end.

  (** The file system as far as config files are concerned: [None] if [os.path.isfile] is
      false, else the decoded contents or the error of reading. *)
  Variable file : text -> option (res text).

  Definition is_env_error (e : exn) : bool :=
    match e with OSError | IOError => true | _ => false end.

  (** [load_config_file_yaml], config_utils.py:231-259.  Decoding uses errors='replace' and cannot fail. *)
  Definition load_config_file_yaml (path : text) : res pydict :=
    let r := match file path with
             | Some (Ok s) => let* v := yaml s in process_config_file_yaml v
             | Some (Err e) => Err e
             | None => process_config_file_yaml VNone
             end in
    match r with
    | Err e => if is_env_error e || is_YAMLError e then Err ConfigValueError
               else Err e
    | _ => r
    end.

  (** [config_from_file], config_utils.py:1176-1189. *)
  Definition config_from_file (path : text) (d : desc) : res pydict :=
    let* data := load_config_file_yaml path in
    config_from_parsed_yaml data d false.

  (** config_utils.py:153-170: directories.  [DEFAULT_USER_CONFIG_DIR] is [expanduser("~/.config")]. *)
  Definition default_user_config_dir : text := expanduser env (u "~/.config").
  Definition system_config_dir (prefix tool : text) : text :=
    path_join (path_join prefix (u "etc")) tool.
  Definition system_cache_dir (prefix tool : text) : text :=
    path_join (path_join prefix (u "var/cache")) tool.
  Definition user_config_dir (tool : text) : text := path_join default_user_config_dir tool.
  Definition user_cache_dir (config_dir : text) : text := path_join config_dir (u "cache").

  (** Directories searched by [load_config], config_utils.py:1105-1113. *)
  Definition config_dirs (args : clargs) (tool : text) : list text :=
    match a_config_dir args with
    | Some dir => [dir]
    | None => if a_no_user_config args then [system_config_dir (a_prefix args) tool]
              else [user_config_dir tool; system_config_dir (a_prefix args) tool]
    end.

  (** [load_config], config_utils.py:1086-1118. *)
  Definition load_config (args : clargs) (d : desc) (tool : text) : res pydict :=
    let* a := config_from_args args d in
    let* fs := mapM (fun dir => config_from_file (path_join dir (d_namespace d)) d)
                 (config_dirs args tool) in
    let* dflt := config_from_defaults d in
    merge_configs d a (fs ++ [dflt]).
End Config.
