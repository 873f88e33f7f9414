(** Model of xylem/plugin_utils.py: loading plugins from entry points. *)
From Verif Require Import Base Dict PyVal Verify.

Section Plugins.
  (** Plugin objects, and their [name] property: any hashable value, or an exception.
      (A name that is not hashable can not pass [PluginBase.verify_plugin].) *)
  Context {P : Type}.
  Variable name_of : P -> res pkey.

  (** A class named by a plugin definition: whether it derives from the base class of
      the plugin kind, its constructor and its class method [verify_plugin]. *)
  Record plugin_class := {
    pc_derived : bool;
    pc_new : res P;
    pc_verify : P -> res unit
  }.

  (** The value of [definition[kind]]. *)
  Inductive class_value := NotAClass | AClass (c : plugin_class).

  (** What an entry point refers to: a dict, of which the entries 'plugin_name',
      'description' and kind matter, or something else, on which subscription raises. *)
  Inductive definition :=
  | DDict (plugin_name description : option pyval) (class : option class_value)
  | DOther (e : exn).

  (** [definition[k]] *)
  Definition item_of {A} (x : option A) : res A :=
    match x with Some a => Ok a | None => Err KeyError end.

  (** [verify_plugin_name] and [verify_plugin_description], plugin_utils.py:77-96: both want text. *)
  Definition verify_plugin_text (v : pyval) : res text :=
    match v with VStr s => Ok s | _ => Err ValueError end.

  (** [verify_plugin_class], plugin_utils.py:99-111.  [issubclass] raises TypeError for something that is
      not a class; the base classes of the code base all derive from [PluginBase]. *)
  Definition verify_plugin_class (c : class_value) : res plugin_class :=
    match c with
    | NotAClass => Err TypeError
    | AClass c => if pc_derived c then Ok c else Err ValueError
    end.

  (** The try block of [verify_plugin_definition], plugin_utils.py:122-125; also returns what was verified. *)
  Definition check_definition (d : definition) : res (text * plugin_class) :=
    match d with
    | DOther e => Err e
    | DDict n de c =>
      let* n := item_of n in let* n := verify_plugin_text n in
      let* de := item_of de in let* _ := verify_plugin_text de in
      let* c := item_of c in let* c := verify_plugin_class c in
      Ok (n, c)
    end.

  (** [verify_plugin_definition], plugin_utils.py:114-128. *)
  Definition verify_plugin_definition (d : definition) : res (text * plugin_class) :=
    match check_definition d with
    | Err TypeError | Err KeyError | Err ValueError => Err InvalidPluginError
    | x => x
    end.

  (** Body of the loop of [load_plugins], plugin_utils.py:153-186; the state is [plugin_list] and
      [name_set].  Messages are not modelled. *)
  Definition load_step (disabled : list text) (st : list P * list pkey)
      (entry_point : res definition) : res (list P * list pkey) :=
    let '(plugin_list, name_set) := st in
    let* d := entry_point in
    match verify_plugin_definition d with
    | Err InvalidPluginError => Ok st
    | Err e => Err e
    | Ok (plugin_name, c) =>
      if mem plugin_name disabled then Ok st else
      let* obj := pc_new c in
      let* obj_name := name_of obj in
      match pc_verify c obj with
      | Err InvalidPluginError => Ok st
      | Err e => Err e
      | Ok _ =>
        if mem obj_name name_set then Ok st
        else Ok (plugin_list ++ [obj], obj_name :: name_set)
      end
    end.

  (** [load_plugins], plugin_utils.py:131-187; the argument list is what [iter_entry_points] yields, each
      with the result of its [load()]. *)
  Definition load_plugins (eps : list (res definition)) (disabled : list text) : res (list P) :=
    let* st := foldM (load_step disabled) eps ([], []) in Ok (fst st).

  (** [PluginBase.verify_plugin], plugin_utils.py:57-69, which no class of the code base overrides. *)
  Variable uni_word : N -> bool.
  Definition base_verify_plugin (obj : P) : res unit :=
    let* n := name_of obj in
    match verify_key_identifier uni_word n [] with
    | Err ValueError => Err InvalidPluginError
    | x => x
    end.
End Plugins.
Arguments plugin_class P : clear implicits.
Arguments class_value P : clear implicits.
Arguments definition P : clear implicits.
