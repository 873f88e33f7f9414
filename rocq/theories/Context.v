(** Model of [InstallerContext], xylem/installers/impl.py:233-449: set up of the os and of
    the installers from the configuration. *)
From Verif Require Import Base Dict PyVal Sources Util Paths Config XylemConfig Installer Installers Plugins OsSupport.

Section Context.
  Context {W R : Type}.
  Variable env : penv.

  (** A loaded installer plugin: its name with default options, and what it is once
      [options] has been set (which may raise, installer_base.py:124-137).  The name may
      depend on the options (fake.py:76-78). *)
  Record inst_plugin := {
    ip_name : text;
    ip_set_options : pyval -> res (installer W R)
  }.

  (** [config.group.name] *)
  Definition attr2 (c : pydict) (group name : text) : res pyval :=
    let* g := attr c group in
    match g with VDict d => attr d name | _ => Err AttributeError end.

  (** Elements of a list of strings; the code iterates over it or uses it on the right of
      [in].  Elements that are not text can not be equal to a name. *)
  Definition texts_of (v : pyval) : res (list text) :=
    match v with
    | VList l => Ok (flat_map (fun x => match x with VStr s => [s] | _ => [] end) l)
    | _ => Err TypeError
    end.

  (** ", ".join(names): every element must be text. *)
  Definition names_of (v : pyval) : res (list text) :=
    match v with
    | VList l => mapM (fun x => match x with VStr s => Ok s | _ => Err TypeError end) l
    | _ => Err TypeError
    end.

  (** The value of [os_override] when it is not None: a pair (name, version or None).
      Anything else does not fit the format string "[%s:%s]" (285). *)
  Definition override_tuple (v : pyval) : res (text * option text) :=
    match v with
    | VList [VStr n; VStr x] => Ok (n, Some x)
    | VList [VStr n; VNone] => Ok (n, None)
    | _ => Err TypeError
    end.

  (** [setup_os], impl.py:272-289: the os object and its options.  The arguments of the messages
      are evaluated whether or not they are shown: [get_os_string] detects the version. *)
  Definition setup_os (config : pydict) (plugins : list (os_plugin W)) (w : W) : res (os_object W * pydict) :=
    let s := {| s_plugins := plugins; s_os := None |} in
    let* ov := attr config (u "os_override") in
    let* x :=
      match ov with
      | VNone =>
        let (r, s) := detect_os s w in
        let* _ := r in
        let* x := fst (current_os s w) in
        let* _ := obj_tuple x w in                         (* impl.py:283 *)
        Ok x
      | _ =>
        let* t := override_tuple ov in                      (* impl.py:285 *)
        let (r, s) := override_os s (Some t) w in
        let* _ := r in
        let* x := fst (current_os s w) in
        let* _ := obj_tuple x w in                         (* impl.py:288; never raises *)
        Ok x
      end in
    let* oo := attr config (u "os_options") in
    let* o := set_options env (os_options_description (delegate x)) oo in
    Ok (x, o).

  (** Position of the first element with property [f]. *)
  Fixpoint find_index {A} (f : A -> bool) (l : list A) : option nat :=
    match l with
    | [] => None
    | a :: l' => if f a then Some 0 else option_map S (find_index f l')
    end.

  (** [setup_installers], impl.py:386-430.  Objects are identified by their position in
      [installer_plugins]: [inst not in self.core_installers] compares identities. *)
  Definition core_indices (insts : list (installer W R)) (names : list text) : list nat :=
    flat_map (fun n => match find_index (fun i => eqb (in_name i) n) insts with Some k => [k] | None => [] end) names.

  Definition additional_indices (insts : list (installer W R)) (core : list nat) : list nat :=
    filter (fun k => negb (mem k core) && match nth_error insts k with Some i => in_additional i | None => false end)
      (seq 0 (List.length insts)).

  Definition at_indices {A} (l : list A) (ks : list nat) : list A :=
    flat_map (fun k => match nth_error l k with Some a => [a] | None => [] end) ks.

  (** impl.py:399-401: the options of every plugin, under its name at that time. *)
  Definition configure_installers (config : pydict) (plugins : list inst_plugin) : res (list (installer W R)) :=
    let* io := attr config (u "installer_options") in
    match io with
    | VDict d =>
      mapM (fun p => ip_set_options p (match get (KStr (ip_name p)) d with Some v => v | None => VDict [] end)) plugins
    | _ => match plugins with [] => Ok [] | _ => Err AttributeError end
    end.

  (** impl.py:403-412 *)
  Definition core_names (config : pydict) (x : os_object W) (version : text) (os_options : pydict) : res (list text) :=
    let* c := attr config (u "core_installers") in
    match c with
    | VNone => Ok (os_core (delegate x) version os_options)
    | _ => names_of c
    end.

  Definition setup_installers (config : pydict) (x : os_object W) (os_options : pydict)
      (plugins : list inst_plugin) (w : W) : res (context W R) :=
    let* t := obj_tuple x w in
    let (os, version) := (t : text * text) in
    let* insts := configure_installers config plugins in
    let* names := core_names config x version os_options in
    let* ua := attr config (u "use_additional_installers") in
    let core := core_indices insts names in
    let additional := if truthy ua then additional_indices insts core else [] in
    Ok {| cx_ic := {| ic_os := os; ic_version := version; ic_default := os_default (delegate x) |};
          cx_plugins := insts;
          cx_core := at_indices insts core;
          cx_additional := at_indices insts additional |}.

  (** [InstallerContext(config)], impl.py:255-270, with the entry points of the two kinds of plugins. *)
  Definition make_context (config : pydict) (os_eps : list (res (definition (os_plugin W))))
      (inst_eps : list (res (definition inst_plugin))) (w : W) : res (context W R) :=
    let* dos := attr2 config (u "disabled_plugins") (u "os") in
    let* dos := texts_of dos in
    let* oses := load_plugins (fun o => Ok (KStr (os_name o))) os_eps dos in
    let* xo := setup_os config oses w in
    let* di := attr2 config (u "disabled_plugins") (u "installer") in
    let* di := texts_of di in
    let* insts := load_plugins (fun i => Ok (KStr (ip_name i))) inst_eps di in
    setup_installers config (fst xo) (snd xo) insts w.
End Context.
Arguments inst_plugin W R : clear implicits.

(** ** The bundled installer plugins, setup.py:81-87 *)
Section Bundled.
  Context {W : Type}.
  Variable env : penv.
  Variable root : bool.
  Variable program_installed : text -> act W bool.
  Variable freeze : act W text.
  Variables exists_ isdir : text -> W -> bool.
  Variable makedirs : text -> act W unit.

  (** A plugin whose name does not depend on its options. *)
  Definition fixed_plugin (name : text) (as_root_default : bool)
      (make : bool -> installer W pydict) : inst_plugin W pydict :=
    {| ip_name := name;
       ip_set_options := fun v =>
         let* o := set_options env (options_description as_root_default []) v in
         let* r := as_root o in Ok (make r) |}.

  (** Options of fake.py:66-74 *)
  Definition fake_options : list item :=
    [ make_item (u "fake_name") TString (VStr (u "fake")) None None None;
      make_item (u "install_dir") TPath (VStr (expand_input_path env (u "~/.fake-installer"))) None None None ].

  Definition text_option (o : pydict) (name : text) : res text :=
    let* v := attr o name in
    match v with VStr s => Ok s | VNone => Ok [] | _ => Err TypeError end.

  Definition fake_plugin : inst_plugin W pydict :=
    {| ip_name := u "fake";
       ip_set_options := fun v =>
         let* o := set_options env (options_description false fake_options) v in
         let* r := as_root o in
         let* n := text_option o (u "fake_name") in
         let* d := text_option o (u "install_dir") in
         Ok (fake env root exists_ isdir makedirs d n r) |}.

  Definition bundled_installers : list (inst_plugin W pydict) :=
    [ fake_plugin;
      fixed_plugin (u "apt") true (apt env root program_installed);
      fixed_plugin (u "homebrew") false (homebrew env root program_installed);
      fixed_plugin (u "macports") true (macports env root program_installed);
      fixed_plugin (u "pip") true (pip env root program_installed freeze) ].
End Bundled.

(** An entry point with a valid definition whose class has the default check of names. *)
Definition entry_point {P} (uni : N -> bool) (name_of : P -> res pkey) (plugin_name : text) (p : P) : res (definition P) :=
  Ok (DDict (Some (VStr plugin_name)) (Some (VStr plugin_name))
        (Some (AClass {| pc_derived := true; pc_new := Ok p; pc_verify := base_verify_plugin name_of uni |}))).

(** An os plugin that looks at the part of a larger state. *)
Definition at_machine {W} (f : W -> machine) (o : os_plugin machine) : os_plugin W :=
  {| os_name := os_name o; os_parents := os_parents o; os_is := fun w => os_is o (f w);
     os_version := fun w => os_version o (f w); os_known := os_known o; os_tuples := os_tuples o;
     os_core := os_core o; os_options_description := os_options_description o; os_default := os_default o |}.

(** The entry points of the bundled plugins, setup.py:75-87. *)
Definition bundled_os_eps {W} (uni : N -> bool) (f : W -> machine) : list (res (definition (os_plugin W))) :=
  flat_map (fun b => match plugin_of b with
                     | Some o => [entry_point uni (fun o => Ok (KStr (os_name o))) (os_name o) (at_machine f o)]
                     | None => []
                     end) builtin_oses.
Definition bundled_inst_eps {W R} (uni : N -> bool) (l : list (inst_plugin W R)) : list (res (definition (inst_plugin W R))) :=
  map (fun p => entry_point uni (fun p => Ok (KStr (ip_name p))) (ip_name p) p) l.
