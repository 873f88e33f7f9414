(** Model of xylem/installers/installer_base.py, package_manager_installer.py and the
    installer plugins in xylem/installers/plugins/. *)
From Verif Require Import Base Dict PyVal Sources Util Paths Config XylemConfig Installer.

(** ** Resolution objects, installer_base.py:39-76 *)
(** A [Resolution] is its own attribute dictionary, so the attribute [_to_list_keys] set by
    the constructor is an entry of the dict as well. *)
Notation resolution := pydict (only parsing).
Definition k_to_list_keys : pkey := KStr (u "_to_list_keys").
Definition k_package : pkey := KStr (u "package").

(** [Resolution(d)], installer_base.py:53-56 *)
Definition make_resolution (d : pydict) : resolution :=
  set k_to_list_keys (VList [VStr (u "package")]) d.

(** [hash(value)]: lists and dicts are not hashable. *)
Definition hashable (v : pyval) : bool :=
  match v with VList _ | VDict _ => false | _ => true end.
(** [Resolution.__hash__], installer_base.py:62-63: hash of the tuple of items. *)
Definition resolution_hash (r : resolution) : res unit :=
  if forallb (fun p => hashable (snd p)) r then Ok tt else Err TypeError.

(** ** Installer rules, installer_base.py:112-116 and 142-176 *)
(** The items of [installer_rule_description], installer_base.py:112-116. *)
Definition rule_items : list item :=
  [ make_item (u "packages") (TList TString) (VList []) None None None;
    make_item (u "depends") (TList TString) (VList []) None None None ].

(** Description after a sequence of [add] calls, as the constructors do it; derived
    installers may add further items. *)
Definition add_items (ns : text) (its : list item) : desc :=
  fold_left (fun d it => fst (add d it)) its (empty_desc ns).
Definition rule_description (extra : list item) : desc := add_items (u "rule") (rule_items ++ extra).

Section Rules.
  Variable env : penv.

  (** [_parse_installer_rule], installer_base.py:142-158.  The warning about unknown keys is not modelled. *)
  Definition parse_installer_rule (d : desc) (rule : pyval) : res pydict :=
    match rule with
    | VDict r =>
      match config_from_parsed_yaml env r d true with
      | Err ConfigValueError => Err InvalidRuleError
      | x => x
      end
    | _ => Err AttributeError   (* rule.get *)
    end.

  (** [get_depends], installer_base.py:160-162 *)
  Definition get_depends (d : desc) (rule : pyval) : res pyval :=
    let* c := parse_installer_rule d rule in
    match get (KStr (u "depends")) c with Some v => Ok v | None => Err AttributeError end.

  (** [resolve], installer_base.py:164-176 *)
  Definition resolve_rule (d : desc) (rule : pyval) : res (list resolution) :=
    let* c := parse_installer_rule d rule in
    let* packages := getitem (KStr (u "packages")) c in     (* pop *)
    let c := del (KStr (u "packages")) c in
    let* _ := getitem (KStr (u "depends")) c in             (* del *)
    let c := del (KStr (u "depends")) c in
    match packages with
    | VList l => Ok (map (fun p => set k_package p (make_resolution c)) l)
    | _ => Err TypeError                                    (* iteration over None *)
    end.

  (** ** Installer options, installer_base.py:108-137 *)
  (** [as_root_default]: Homebrew and Fake change the item's default after construction
      (homebrew.py:43, fake.py:68). *)
  Definition options_description (as_root_default : bool) (extra : list item) : desc :=
    add_items (u "options") (make_item (u "as_root") TBoolean (VBool as_root_default) None None None :: extra).

  (** The [options] setter, installer_base.py:124-137: [value.get] needs a dict. *)
  Definition set_options (d : desc) (value : pyval) : res pydict :=
    match value with
    | VDict v => config_from_parsed_yaml env v d true
    | _ => Err AttributeError
    end.

  (** [self.options.as_root] as a truth value *)
  Definition as_root (options : pydict) : res bool :=
    let* v := attr options (u "as_root") in Ok (truthy v).
End Rules.

(** ** Root privileges, installer_base.py:79-87 and 183-192 *)
Definition sudo : text := u "sudo".

Definition elevate_privileges (command : cmd) : res cmd :=
  match command with
  | [] => Err IndexError
  | p :: _ => if negb (eqb p sudo) then Ok (sudo :: command) else Ok command
  end.

(** [get_install_commands] given what [get_install_commands_no_root] returned; [root] is
    [is_root()]. *)
Definition get_install_commands (as_root root : bool) (commands : list cmd) : res (list cmd) :=
  if as_root && negb root then mapM elevate_privileges commands else Ok commands.

(** ** Package managers, package_manager_installer.py:27-126 *)
(** The parts of a package manager that plugins define. *)
Record package_manager (W : Type) := {
  pm_is_installed : act W bool;
  pm_install : bool -> act W unit;        (* install_package_manager(os_tuple, interactive) *)
  pm_is_updated : act W bool;
  pm_update : bool -> act W unit          (* update_package_manager(interactive) *)
}.
Arguments pm_is_installed {W}. Arguments pm_install {W}.
Arguments pm_is_updated {W}. Arguments pm_update {W}.

Section PackageManager.
  Context {W : Type}.
  Variable pm : package_manager W.

  Definition is_NotImplementedError (e : exn) : bool :=
    match e with NotImplementedError => true | _ => false end.

  (** [check_package_manager_installed], package_manager_installer.py:65-89.  The try block covers the installation and
      the second check; [except NotImplementedError] and the [else] branch fall through to
      the final raise. *)
  Definition check_package_manager_installed (fix_ interactive : bool) : act W unit := fun w =>
    match pm_is_installed pm w with
    | (Err e, w1) => (Err e, w1)
    | (Ok true, w1) => (Ok tt, w1)
    | (Ok false, w1) =>
      if fix_ then
        match pm_install pm interactive w1 with
        | (Err e, w2) => if is_NotImplementedError e then (Err InstallerPrerequisiteError, w2) else (Err e, w2)
        | (Ok _, w2) =>
          match pm_is_installed pm w2 with
          | (Ok true, w3) => (Ok tt, w3)
          | (Ok false, w3) => (Err InstallerPrerequisiteError, w3)
          | (Err e, w3) => if is_NotImplementedError e then (Err InstallerPrerequisiteError, w3) else (Err e, w3)
          end
        end
      else (Err InstallerPrerequisiteError, w1)
    end.

  (** [check_package_manager_updated], package_manager_installer.py:97-126: an out-of-date package manager is only
      warned about. *)
  Definition check_package_manager_updated (fix_ interactive : bool) : act W unit := fun w =>
    match pm_is_updated pm w with
    | (Err e, w1) => if is_NotImplementedError e then (Ok tt, w1) else (Err e, w1)
    | (Ok true, w1) => (Ok tt, w1)
    | (Ok false, w1) =>
      if fix_ then
        match pm_update pm interactive w1 with
        | (Err e, w2) => if is_NotImplementedError e then (Ok tt, w2) else (Err e, w2)
        | (Ok _, w2) =>
          match pm_is_updated pm w2 with
          | (Ok _, w3) => (Ok tt, w3)
          | (Err e, w3) => if is_NotImplementedError e then (Ok tt, w3) else (Err e, w3)
          end
        end
      else (Ok tt, w1)
    end.

  (** [check_general_prerequisites], package_manager_installer.py:35-44 *)
  Definition pm_check_general (fix_ interactive : bool) : act W unit := fun w =>
    match check_package_manager_installed fix_ interactive w with
    | (Err e, w1) => (Err e, w1)
    | (Ok _, w1) => check_package_manager_updated fix_ interactive w1
    end.
End PackageManager.

(** ** The plugins *)
Section Plugins.
  Context {W : Type}.
  Variable env : penv.
  Variable root : bool.
  (** [is_program_installed(name)], util.py:170-181 *)
  Variable program_installed : text -> act W bool.

  (** [item.package]; the model composes commands of texts, so a package that is not a text
      is a TypeError here (in the code: when the command is formatted or executed). *)
  Definition package_of (r : resolution) : res text :=
    match get k_package r with
    | Some (VStr p) => Ok p
    | Some _ => Err TypeError
    | None => Err AttributeError
    end.

  (** [is_installed], installer_base.py:178-181, for a single item *)
  Definition is_installed_of (filter_uninstalled : list resolution -> act W (list resolution))
      (r : resolution) : act W bool := fun w =>
    match filter_uninstalled [r] w with
    | (Ok l, w') => (Ok (match l with [] => true | _ => false end), w')
    | (Err e, w') => (Err e, w')
    end.

  (** A package manager installer: name, use as additional installer, options, command for a
      package, filter and package manager. *)
  Definition pm_installer (name : text) (additional : bool) (as_root : bool)
      (command : text -> cmd) (filter_uninstalled : list resolution -> act W (list resolution))
      (pm : package_manager W) : installer W resolution :=
    {| in_name := name;
       in_additional := additional;
       in_resolve := resolve_rule env (rule_description []);
       in_check_general := pm_check_general pm;
       in_check_install := fun _ _ _ w => (Ok tt, w);
       in_filter_uninstalled := filter_uninstalled;
       in_is_installed := is_installed_of filter_uninstalled;
       in_commands := fun rs _ _ w =>
         (let* ps := mapM package_of rs in get_install_commands as_root root (map command ps), w) |}.

  (** apt.py:52-54, homebrew.py:56-58, macports.py:52-54 [filter_uninstalled] *)
  Definition filter_nothing (rs : list resolution) : act W (list resolution) := fun w => (Ok rs, w).

  (** apt, homebrew, macports and pip define [install_package_manager(self, os_tuple)] without
      the parameter [interactive] it is called with: TypeError (apt.py:56, homebrew.py:60,
      macports.py:56, pip.py:66).  None of them can tell whether it is up to date. *)
  Definition system_pm (executable : text) : package_manager W :=
    {| pm_is_installed := program_installed executable;
       pm_install := fun _ w => (Err TypeError, w);
       pm_is_updated := fun w => (Err NotImplementedError, w);
       pm_update := fun _ w => (Err NotImplementedError, w) |}.

  (** apt.py:36-59 *)
  Definition apt (as_root : bool) : installer W resolution :=
    pm_installer (u "apt") false as_root (fun p => [u "apt-get"; u "install"; p]) filter_nothing
      (system_pm (u "apt-get")).
  (** homebrew.py:39-62 *)
  Definition homebrew (as_root : bool) : installer W resolution :=
    pm_installer (u "homebrew") false as_root (fun p => [u "brew"; u "install"; p]) filter_nothing
      (system_pm (u "brew")).
  (** macports.py:36-58 *)
  Definition macports (as_root : bool) : installer W resolution :=
    pm_installer (u "macports") false as_root (fun p => [u "port"; u "install"; p]) filter_nothing
      (system_pm (u "port")).

  (** [row.split("==")[0]] *)
  Fixpoint before_eqeq (row : text) : text :=
    match row with
    | c :: row' => if is_prefix (u "==") row then [] else c :: before_eqeq row'
    | [] => []
    end.

  (** pip.py:61-64; [freeze] is [read_stdout(['pip', 'freeze'])]. *)
  Variable freeze : act W text.
  Definition newline : N := 10%N.
  Definition pip_filter_uninstalled (rs : list resolution) : act W (list resolution) := fun w =>
    match freeze w with
    | (Err e, w') => (Err e, w')
    | (Ok out, w') =>
      let installed := map before_eqeq (split_on newline out) in
      (let* l := mapM (fun r => match get k_package r with
                                | None => Err AttributeError
                                | Some (VStr p) => Ok (if mem p installed then [] else [r])
                                | Some _ => Ok [r]
                                end) rs in
       Ok (List.concat l), w')
    end.
  (** pip.py:39-68 *)
  Definition pip (as_root : bool) : installer W resolution :=
    pm_installer (u "pip") true as_root (fun p => [u "pip"; u "install"; u "-U"; p]) pip_filter_uninstalled
      (system_pm (u "pip")).

  (** fake.py:57-102.  [exists_ path], [isdir path], [makedirs path] are the file system
      operations. *)
  Variable exists_ : text -> W -> bool.
  Variable isdir : text -> W -> bool.
  Variable makedirs : text -> act W unit.
  Variable install_dir : text.
  (** fake.py:100-102 *)
  Definition fake_filename (package : text) : text := path_join install_dir package.
  (** fake.py:87-89 *)
  Definition fake_filter_uninstalled (rs : list resolution) : act W (list resolution) := fun w =>
    (let* l := mapM (fun r => let* p := package_of r in
                              Ok (if exists_ (fake_filename p) w then [] else [r])) rs in
     Ok (List.concat l), w).
  (** fake.py:91-98 *)
  Definition fake_pm : package_manager W :=
    {| pm_is_installed := fun w => (Ok (isdir install_dir w), w);
       pm_install := fun _ w => if exists_ install_dir w then (Ok tt, w) else makedirs install_dir w;
       pm_is_updated := fun w => (Err NotImplementedError, w);
       pm_update := fun _ w => (Err NotImplementedError, w) |}.
  (** [options.fake_name or FAKE_INSTALLER_DEFAULT_NAME], fake.py:76-78 *)
  Definition fake (fake_name : text) (as_root : bool) : installer W resolution :=
    pm_installer (match fake_name with [] => u "fake" | n => n end) false as_root
      (fun p => [u "touch"; fake_filename p]) fake_filter_uninstalled fake_pm.
End Plugins.
