(** Model of xylem/config.py: the description of xylem's options, os overrides and
    post-processing of the loaded configuration. *)
From Verif Require Import Base Dict PyVal Sources Util Paths Config.

(** [description.add(name, type=..., default=..., command_line=..., ...)] *)
Definition ampersand : N := 38%N.
Definition colon : N := 58%N.
Definition comma : N := 44%N.

(** The items of [build_config_description], config.py:85-144, in order. *)
Definition xylem_items : list item :=
  let S := TString in let L := TList TString in
  [ make_item (u "os_override") S VNone None (Some (u "os")) (Some (u "name:version"));
    make_item (u "os_options/features") L VNone None (Some (u "os-features")) (Some (u "features"));
    make_item (u "core_installers") L VNone (Some true) None (Some (u "installers"));
    make_item (u "use_additional_installers") TBoolean (VBool true) (Some true) None None;
    make_item (u "install_from") (TMerging KtString L) VNone None None (Some (u "mapping"));
    make_item (u "installer_options") (TMerging KtString (TDict KtString TAny)) VNone None None
      (Some (u "mapping"));
    make_item (u "user_sources") TBoolean (VBool false) (Some true) None None;
    make_item (u "cache_dir") TPath VNone (Some true) None None;
    make_item (u "sources_dir") TPath VNone (Some true) None None;
    make_item (u "disabled_plugins/os") L (VList []) None (Some (u "disable-os-plugins")) None;
    make_item (u "disabled_plugins/installer") L (VList []) None (Some (u "disable-installer-plugins")) None;
    make_item (u "disabled_plugins/spec") L (VList []) None (Some (u "disable-spec-plugins")) None ].

(** A sequence of [add] calls that stops at the first exception. *)
Definition add_all (d : desc) (its : list item) : res desc :=
  foldM (fun d it => match add d it with (d', Ok _) => Ok d' | (_, Err e) => Err e end) its d.

Definition build_config_description : res desc := add_all (empty_desc (u "config.yaml")) xylem_items.

(** [parse_os_override], config.py:234-257. *)
Definition parse_os_override (s : text) : text * option text * option (list text) :=
  let '(os_tuple, features) :=
    match split_once ampersand s with
    | Some (a, b) => (strip a, Some (match strip b with
                                     | [] => []
                                     | f => map strip (split_on comma f)
                                     end))
    | None => (s, None)
    end in
  let '(name, version) :=
    match split_once colon os_tuple with
    | Some (a, b) => (strip a, Some (strip b))
    | None => (strip os_tuple, None)
    end in
  (name, version, features).

Section Process.
  Variable env : penv.
  Definition xylem_tool : text := u "xylem".

  (** config.py:60-62 *)
  Definition sources_dir_of (parent : text) : text := path_join parent (u "sources.d").

  (** Attribute access [config.name]. *)
  Definition attr (c : pydict) (name : text) : res pyval :=
    match get (KStr name) c with Some v => Ok v | None => Err AttributeError end.

  (** Truth value of a python value. *)
  Definition truthy (v : pyval) : bool :=
    match v with
    | VNone | VBool false | VInt 0%Z | VStr [] | VList [] | VDict [] => false
    | _ => true
    end.

  (** [process_config], config.py:260-296.  The pair (name, version) stored for [os_override]
      is represented as a list value; a version [None] is [VNone]. *)
  Definition process_config (c : pydict) (args : clargs) : res pydict :=
    let* cache := attr c (u "cache_dir") in
    let* c1 :=
      match cache with
      | VNone =>
        match a_config_dir args with
        | Some ((_ :: _) as dir) => Ok (set (KStr (u "cache_dir")) (VStr (user_cache_dir dir)) c)
        | _ =>
          let* us := attr c (u "user_sources") in
          Ok (set (KStr (u "cache_dir"))
                (VStr (if truthy us then user_cache_dir (user_config_dir env xylem_tool)
                       else system_cache_dir (a_prefix args) xylem_tool)) c)
        end
      | _ => Ok c
      end in
    let* sources := attr c1 (u "sources_dir") in
    let* c2 :=
      match sources with
      | VNone =>
        match a_config_dir args with
        | Some ((_ :: _) as dir) => Ok (set (KStr (u "sources_dir")) (VStr (sources_dir_of dir)) c1)
        | _ =>
          let* us := attr c1 (u "user_sources") in
          Ok (set (KStr (u "sources_dir"))
                (VStr (sources_dir_of (if truthy us then user_config_dir env xylem_tool
                                       else system_config_dir (a_prefix args) xylem_tool))) c1)
        end
      | _ => Ok c1
      end in
    let* ov := attr c2 (u "os_override") in
    match ov with
    | VNone => Ok c2
    | VStr s =>
      let '(name, version, features) := parse_os_override s in
      let c3 := set (KStr (u "os_override"))
                  (VList [VStr name; match version with Some v => VStr v | None => VNone end]) c2 in
      match features with
      | None => Ok c3
      | Some fs =>
        let* oo := attr c3 (u "os_options") in
        match oo with
        | VDict gd => Ok (set (KStr (u "os_options"))
                            (VDict (set (KStr (u "features")) (VList (map VStr fs)) gd)) c3)
        | _ => Err AttributeError
        end
      end
    | _ => Err TypeError
    end.

  (** [ensure_config], config.py:299-318, for a plain dict. *)
  Definition ensure_config_dict (d : desc) (c : pydict) : res pydict :=
    config_from_parsed_yaml env c d true.
End Process.
