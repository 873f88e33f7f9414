(** Model of xylem/os_support/impl.py, os_base.py, plugins.py and the parts of
    os_detect.py that they use. *)
From Verif Require Import Base Dict PyVal Paths Config Installers.

(** ** Version order, os_base.py:36-52 *)
(** [len(versions) == len(set(versions))] *)
Fixpoint all_distinct (l : list text) : bool :=
  match l with [] => true | x :: l' => negb (mem x l') && all_distinct l' end.

(** [versions.index(a)] for a member *)
Fixpoint index_of (a : text) (l : list text) : nat :=
  match l with [] => 0 | x :: l' => if eqb a x then 0 else S (index_of a l') end.

(** [version_order_from_list]; [version_less] is the returned function. *)
Definition version_less (versions : list text) (a b : text) : res bool :=
  if negb (mem a versions) then Err UnsupportedOSVersionError
  else if negb (mem b versions) then Err UnsupportedOSVersionError
  else Ok (index_of a versions <? index_of b versions).
Definition version_order_from_list (versions : list text) : res (text -> text -> res bool) :=
  if all_distinct versions then Ok (version_less versions) else Err AssertionError.

(** ** OS plugins *)
Section Os.
  (** The machine, as far as detection looks at it. *)
  Context {W : Type}.

  (** impl.py:55-197 [OS]; the parts that matter for detection, override and set up of the
      installers.  The current value of [options] is kept by the caller.  [os_name] is [all_names[0]] for [OSBase] (os_base.py:103-105), which raises for an
      empty list; plugins without names are not modelled. *)
  Record os_plugin := {
    os_name : text;
    os_parents : list text;                       (* all_names[1:] *)
    os_is : W -> res bool;                        (* is_os *)
    os_version : W -> res text;                   (* get_version *)
    os_known : list text;                         (* known_versions *)
    os_tuples : option text -> list (text * option text);   (* get_all_tuples *)
    os_core : text -> pydict -> list text;        (* get_core_installers(version, options) *)
    os_options_description : desc;                (* os_base.py:74-80 *)
    os_default : option text                      (* default_installer *)
  }.
  Definition os_all_names (o : os_plugin) : list text := os_name o :: os_parents o.

  (** The object in [OSSupport._os]: a plugin or an [OSOverride] (impl.py:200-288), which
      delegates everything except [is_os], [get_version] and [get_tuple]. *)
  Inductive os_object :=
  | Plugin (o : os_plugin)
  | OSOverride (o : os_plugin) (version : text).

  Definition delegate (x : os_object) : os_plugin := match x with Plugin o | OSOverride o _ => o end.
  Definition obj_name (x : os_object) : text := os_name (delegate x).
  (** [get_version]: plugins.py / impl.py:245-247 *)
  Definition obj_version (x : os_object) (w : W) : res text :=
    match x with Plugin o => os_version o w | OSOverride _ v => Ok v end.
  (** [get_tuple], os_base.py:107-108 and impl.py:249-251 *)
  Definition obj_tuple (x : os_object) (w : W) : res (text * text) :=
    let* v := obj_version x w in Ok (obj_name x, v).
  (** [is_os]: os plugin, or impl.py:276-278 *)
  Definition obj_is (x : os_object) (w : W) : res bool :=
    match x with Plugin o => os_is o w | OSOverride _ _ => Ok true end.

  (** [OSOverride.__init__], impl.py:209-233. *)
  Definition make_override (o : os_plugin) (version : option text) (w : W) : res os_object :=
    match version with
    | None => let* v := os_version o w in Ok (OSOverride o v)
    | Some v => if mem v (os_known o) then Ok (OSOverride o v) else Err UnsupportedOSVersionError
    end.

  (** ** OSSupport, impl.py:291-386 *)
  (** [lookup_os], impl.py:325-330 *)
  Definition lookup_os (plugins : list os_plugin) (name : text) : option os_plugin :=
    find (fun o => eqb name (os_name o)) plugins.

  (** [get_default_installer_names], impl.py:332-334: a dict comprehension. *)
  Definition get_default_installer_names (plugins : list os_plugin) : dict text (option text) :=
    fold_left (fun d o => set (os_name o) (os_default o) d) plugins [].

  (** An [OSSupport] object: the loaded plugins and [_os]. *)
  Record os_support := { s_plugins : list os_plugin; s_os : option os_object }.
  Definition with_os (s : os_support) (x : os_object) : os_support :=
    {| s_plugins := s_plugins s; s_os := Some x |}.

  (** [override_os], impl.py:336-354; [None] stands for every false argument.  Result and the
      object afterwards. *)
  Definition override_os (s : os_support) (t : option (text * option text)) (w : W) : res unit * os_support :=
    match t with
    | None => (Ok tt, s)
    | Some (name, version) =>
      match lookup_os (s_plugins s) name with
      | None => (Err UnsupportedOSError, s)
      | Some o =>
        match make_override o version w with
        | Ok x => (Ok tt, with_os s x)
        | Err e => (Err e, s)
        end
      end
    end.

  (** The loop of [detect_os], impl.py:367-381; the machine does not change during detection.
      The warning about an ignored os is not modelled. *)
  Fixpoint detect_loop (result : option os_plugin) (plugins : list os_plugin) (w : W) : res (option os_plugin) :=
    match plugins with
    | [] => Ok result
    | o :: rest =>
      let* b := os_is o w in
      if b then
        match result with
        | None => detect_loop (Some o) rest w
        | Some r =>
          if mem (os_name o) (os_all_names r) then detect_loop (Some r) rest w
          else if mem (os_name r) (os_all_names o) then detect_loop (Some o) rest w
          else detect_loop (Some r) rest w
        end
      else detect_loop result rest w
    end.

  (** [detect_os], impl.py:356-386 *)
  Definition detect_os (s : os_support) (w : W) : res unit * os_support :=
    match detect_loop None (s_plugins s) w with
    | Err e => (Err e, s)
    | Ok None => (Err UnsupportedOSError, s)
    | Ok (Some o) => (Ok tt, with_os s (Plugin o))
    end.

  (** [current_os], impl.py:306-318 *)
  Definition current_os (s : os_support) (w : W) : res os_object * os_support :=
    match s_os s with
    | Some x => (Ok x, s)
    | None =>
      match detect_os s w with
      | (Err e, s') => (Err e, s')
      | (Ok _, s') => (match s_os s' with Some x => Ok x | None => Err AttributeError end, s')
      end
    end.
End Os.
Arguments os_plugin W : clear implicits.
Arguments os_object W : clear implicits.
Arguments os_support W : clear implicits.

(** ** Detectors, os_detect.py *)
(** What the detectors used by the builtin plugins look at: [platform.linux_distribution]
    (id, version, codename), whether /usr/bin/sw_vers exists and what it prints. *)
Record machine := {
  m_lsb : option (text * text * text);
  m_sw_vers : option (option text);       (* Some None: it exists but can not be run *)
  m_strict_version : text -> option (Z * Z)  (* distutils' StrictVersion: major and minor, if it parses *)
}.

Record detector := {
  d_is : machine -> res bool;
  d_get_version : machine -> res (option text);
  d_get_codename : machine -> res (option text)
}.

(** [LsbDetect], os_detect.py:96-120 *)
Definition lsb_detect (name : text) : detector :=
  let is m := match m_lsb m with Some (n, _, _) => eqb n name | None => false end in
  {| d_is m := Ok (is m);
     d_get_version m := match m_lsb m with
                        | Some (n, v, _) => if eqb n name then Ok (Some v) else Err OsNotDetected
                        | None => Err OsNotDetected end;
     d_get_codename m := match m_lsb m with
                        | Some (n, _, c) => if eqb n name then Ok (Some c) else Err OsNotDetected
                        | None => Err OsNotDetected end |}.

(** [_osx_codename_map], [_osx_codename], os_detect.py:216-226 *)
Definition osx_codename_map : dict Z text :=
  [ (4, u "tiger"); (5, u "leopard"); (6, u "snow"); (7, u "lion");
    (8, u "mountain lion"); (9, u "mavericks"); (10, u "yosemite") ]%Z.
Definition osx_codename (major minor : Z) : res text :=
  if negb (major =? 10)%Z then Err OsNotDetected
  else match get minor osx_codename_map with Some c => Ok c | None => Err OsNotDetected end.

(** [OSX], os_detect.py:228-252.  [_read_stdout] returns None when the program can not be run;
    [StrictVersion] of None or the empty text makes an object without version:
    AttributeError. *)
Definition osx_detect : detector :=
  {| d_is m := Ok (match m_sw_vers m with Some _ => true | None => false end);
     d_get_version m := match m_sw_vers m with Some o => Ok o | None => Err OsNotDetected end;
     d_get_codename m :=
       match m_sw_vers m with
       | None => Err OsNotDetected
       | Some None | Some (Some []) => Err AttributeError
       | Some (Some v) =>
         match m_strict_version m v with
         | Some (major, minor) => let* c := osx_codename major minor in Ok (Some c)
         | None => Err OsNotDetected
         end
       end |}.

(** ** [OsDetect], os_detect.py:387-496 *)
Section OsDetect.
  Context {D : Type}.   (* detector objects *)
  (** [add_detector] / [register_default]: insertion in front of the list. *)
  Definition add_detector (l : list (text * D)) (name : text) (d : D) : list (text * D) := (name, d) :: l.
  (** [get_detector(name)], os_detect.py:454-468 *)
  Definition get_detector (l : list (text * D)) (name : text) : res D :=
    match filter (fun p => eqb (fst p) name) l with
    | p :: _ => Ok (snd p)
    | [] => Err KeyError
    end.
End OsDetect.

(** The loop of [detect_os], os_detect.py:441-446: every matching detector overwrites the result. *)
Fixpoint osdetect_loop (l : list (text * detector)) (found : option (text * (option text * option text) * detector))
    (m : machine) : res (option (text * (option text * option text) * detector)) :=
  match l with
  | [] => Ok found
  | (n, d) :: rest =>
    let* b := d_is d m in
    if b then
      let* v := d_get_version d m in
      let* c := d_get_codename d m in
      osdetect_loop rest (Some (n, (v, c), d)) m
    else osdetect_loop rest found m
  end.

(** [detect_os] without ROS_OS_OVERRIDE, os_detect.py:417-452. *)
Definition osdetect_detect (l : list (text * detector)) (m : machine) : res (text * (option text * option text)) :=
  let* r := osdetect_loop l None m in
  match r with Some (n, vc, _) => Ok (n, vc) | None => Err OsNotDetected end.

(** ** Builtin OS plugins, plugins.py *)
(** Options of [OSBase], os_base.py:74-80. *)
Definition os_options_base : desc :=
  add_items (u "options") [make_item (u "features") (TList TString) (VList []) None None None].

(** Version mapping to the next, less specific os, plugins.py:82-93. *)
Inductive mapping :=
| MNone                                 (* None *)
| MDict (d : dict text text)            (* a dict *)
| MFun (f : text -> option text).       (* a callable *)

Definition apply_mapping (m : mapping) (v : text) : option text :=
  match m with MNone => None | MDict d => get v d | MFun f => f v end.

(** [get_all_tuples], plugins.py:82-93 *)
Fixpoint tuples_loop (l : list (text * mapping)) (version : option text) : list (text * option text) :=
  match l with
  | [] => []
  | (name, m) :: l' =>
    (name, version) :: tuples_loop l' (match version with Some v => apply_mapping m v | None => None end)
  end.

(** [_OSDetecorBase], plugins.py:35-110: names and mappings, most specific first. *)
Record builtin_os := {
  b_names : list (text * mapping);
  b_versions : list text;
  b_detector : detector;
  b_use_codename : bool;
  b_core : list text;
  b_default : option text
}.

(** [get_version], plugins.py:67-80.  A codename or version that is None (not text) is mapped to the
    empty text, which is as unknown. *)
Definition builtin_version (b : builtin_os) (m : machine) : res text :=
  match (if b_use_codename b then d_get_codename (b_detector b) m else d_get_version (b_detector b) m) with
  | Ok (Some v) => Ok v
  | Ok None => Ok []
  | Err OsNotDetected => Err UnsupportedOSVersionError
  | Err e => Err e
  end.

(** [_prepend_name], plugins.py:59-61 *)
Definition prepend_name (b : builtin_os) (name : text) (m : mapping) (versions : list text) (d : detector) : builtin_os :=
  {| b_names := (name, m) :: b_names b; b_versions := versions; b_detector := d;
     b_use_codename := b_use_codename b; b_core := b_core b; b_default := b_default b |}.

Definition plugin_of (b : builtin_os) : option (os_plugin machine) :=
  match map fst (b_names b) with
  | [] => None
  | n :: parents => Some
      {| os_name := n; os_parents := parents;
         os_is := d_is (b_detector b);
         os_version := builtin_version b;
         os_known := b_versions b;
         os_tuples := tuples_loop (b_names b);
         os_core := fun _ _ => b_core b;
         os_options_description := os_options_base;
         os_default := b_default b |}
  end.

(** plugins.py:113-126 *)
Definition debian : builtin_os :=
  {| b_names := [(u "debian", MNone)];
     b_versions := [u "etch"; u "lenny"; u "squeeze"; u "wheezy"; u "jessie"];
     b_detector := lsb_detect (u "debian"); b_use_codename := true;
     b_core := [u "apt"]; b_default := Some (u "apt") |}.
(** plugins.py:136-151 *)
Definition ubuntu_versions : list text :=
  [u "lucid"; u "maverick"; u "natty"; u "oneiric"; u "precise"; u "quantal";
   u "raring"; u "saucy"; u "trusty"; u "utopic"].
Definition ubuntu : builtin_os :=
  prepend_name debian (u "ubuntu") MNone ubuntu_versions (lsb_detect (u "Ubuntu")).
(** plugins.py:162-167 *)
Definition xubuntu : builtin_os :=
  prepend_name ubuntu (u "xubuntu") (MFun Some) ubuntu_versions (lsb_detect (u "Xubuntu")).
(** plugins.py:177-192 *)
Definition osx : builtin_os :=
  {| b_names := [(u "osx", MNone)];
     b_versions := [u "tiger"; u "leopard"; u "snow"; u "lion"; u "mountain lion"; u "mavericks"; u "yosemite"];
     b_detector := osx_detect; b_use_codename := true;
     b_core := [u "homebrew"; u "pip"; u "gem"]; b_default := Some (u "homebrew") |}.

(** setup.py:75-80, in this order. *)
Definition builtin_oses : list builtin_os := [debian; ubuntu; xubuntu; osx].
