(** Model of the expansion of rules files, xylem/specs/plugins/rules.py:345-450.
    The python code modifies its argument in place while iterating over a
    snapshot of the items and stores back under the same keys; modelled as
    mapping over the items.  Structure shared inside one YAML document (aliases)
    is modelled in HeapExpand.v, and related to this model by C91. *)
From Verif Require Import Base Dict PyVal RulesDict Verify.

Definition map_items (f : pkey -> pyval -> res pyval) (d : pydict) : res pydict :=
  mapM (fun p => let* y := f (fst p) (snd p) in Ok (fst p, y)) d.

(** rules.py:364-367, 369-372: null becomes the empty list, a string becomes a
    list of one string. *)
Definition up_convert (v : pyval) : pyval :=
  match v with
  | VNone => VList []
  | VStr s => VList [VStr s]
  | _ => v
  end.

(** rules.py:350-375 [expand_definition]; the dict part is lines 363-375. *)
Definition expand_packages (d : pydict) : pydict :=
  match get k_packages d with
  | Some x => set k_packages (up_convert x) d
  | None => d
  end.

Definition expand_depends (d : pydict) : pydict :=
  match get k_depends d with
  | Some x => if pyeq (up_convert x) (VList []) then del k_depends d
              else set k_depends (up_convert x) d
  | None => d
  end.

Definition expand_definition (v : pyval) : res pyval :=
  match up_convert v with
  | VList l => Ok (VDict (expand_depends (expand_packages [(k_packages, VList l)])))
  | VDict d => Ok (VDict (expand_depends (expand_packages d)))
  | _ => Err ValueError
  end.

(** rules.py:378-393 [expand_installer_definition]. *)
Definition expand_installer_definition (v : pyval) : res pyval :=
  let go d := let* d' := map_items (fun _ x => expand_definition x) d in Ok (VDict d') in
  match up_convert v with
  | VList l => go [(KStr default_installer, VList l)]
  | VDict d => go d
  | _ => Err ValueError
  end.

(** rules.py:396-420 [expand_os_version_definition]. *)
Definition expand_os_version_definition (os : pkey) (v : pyval) : res pyval :=
  let go d := let* d' := map_items (fun _ x => expand_installer_definition x) d in Ok (VDict d') in
  let special d :=
    if eqb os (KStr any_os) then
      if has (KStr any_version) d then
        if Nat.eqb (List.length d) 1 then go d else Err ValueError
      else go [(KStr any_version, VDict d)]
    else go d in
  match up_convert v with
  | VList l => special [(KStr any_version, VList l)]
  | VDict d => special d
  | _ => Err ValueError
  end.

(** rules.py:423-430 [expand_os_definition]. *)
Definition expand_os_definition (v : pyval) : res pyval :=
  match v with
  | VDict d => let* d' := map_items expand_os_version_definition d in Ok (VDict d')
  | _ => Err ValueError
  end.

(** rules.py:433-447 [expand_rules].  The handler of ValueError constructs a
    [SpecParsingError] (335-342), whose constructor calls [ValueError.__init__]
    on an object that is not a ValueError (XylemError derives from Exception),
    which raises TypeError.  Formatting of the message is not modelled. *)
Definition wrap_err (x : res pyval) : res pyval :=
  match x with Err ValueError => Err TypeError | r => r end.

Definition expand_rules (v : pyval) : res pyval :=
  let go d :=
    let* d' := map_items (fun _ x => wrap_err (expand_os_definition x)) d in
    Ok (VDict d') in
  match v with
  | VNone => go []
  | VDict d => go d
  | _ => Err ValueError
  end.
