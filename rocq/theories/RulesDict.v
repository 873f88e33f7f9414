(** Model of xylem/sources/rules_dict.py: lookup, key listing and merging of
    (expanded) rules dicts.  Verification is modelled in [Verify.v].

    A rules dict is a four level nested dict
      xylem key -> os name -> os version -> installer name -> installer rule.
    Installer rules are opaque for this part of the code, hence [R]. *)
From Verif Require Import Base Dict.

(** Keywords, rules_dict.py:270-271. *)
Definition any_os : text := u "any_os".
Definition any_version : text := u "any_version".
Definition default_installer : text := u "default_installer".
Definition unset_installers : text := u "unset_installers".
Definition any_key : text := u "any_key".

Notation installer_dict R := (dict text R).
Notation version_dict R := (dict text (installer_dict R)).
Notation os_dict R := (dict text (version_dict R)).
Notation rules_dict R := (dict text (os_dict R)).

Section RulesDict.
  Context {R : Type}.

  (** [d.get(k, {})] for nested dicts. *)
  Definition getd {V} (k : text) (d : dict text (list V)) : list V :=
    match get k d with Some v => v | None => [] end.

  (** rules_dict.py:466-482 [replace_default_installer].  The default installer
      name is [None] or a text; [if default_installer_name:] is false for None
      and for the empty text. *)
  Definition replace_default_installer (name : text) (def : option text) : res text :=
    if eqb name default_installer then
      match def with
      | Some (c :: n) => Ok (c :: n)
      | _ => Err ValueError
      end
    else Ok name.

  (** rules_dict.py:395-401 [merge_installer_dict].  The python function mutates
      [combined]; here the new value is returned. *)
  Definition merge_installer_dict (new combined : installer_dict R) (def : option text)
    : res (installer_dict R) :=
    foldM (fun c p => let* name := replace_default_installer (fst p) def in
                      Ok (set name (snd p) c)) new combined.

  (** rules_dict.py:34-72 [lookup_rules]. *)
  Definition lookup_rules (rules : rules_dict R) (key os version : text) (def : option text)
    : res (installer_dict R) :=
    let od := getd key rules in
    let vd := getd os od in
    let any_os_id := getd any_version (getd any_os od) in
    let any_version_id := getd any_version vd in
    let specific_id := getd version vd in
    let* c := merge_installer_dict any_os_id [] def in
    let* c := merge_installer_dict any_version_id c def in
    merge_installer_dict specific_id c def.

  (** rules_dict.py:75-81 [has_rule_for_os]; the implicit [None] result (os not
      in the dict) is falsy, as is [False]. *)
  Definition has_rule_for_os (od : os_dict R) (os version : text) : bool :=
    if has any_os od then true
    else match get os od with
         | Some vd => has version vd || has any_version vd
         | None => false
         end.

  (** rules_dict.py:448-463 [copy_installer_dict]. *)
  Definition copy_installer_dict (id : installer_dict R) (def : option text) : res (installer_dict R) :=
    foldM (fun c p => let* name := replace_default_installer (fst p) def in
                      Ok (set name (snd p) c)) id [].

  (** rules_dict.py:430-445 [copy_version_dict]. *)
  Definition copy_version_dict (vd : version_dict R) (def : option text) : res (version_dict R) :=
    foldM (fun c p => let* id := copy_installer_dict (snd p) def in
                      Ok (set (fst p) id c)) vd [].

  (** rules_dict.py:404-427 [copy_os_dict]. [defs] maps os names to the name of
      the default installer. *)
  Definition copy_os_dict (od : os_dict R) (defs : dict text (option text)) : res (os_dict R) :=
    foldM (fun c p =>
             if eqb (fst p) any_os then
               let* vd := copy_version_dict (snd p) None in Ok (set (fst p) vd c)
             else match get (fst p) defs with
                  | Some def => let* vd := copy_version_dict (snd p) def in Ok (set (fst p) vd c)
                  | None => Ok c
                  end) od [].

  (** rules_dict.py:504-522 [remove_rule_for_all_versions].  The loop runs over
      a snapshot of the items and deletes entries from the live dict, which is
      the same as keeping the surviving entries in order. *)
  Fixpoint remove_rule_for_all_versions (vd : version_dict R) (name : text) (retain : bool)
    : version_dict R :=
    match vd with
    | [] => []
    | (v, id) :: vd' =>
      let rest := remove_rule_for_all_versions vd' name retain in
      if retain && eqb v any_version then (v, id) :: rest
      else match (if has name id then del name id else id) with
           | [] => rest
           | id' => (v, id') :: rest
           end
    end.

  (** rules_dict.py:485-501 [remove_rule_for_all_os]. *)
  Fixpoint remove_rule_for_all_os (od : os_dict R) (name : text) : os_dict R :=
    match od with
    | [] => []
    | (os, vd) :: od' =>
      let rest := remove_rule_for_all_os od' name in
      if eqb os any_os then (os, vd) :: rest
      else match remove_rule_for_all_versions vd name false with
           | [] => rest
           | vd' => (os, vd') :: rest
           end
    end.

  (** rules_dict.py:367-392 [merge_version_dict]; lines 374-384 are the
      [any_version] part, 385-392 the loop over all versions. *)
  Definition merge_any_version (new combined : version_dict R) (def : option text)
    : res (version_dict R) :=
    match get any_version new with
    | None => Ok combined
    | Some nid =>
      let* c := foldM (fun c name => let* n := replace_default_installer name def in
                                     Ok (remove_rule_for_all_versions c n true))
                      (keys nid) combined in
      match get any_version c with
      | Some cid => let* cid' := merge_installer_dict nid cid None in
                    Ok (set any_version cid' c)
      | None => let* cid' := copy_installer_dict nid def in
                Ok (set any_version cid' c)
      end
    end.

  Definition merge_version_step (def : option text) (c : version_dict R) (p : text * installer_dict R)
    : res (version_dict R) :=
    match get (fst p) c with
    | None => let* id := copy_installer_dict (snd p) def in Ok (set (fst p) id c)
    | Some cid => let* id := merge_installer_dict (snd p) cid def in Ok (set (fst p) id c)
    end.

  Definition merge_version_dict (new combined : version_dict R) (def : option text)
    : res (version_dict R) :=
    let* c := merge_any_version new combined def in
    foldM (merge_version_step def) new c.

  (** rules_dict.py:335-364 [merge_os_dict]; lines 340-355 are the [any_os]
      part, 356-364 the loop over all oses. *)
  Definition merge_any_os (new combined : os_dict R) : res (os_dict R) :=
    match get any_os new with
    | None => Ok combined
    | Some nvd =>
      let* nid := getitem any_version nvd in
      let* c := foldM (fun c name => let* n := replace_default_installer name None in
                                     Ok (remove_rule_for_all_os c n))
                      (keys nid) combined in
      match get any_os c with
      | Some cvd => let* cid := getitem any_version cvd in
                    let* cid' := merge_installer_dict nid cid None in
                    Ok (set any_os (set any_version cid' cvd) c)
      | None => let* cvd := copy_version_dict nvd None in
                Ok (set any_os cvd c)
      end
    end.

  Definition merge_os_step (defs : dict text (option text)) (c : os_dict R) (p : text * version_dict R)
    : res (os_dict R) :=
    match get (fst p) defs with
    | None => Ok c
    | Some def =>
      match get (fst p) c with
      | None => let* vd := copy_version_dict (snd p) def in Ok (set (fst p) vd c)
      | Some cvd => let* vd := merge_version_dict (snd p) cvd def in Ok (set (fst p) vd c)
      end
    end.

  Definition merge_os_dict (new combined : os_dict R) (defs : dict text (option text)) : res (os_dict R) :=
    let* c := merge_any_os new combined in
    foldM (merge_os_step defs) new c.

  (** rules_dict.py:293-332 [merge_rules]. *)
  Definition merge_rules_step (defs : dict text (option text)) (c : rules_dict R) (p : text * os_dict R)
    : res (rules_dict R) :=
    match get (fst p) c with
    | None => let* od := copy_os_dict (snd p) defs in
              match od with [] => Ok c | _ => Ok (set (fst p) od c) end
    | Some cod => let* od := merge_os_dict (snd p) cod defs in Ok (set (fst p) od c)
    end.

  Definition merge_rules (l : list (rules_dict R)) (defs : dict text (option text)) : res (rules_dict R) :=
    foldM (fun c rules => foldM (merge_rules_step defs) rules c) (rev l) [].

  (** specs/plugins/rules.py:322-328 [RulesSpec.keys]. *)
  Definition spec_keys (rules : rules_dict R) (os version : text) : list text :=
    keys (filter (fun p => has_rule_for_os (snd p) os version) rules).

End RulesDict.
