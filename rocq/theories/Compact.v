(** Model of the compaction of (verified, expanded) rules dicts,
    xylem/specs/plugins/rules.py:453-536.  Input is a typed rules dict, i.e. the
    code is only modelled on data of verified structure (see C11); output is a
    raw value.  The code stores the compacted os dicts back into its argument;
    here the new value is returned. *)
From Verif Require Import Base Dict PyVal RulesDict Verify.

(** rules.py:453-466 [compact_installer_rule], on dicts. *)
Definition compact_installer_rule (rule : pyval) : pyval :=
  match rule with
  | VDict d => match get k_packages d with
               | Some x => if Nat.eqb (List.length d) 1 then x else rule
               | None => rule
               end
  | _ => rule
  end.

Definition is_dict (v : pyval) : bool := match v with VDict _ => true | _ => false end.

(** rules.py:475-484: replace the keyword by the default installer. *)
Definition compact_rename (result : installer_dict pyval) (def : option text)
  : res (installer_dict pyval * text) :=
  match def with
  | Some (c :: n) =>
    match get default_installer result with
    | Some rule => if has (c :: n) result then Err ValueError
                   else Ok (del default_installer (set (c :: n) rule result), c :: n)
    | None => Ok (result, c :: n)
    end
  | _ => Ok (result, default_installer)
  end.

(** rules.py:469-491 [compact_installer_dict]. *)
Definition compact_installer_dict (id : installer_dict pyval) (def : option text) : res pyval :=
  let result := map_vals compact_installer_rule id in
  let* '(result, key) := compact_rename result def in
  match get key result with
  | Some rule => if Nat.eqb (List.length result) 1 && negb (is_dict rule) then Ok rule
                 else Ok (inj_id result)
  | None => Ok (inj_id result)
  end.

(** rules.py:494-514 [compact_version_dict]; body of the loop 506-513.  [anyc] is
    the compacted any_version entry, if there is one. *)
Definition compact_version_step (def : option text) (anyc : option pyval)
    (acc : dict text pyval) (p : text * installer_dict pyval) : res (dict text pyval) :=
  if eqb (fst p) any_version then Ok acc
  else let* c := compact_installer_dict (snd p) def in
       match anyc with
       | Some a => if pyeq c a then Ok acc else Ok (set (fst p) c acc)
       | None => Ok (set (fst p) c acc)
       end.

Definition compact_version_dict (vd : version_dict pyval) (def : option text) : res pyval :=
  match get any_version vd with
  | Some aid =>
    let* a := compact_installer_dict aid def in
    if Nat.eqb (List.length vd) 1 && negb (is_dict a) then Ok a
    else let* d := foldM (compact_version_step def (Some a)) vd [(any_version, a)] in
         Ok (inj_dict (fun x => x) d)
  | None =>
    let* d := foldM (compact_version_step def None) vd [] in
    Ok (inj_dict (fun x => x) d)
  end.

(** rules.py:517-530 [compact_os_dict]; the handler prints and re-raises.
    [default_installers.get(os_name, None)]. *)
Definition compact_os_item (defs : dict text (option text)) (p : text * version_dict pyval)
  : res (text * pyval) :=
  if eqb (fst p) any_os then
    let* id := getitem any_version (snd p) in
    let* c := compact_installer_dict id None in Ok (fst p, c)
  else
    let def := match get (fst p) defs with Some d => d | None => None end in
    let* c := compact_version_dict (snd p) def in Ok (fst p, c).

Definition compact_os_dict (od : os_dict pyval) (defs : dict text (option text)) : res pyval :=
  let* d := mapM (compact_os_item defs) od in Ok (inj_dict (fun x => x) d).

(** rules.py:533-536 [compact_rules]. *)
Definition compact_rules (r : rules_dict pyval) (defs : dict text (option text)) : res pyval :=
  let* d := mapM (fun p => let* c := compact_os_dict (snd p) defs in Ok (fst p, c)) r in
  Ok (inj_dict (fun x => x) d).
