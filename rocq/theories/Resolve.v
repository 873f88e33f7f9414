(** Model of xylem/resolve.py:43-156. *)
From Verif Require Import Base Dict PyVal Sources Util Installer.

Section Resolve.
  Context {W R : Type}.
  (** The database as seen by resolve: [database.lookup(key, ic)] and
      [database.keys(ic)] (Sources.v: [db_lookup], [db_keys]).  Keys of the database
      are texts here; verified rules data has no other keys. *)
  Variable db_lookup : text -> res pydict.
  Variable db_keys : res (list text).
  Variable cx : context W R.

  (** resolve.py:73-81: inverse install-from mapping.  The mapping is given in
      iteration order. *)
  Definition install_from_map (install_from : dict text (list text)) : dict text text :=
    fold_left (fun m p =>
      fold_left (fun m k => if has k m then m else set k (fst p) m) (snd p) m)
      install_from [].

  (** resolve.py:127-133: the loop over the additional installers has no [break]. *)
  Fixpoint last_match (d : pydict) (l : list (installer W R)) (found : option (installer W R)) :=
    match l with
    | [] => found
    | i :: l' => last_match d l' (if has (KStr (in_name i)) d then Some i else found)
    end.

  (** resolve.py:99-143: choice of rule and installer; [None] stands for an appended
      ResolutionError. *)
  Definition choose (m : dict text text) (key : text) (d : pydict) : option (installer W R * pyval) :=
    let pick (o : option (installer W R)) :=
      match o with
      | Some i => match get (KStr (in_name i)) d with Some rule => Some (i, rule) | None => None end
      | None => None
      end in
    match get key m with
    | Some inst_name =>
      match lookup_installer cx inst_name with
      | None => None
      | Some i => match get (KStr inst_name) d with Some rule => Some (i, rule) | None => None end
      end
    | None =>
      match find (fun i => has (KStr (in_name i)) d) (cx_core cx) with
      | Some i => pick (Some i)
      | None => pick (last_match d (cx_additional cx) None)
      end
    end.

  (** resolve.py:84-154, one iteration: [inl] a result, [inr] an error, [Err] an
      exception that leaves resolve. *)
  Definition resolve_key (m : dict text text) (key : text) : res ((text * list R) + exn) :=
    match db_lookup key with
    | Err e => if is_LookupError e then Ok (inr ResolutionError) else Err e
    | Ok [] => Ok (inr ResolutionError)
    | Ok d =>
      match choose m key d with
      | None => Ok (inr ResolutionError)
      | Some (i, rule) =>
        match in_resolve i rule with
        | Ok rs => Ok (inl (in_name i, rs))
        | Err e => if is_InstallerError e then Ok (inr ResolutionError) else Err e
        end
      end
    end.

  Definition resolve_step (m : dict text text)
      (acc : list (text * (text * list R)) * list (text * exn)) (key : text) :=
    let* x := resolve_key m key in
    Ok (match x with
        | inl r => (fst acc ++ [(key, r)], snd acc)
        | inr e => (fst acc, snd acc ++ [(key, e)])
        end).

  (** resolve.py:62-65 *)
  Definition lookup_keys (xylem_keys : list text) (all_keys : bool) : res (list text) :=
    if all_keys then let* ks := db_keys in Ok (remove_duplicates (xylem_keys ++ text_sorted ks))
    else Ok (remove_duplicates xylem_keys).

  (** resolve.py:43-156.  Preparing configuration, contexts and database (lines
      52-58) is outside. *)
  Definition resolve (install_from : dict text (list text)) (xylem_keys : list text) (all_keys : bool)
    : res (list (text * (text * list R)) * list (text * exn)) :=
    let* ks := lookup_keys xylem_keys all_keys in
    foldM (resolve_step (install_from_map install_from)) ks ([], []).
End Resolve.
