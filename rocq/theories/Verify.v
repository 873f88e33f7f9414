(** Model of the verification part of xylem/sources/rules_dict.py, on raw
    Python values, and of raw (unverified) lookup. *)
From Verif Require Import Base Dict PyVal RulesDict.

(** [\w] for code points below 128. *)
Definition ascii_word (c : N) : bool :=
  ((48 <=? c) && (c <=? 57) || (65 <=? c) && (c <=? 90) ||
   (97 <=? c) && (c <=? 122) || (c =? 95))%N.

Section Verify.
  (** Unicode database: is a code point >= 128 alphanumeric?  (the (?u) flag) *)
  Variable uni_word : N -> bool.

  (** Character class [[\w.’+-]], rules_dict.py:283; U+2019 is 8217. *)
  Definition ident_char (c : N) : bool :=
    (if (c <? 128)%N then ascii_word c else uni_word c)
    || (c =? 46)%N || (c =? 8217)%N || (c =? 43)%N || (c =? 45)%N.

  (** Longest prefix of class characters and the rest. *)
  Fixpoint span_ident (s : text) : text * text :=
    match s with
    | [] => ([], [])
    | c :: s' => if ident_char c then let '(a, b) := span_ident s' in (c :: a, b)
                 else ([], s)
    end.

  (** [re.match('(?u)^[\w.’+-]+$', s)], rules_dict.py:283.  In python [$]
      matches at the end and before a newline at the end. *)
  Definition re_identifier (s : text) : bool :=
    match span_ident s with
    | ([], _) => false
    | (_ :: _, []) => true
    | (_ :: _, [c]) => (c =? 10)%N
    | (_ :: _, _ :: _ :: _) => false
    end.

  Definition mountain_lion : text := u "mountain lion".

  (** rules_dict.py:261-286 [verify_rules_dict_identifier] for text. *)
  Definition verify_text_identifier (s : text) (allow : list text) : res unit :=
    if mem s [any_os; any_version; default_installer; unset_installers; any_key]
       && negb (mem s allow) then Err ValueError
    else if mem s [mountain_lion] then Ok tt
    else if re_identifier s then Ok tt
    else Err ValueError.

  (** The same for a dict key; non-text keys raise ValueError (line 276-277). *)
  Definition verify_key_identifier (k : pkey) (allow : list text) : res unit :=
    match k with KStr s => verify_text_identifier s allow | _ => Err ValueError end.

  (** The same for a value (list element of 'depends'). *)
  Definition verify_val_identifier (v : pyval) (allow : list text) : res unit :=
    match v with VStr s => verify_text_identifier s allow | _ => Err ValueError end.

  (** rules_dict.py:228-258: [verify_xylem_key], [verify_os_name],
      [verify_os_version], [verify_installer_name]. *)
  Definition verify_xylem_key (k : pkey) := verify_key_identifier k [].
  Definition verify_os_name (k : pkey) := verify_key_identifier k [any_os].
  Definition verify_os_version (k : pkey) := verify_key_identifier k [any_version].
  Definition verify_installer_name (k : pkey) := verify_key_identifier k [default_installer].

  Definition k_packages : pkey := KStr (u "packages").
  Definition k_depends : pkey := KStr (u "depends").

  (** rules_dict.py:195-225 [verify_installer_rule]; body of the loop. *)
  Definition verify_rule_item (p : pkey * pyval) : res unit :=
    match fst p with
    | KStr _ =>
      let* _ := (if eqb (fst p) k_packages
                 then match snd p with VList _ => Ok tt | _ => Err ValueError end
                 else Ok tt) in
      if eqb (fst p) k_depends then
        match snd p with
        | VList l => forM_ (fun x => verify_val_identifier x []) l
        | _ => Err ValueError
        end
      else Ok tt
    | _ => Err ValueError
    end.

  Definition verify_installer_rule (v : pyval) : res unit :=
    match v with
    | VDict d => forM_ verify_rule_item d
    | _ => Err ValueError
    end.

  (** rules_dict.py:166-192 [verify_installer_dict]. *)
  Definition verify_installer_dict (v : pyval) (allow_default : bool) : res unit :=
    match v with
    | VDict d =>
      forM_ (fun p =>
        let* _ := (if negb allow_default && eqb (fst p) (KStr default_installer)
                   then Err ValueError else Ok tt) in
        let* _ := verify_installer_name (fst p) in
        verify_installer_rule (snd p)) d
    | _ => Err ValueError
    end.

  (** rules_dict.py:140-163 [verify_version_dict]. *)
  Definition verify_version_dict (v : pyval) (allow_default : bool) : res unit :=
    match v with
    | VDict d =>
      forM_ (fun p => let* _ := verify_os_version (fst p) in
                      verify_installer_dict (snd p) allow_default) d
    | _ => Err ValueError
    end.

  (** rules_dict.py:110-133 [verify_os_dict]. *)
  Definition verify_os_dict (v : pyval) (allow_default : bool) : res unit :=
    match v with
    | VDict d =>
      forM_ (fun p => let* _ := verify_os_name (fst p) in
                      verify_version_dict (snd p)
                        (allow_default && negb (eqb (fst p) (KStr any_os)))) d
    | _ => Err ValueError
    end.

  (** rules_dict.py:84-107 [verify_rules_dict].  Note that the parameter is not
      passed on (line 102 calls [verify_os_dict(os_dict)]). *)
  Definition verify_rules_dict (v : pyval) (allow_default : bool) : res unit :=
    match v with
    | VDict d =>
      forM_ (fun p => let* _ := verify_xylem_key (fst p) in
                      verify_os_dict (snd p) true) d
    | _ => Err ValueError
    end.

End Verify.

(** Embedding of typed dicts into values. *)
Definition inj_dict {V} (f : V -> pyval) (d : dict text V) : pyval :=
  VDict (map (fun p => (KStr (fst p), f (snd p))) d).
Definition inj_id : installer_dict pyval -> pyval := inj_dict (fun x => x).
Definition inj_vd : version_dict pyval -> pyval := inj_dict inj_id.
Definition inj_od : os_dict pyval -> pyval := inj_dict inj_vd.
Definition inj_rules : rules_dict pyval -> pyval := inj_dict inj_od.

(** Raw lookup: rules_dict.py:34-72 on arbitrary values, where [.get] on a
    non-dict raises AttributeError. *)
Definition raw_get (k : text) (v : pyval) : res pyval :=
  match v with
  | VDict d => Ok (match get (KStr k) d with Some x => x | None => VDict [] end)
  | _ => Err AttributeError
  end.

Definition raw_replace (k : pkey) (def : option text) : res pkey :=
  match k with
  | KStr s => let* n := replace_default_installer s def in Ok (KStr n)
  | _ => Ok k
  end.

Definition raw_merge (new : pyval) (combined : pydict) (def : option text) : res pydict :=
  match new with
  | VDict d => foldM (fun c p => let* n := raw_replace (fst p) def in Ok (set n (snd p) c)) d combined
  | _ => Err AttributeError
  end.

Definition raw_lookup (rules : pyval) (key os version : text) (def : option text) : res pyval :=
  let* od := raw_get key rules in
  let* vd := raw_get os od in
  let* ao := raw_get any_os od in
  let* any_os_id := raw_get any_version ao in
  let* any_version_id := raw_get any_version vd in
  let* specific_id := raw_get version vd in
  let* c := raw_merge any_os_id [] def in
  let* c := raw_merge any_version_id c def in
  let* c := raw_merge specific_id c def in
  Ok (VDict c).
