(** Objects with identity: the functions of rules_dict.py and rules.py that modify dicts in
    place, on a heap of objects.  Everywhere else in the model dicts and lists are values;
    the theorems about this file say when that makes no difference. *)
From Verif Require Import Base Dict PyVal RulesDict.

(** What a variable or an entry of a container holds: an immutable value or a reference. *)
Inductive hval :=
| HNone | HBool (b : bool) | HInt (z : Z) | HStr (t : text) | HOther (t : text)
| HRef (a : nat).

(** Mutable objects. *)
Inductive obj := OList (l : list hval) | ODict (d : dict pkey hval).

(** Objects are never freed; the address of a new object is the number of objects so far. *)
Notation heap := (list obj).
Notation hm A := (heap -> res A * heap).

Definition ret {A} (x : A) : hm A := fun h => (Ok x, h).
Definition fail {A} (e : exn) : hm A := fun h => (Err e, h).
Definition lift {A} (x : res A) : hm A := fun h => (x, h).
Definition hbind {A B} (x : hm A) (f : A -> hm B) : hm B := fun h =>
  match x h with (Ok a, h') => f a h' | (Err e, h') => (Err e, h') end.
Declare Scope heap_scope.
Notation "'do' x <- e ; f" := (hbind e (fun x => f))
  (at level 200, x name, e at level 100, f at level 200, right associativity) : heap_scope.
Notation "e1 ;; e2" := (hbind e1 (fun _ => e2)) (at level 199, right associativity) : heap_scope.
Open Scope heap_scope.

(** [for x in l: f(x)] *)
Fixpoint hfor {A} (l : list A) (f : A -> hm unit) : hm unit :=
  match l with [] => ret tt | x :: l' => f x ;; hfor l' f end.

Fixpoint update_nth {A} (l : list A) (n : nat) (x : A) : list A :=
  match l, n with
  | [], _ => []
  | _ :: l', O => x :: l'
  | y :: l', S n' => y :: update_nth l' n' x
  end.

(** A new object. *)
Definition alloc (o : obj) : hm hval := fun h => (Ok (HRef (List.length h)), h ++ [o]).
Definition new_dict : hm hval := alloc (ODict []).
(** The content of a dict; everything else has no [items] method. *)
Definition items (v : hval) : hm (dict pkey hval) := fun h =>
  match v with
  | HRef a => match nth_error h a with
              | Some (ODict d) => (Ok d, h)
              | _ => (Err AttributeError, h)
              end
  | _ => (Err AttributeError, h)
  end.
Definition write (v : hval) (d : dict pkey hval) : hm unit := fun h =>
  match v with
  | HRef a => (Ok tt, update_nth h a (ODict d))
  | _ => (Err TypeError, h)
  end.
(** [v[k] = x], [v[k]], [del v[k]] *)
Definition hset (v : hval) (k : pkey) (x : hval) : hm unit :=
  do d <- items v; write v (set k x d).
Definition hget (v : hval) (k : pkey) : hm hval :=
  do d <- items v; lift (getitem k d).
Definition hdel (v : hval) (k : pkey) : hm unit :=
  do d <- items v; do _x <- lift (getitem k d); write v (del k d).
(** [k in v] *)
Definition hhas (v : hval) (k : pkey) : hm bool := do d <- items v; ret (has k d).
(** [not v] *)
Definition hempty (v : hval) : hm bool :=
  do d <- items v; ret (match d with [] => true | _ => false end).

Section Merge.
  (** rules_dict.py:466-482 *)
  Definition h_replace (name : pkey) (def : option text) : res pkey :=
    if eqb name (KStr default_installer) then
      match def with
      | Some (c :: n) => Ok (KStr (c :: n))
      | _ => Err ValueError
      end
    else Ok name.

  (** rules_dict.py:395-401 *)
  Definition h_merge_installer_dict (new combined : hval) (def : option text) : hm unit :=
    do l <- items new;
    hfor l (fun p => do name <- lift (h_replace (fst p) def);
                     hset combined name (snd p)).

  (** rules_dict.py:448-463 *)
  Definition h_copy_installer_dict (id : hval) (def : option text) : hm hval :=
    do r <- new_dict;
    do l <- items id;
    hfor l (fun p => do name <- lift (h_replace (fst p) def); hset r name (snd p)) ;;
    ret r.

  (** rules_dict.py:430-445 *)
  Definition h_copy_version_dict (vd : hval) (def : option text) : hm hval :=
    do r <- new_dict;
    do l <- items vd;
    hfor l (fun p => do id <- h_copy_installer_dict (snd p) def; hset r (fst p) id) ;;
    ret r.

  Variable defs : dict text (option text).
  (** [default_installers[os]] *)
  Definition def_of (os : pkey) : option (option text) :=
    match os with KStr t => get t defs | _ => None end.

  (** rules_dict.py:404-427 *)
  Definition h_copy_os_dict (od : hval) : hm hval :=
    do r <- new_dict;
    do l <- items od;
    hfor l (fun p =>
      if eqb (fst p) (KStr any_os) then
        do vd <- h_copy_version_dict (snd p) None; hset r (fst p) vd
      else match def_of (fst p) with
           | Some def => do vd <- h_copy_version_dict (snd p) def; hset r (fst p) vd
           | None => ret tt
           end) ;;
    ret r.

  (** rules_dict.py:504-522 *)
  Definition h_remove_rule_for_all_versions (vd : hval) (name : pkey) (retain : bool) : hm unit :=
    do l <- items vd;
    hfor l (fun p =>
      if retain && eqb (fst p) (KStr any_version) then ret tt
      else
        do b <- hhas (snd p) name;
        (if b then hdel (snd p) name else ret tt) ;;
        do e <- hempty (snd p);
        if e then hdel vd (fst p) else ret tt).

  (** rules_dict.py:485-501 *)
  Definition h_remove_rule_for_all_os (od : hval) (name : pkey) : hm unit :=
    do l <- items od;
    hfor l (fun p =>
      if eqb (fst p) (KStr any_os) then ret tt
      else
        h_remove_rule_for_all_versions (snd p) name false ;;
        do e <- hempty (snd p);
        if e then hdel od (fst p) else ret tt).

  (** rules_dict.py:367-392 *)
  Definition h_merge_any_version (new combined : hval) (def : option text) : hm unit :=
    do b <- hhas new (KStr any_version);
    if b then
      do nid <- hget new (KStr any_version);
      do l <- items nid;
      hfor (keys l) (fun name => do n <- lift (h_replace name def);
                                 h_remove_rule_for_all_versions combined n true) ;;
      do b' <- hhas combined (KStr any_version);
      if b' then
        do cid <- hget combined (KStr any_version);
        h_merge_installer_dict nid cid None
      else
        do c <- h_copy_installer_dict nid def;
        hset combined (KStr any_version) c
    else ret tt.

  Definition h_merge_version_dict (new combined : hval) (def : option text) : hm unit :=
    h_merge_any_version new combined def ;;
    do l <- items new;
    hfor l (fun p =>
      do b <- hhas combined (fst p);
      if b then do cid <- hget combined (fst p); h_merge_installer_dict (snd p) cid def
      else do c <- h_copy_installer_dict (snd p) def; hset combined (fst p) c).

  (** rules_dict.py:335-364 *)
  Definition h_merge_any_os (new combined : hval) : hm unit :=
    do b <- hhas new (KStr any_os);
    if b then
      do nvd <- hget new (KStr any_os);
      do nid <- hget nvd (KStr any_version);
      do l <- items nid;
      hfor (keys l) (fun name => do n <- lift (h_replace name None);
                                 h_remove_rule_for_all_os combined n) ;;
      do b' <- hhas combined (KStr any_os);
      if b' then
        do cvd <- hget combined (KStr any_os);
        do cid <- hget cvd (KStr any_version);
        h_merge_installer_dict nid cid None
      else
        do c <- h_copy_version_dict nvd None;
        hset combined (KStr any_os) c
    else ret tt.

  Definition h_merge_os_dict (new combined : hval) : hm unit :=
    h_merge_any_os new combined ;;
    do l <- items new;
    hfor l (fun p =>
      match def_of (fst p) with
      | None => ret tt
      | Some def =>
        do b <- hhas combined (fst p);
        if b then do cvd <- hget combined (fst p); h_merge_version_dict (snd p) cvd def
        else do c <- h_copy_version_dict (snd p) def; hset combined (fst p) c
      end).

  (** rules_dict.py:293-332 *)
  Definition h_merge_rules (l : list hval) : hm hval :=
    do r <- new_dict;
    hfor (rev l) (fun rules =>
      do ps <- items rules;
      hfor ps (fun p =>
        do b <- hhas r (fst p);
        if b then do cod <- hget r (fst p); h_merge_os_dict (snd p) cod
        else do c <- h_copy_os_dict (snd p);
             do e <- hempty c;
             if e then ret tt else hset r (fst p) c)) ;;
    ret r.

  (** rules_dict.py:34-72.  [d.get(k, {})] makes a new dict that is used when the key is
      missing. *)
  Definition hgetd (v : hval) (k : pkey) : hm hval :=
    do e <- new_dict;
    do d <- items v;
    ret (match get k d with Some x => x | None => e end).

  Definition h_lookup_rules (rules : hval) (key os version : text) (def : option text) : hm hval :=
    do od <- hgetd rules (KStr key);
    do vd <- hgetd od (KStr os);
    do ao <- hgetd od (KStr any_os);
    do any_os_id <- hgetd ao (KStr any_version);
    do any_version_id <- hgetd vd (KStr any_version);
    do specific_id <- hgetd vd (KStr version);
    do c <- new_dict;
    h_merge_installer_dict any_os_id c def ;;
    h_merge_installer_dict any_version_id c def ;;
    h_merge_installer_dict specific_id c def ;;
    ret c.

  (** database.py:310-318 for sources of the rules spec (rules.py:315-320); the verification
      of the looked up dict reads only and is left out. *)
  Definition h_db_lookup (sources : list hval) (key os version : text) (def : option text) : hm hval :=
    do r <- new_dict;
    hfor (rev sources) (fun data =>
      do new <- h_lookup_rules data key os version def;
      h_merge_installer_dict new r None) ;;
    ret r.
End Merge.
