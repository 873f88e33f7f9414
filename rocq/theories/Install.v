(** Model of xylem/install.py:52-299. *)
From Verif Require Import Base Dict PyVal Sources Util Terminal Installer Resolve.

(** What install does to the outside, in order. *)
Inductive event (R : Type) :=
| EGeneral (name : text) (x : res unit)              (* general prerequisite check *)
| EInstallPre (name : text) (rs : list R) (x : res unit)
| EFilter (name : text) (rs : list R) (x : res (list R))
| EReport (errors : list exn)                        (* error message: the text of a list of errors *)
| ECompose (name : text) (rs : list R) (x : res (list cmd))
| EShow (c : cmd)                                    (* simulation output *)
| EExec (c : cmd) (x : res Z)                        (* subprocess.call *)
| ECheck (name : text) (r : R) (x : res bool).       (* is_installed *)
Arguments EGeneral {R}. Arguments EInstallPre {R}. Arguments EFilter {R}.
Arguments EReport {R}. Arguments ECompose {R}. Arguments EShow {R}. Arguments EExec {R}. Arguments ECheck {R}.

Record options := {
  o_interactive : bool; o_reinstall : bool; o_simulate : bool;
  o_continue : bool; o_fix : bool
}.

Section Install.
  Context {W R : Type}.
  (** [subprocess.call]: exit code, or OSError and the like. *)
  Variable run : cmd -> act W Z.
  (** Colour table, see Terminal.v. *)
  Variable ansi : dict text text.
  Variable cx : context W R.

  Notation st := (W * list (event R))%type.
  (** A computation that changes the machine and appends to the log. *)
  Notation io A := (st -> res A * st).

  Definition ret {A} (a : A) : io A := fun s => (Ok a, s).
  Definition raise {A} (e : exn) : io A := fun s => (Err e, s).
  Definition then_ {A B} (m : io A) (f : A -> io B) : io B :=
    fun s => match m s with (Ok a, s') => f a s' | (Err e, s') => (Err e, s') end.
  (** try: m except: h *)
  Definition catch {A B} (m : io A) (f : A -> io B) (h : exn -> io B) : io B :=
    fun s => match m s with (Ok a, s') => f a s' | (Err e, s') => h e s' end.
  Definition call {A} (ev : res A -> event R) (m : act W A) : io A :=
    fun s => let (x, w) := m (fst s) in (x, (w, snd s ++ [ev x])).
  Definition note (ev : event R) : io unit := fun s => (Ok tt, (fst s, snd s ++ [ev])).
  Definition lift {A} (x : res A) : io A := fun s => (x, s).
  Fixpoint each {A} (f : A -> io unit) (l : list A) : io unit :=
    match l with [] => ret tt | x :: l' => then_ (f x) (fun _ => each f l') end.

  (** install.py:114-115 *)
  Definition installer_names (resolved : list (text * list R)) : list text :=
    remove_duplicates (map fst resolved).

  (** install.py:118-124.  Python 2 iterates the resulting dict in hash order; the
      model uses insertion order. *)
  Definition map_resolutions (resolved : list (text * list R)) : dict text (list R) :=
    fold_left (fun m p => set (fst p) (match get (fst p) m with Some l => l | None => [] end ++ snd p) m)
              resolved [].

  (** install.py:127-135.  [cur] is the open last group. *)
  Fixpoint squash_from (cur : option (text * list R)) (l : list (text * list R)) : list (text * list R) :=
    match l with
    | [] => match cur with Some g => [g] | None => [] end
    | (n, rs) :: l' =>
      match cur with
      | None => squash_from (Some (n, rs)) l'
      | Some (p, ps) => if eqb p n then squash_from (Some (p, ps ++ rs)) l'
                        else (p, ps) :: squash_from (Some (n, rs)) l'
      end
    end.
  Definition squash_resolutions := squash_from None.

  Definition with_installer {A} (name : text) (f : installer W R -> io A) : io A :=
    match lookup_installer cx name with None => raise XylemInternalError | Some i => f i end.

  (** install.py:138-151 *)
  Definition check_general_prerequisites (names : list text) (fix_ interactive : bool) : io unit :=
    each (fun n => with_installer n (fun i =>
            call (EGeneral n) (in_check_general i fix_ interactive))) names.

  (** install.py:154-168 *)
  Definition check_install_prerequisites (m : dict text (list R)) (fix_ interactive : bool) : io unit :=
    each (fun p => with_installer (fst p) (fun i =>
            call (EInstallPre (fst p) (snd p)) (in_check_install i (snd p) fix_ interactive))) m.

  (** [except InstallerError as e: h; except Exception as e: raise XylemInternalError] *)
  Definition handle {B} (h : io B) (e : exn) : io B :=
    if is_InstallerError e then h
    else if is_Exception e then raise XylemInternalError else raise e.

  (** install.py:171-194.  On an InstallerError [resolutions] keeps its old value. *)
  Fixpoint filter_uninstalled (resolved : list (text * list R))
    : io (list (text * list R) * list exn) :=
    match resolved with
    | [] => ret ([], [])
    | (n, rs) :: l =>
      with_installer n (fun i =>
        then_ (catch (call (EFilter n rs) (in_filter_uninstalled i rs))
                 (fun rs' => ret (rs', []))
                 (handle (ret (rs, [InstallError]))))
          (fun p => then_ (filter_uninstalled l) (fun q =>
             ret ((match fst p with [] => [] | _ => [(n, fst p)] end) ++ fst q, snd p ++ snd q))))
    end.

  (** install.py:87-92: for each error the text of the whole list is printed ([exc_to_str] of a list is
      "list: [...]" in python 2). *)
  Definition uninstalled (resolved : list (text * list R)) : io (list (text * list R) * list exn) :=
    then_ (filter_uninstalled resolved) (fun q =>
    then_ (each (fun _ => note (EReport (snd q))) (snd q)) (fun _ => ret q)).

  (** install.py:265-274: run the commands; [inl] = returned early with errors.
      Before each call the command is formatted with [fmt]; afterwards the exit code
      is, which cannot fail. *)
  Definition exec_message (c : cmd) : text :=
    u "@!executing command: " ++ join (u " ") c ++ u "@|".

  Fixpoint run_commands (continue : bool) (cmds : list cmd) (errors : list exn)
    : io (list exn + list exn) :=
    match cmds with
    | [] => ret (inr errors)
    | c :: cs =>
      then_ (lift (fmt ansi (exec_message c))) (fun _ =>
      then_ (call (EExec c) (run c)) (fun code =>
        if Z.eqb code 0 then run_commands continue cs errors
        else let errors := errors ++ [InstallError] in
             if continue then run_commands continue cs errors else ret (inl errors)))
    end.

  (** install.py:277-292 *)
  Fixpoint check_items (i : installer W R) (name : text) (items : list R) (errors : list exn)
    : io (list exn) :=
    match items with
    | [] => ret errors
    | r :: l =>
      then_ (catch (call (ECheck name r) (in_is_installed i r))
               (fun b => ret (if b then [] else [InstallError]))
               (handle (ret [InstallError])))
        (fun e => check_items i name l (errors ++ e))
    end.

  (** install.py:223-299.  After an InstallerError the variable [commands] is
      unbound. *)
  Definition install_resolutions (o : options) (name : text) (rs : list R) : io (list exn) :=
    with_installer name (fun i =>
      catch (call (ECompose name rs) (in_commands i rs (o_interactive o) (o_reinstall o)))
        (fun commands =>
           match commands with
           | [] => ret []
           | _ =>
             if o_simulate o then then_ (each (fun c => note (EShow c)) commands) (fun _ => ret [])
             else then_ (run_commands (o_continue o) commands []) (fun x =>
                    match x with
                    | inl errors => ret errors
                    | inr errors => check_items i name rs errors
                    end)
           end)
        (handle (raise UnboundLocalError))).

  (** install.py:197-220 *)
  Fixpoint install_groups (o : options) (groups : list (text * list R)) (all : list exn) : io (list exn) :=
    match groups with
    | [] => ret all
    | (n, rs) :: l =>
      then_ (install_resolutions o n rs) (fun errors =>
        match errors, o_continue o with
        | _ :: _, false => ret errors
        | _, _ => install_groups o l (all ++ errors)
        end)
    end.
  Definition install_resolved (o : options) (resolved : list (text * list R)) : io (list exn) :=
    install_groups o (squash_resolutions resolved) [].

  (** install.py:52-111.  [resolution] is the outcome of the call of [resolve] in
      lines 68-73.  With [reinstall] the variable [uninstalled_errors] is unbound in
      line 94. *)
  Definition install (o : options) (resolution : res (list (text * (text * list R)) * list (text * exn)))
    : io (list (text * exn) * list exn) :=
    then_ (lift resolution) (fun p =>
      let (results, resolve_errors) := p in
      match resolve_errors, o_continue o with
      | _ :: _, false => ret (resolve_errors, [])
      | _, _ =>
        let resolved := squash_resolutions (map snd results) in
        then_ (check_general_prerequisites (installer_names resolved) (o_fix o) (o_interactive o)) (fun _ =>
        if o_reinstall o then raise UnboundLocalError
        else then_ (uninstalled resolved) (fun q =>
          let (resolved, uninstalled_errors) := q in
          match uninstalled_errors, o_continue o with
          | _ :: _, false => ret (resolve_errors, [])
          | _, _ =>
            then_ (check_install_prerequisites (map_resolutions resolved) (o_fix o) (o_interactive o)) (fun _ =>
            then_ (install_resolved o resolved) (fun install_errors =>
            ret (resolve_errors, install_errors)))
          end))
      end).
End Install.
