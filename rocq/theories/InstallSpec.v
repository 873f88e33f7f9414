(** Vocabulary for the installation properties (C29-C36, C62, C63): predicates on
    event logs, written without reference to the model's functions. *)
From Verif Require Import Base Dict Installer Install.

Section Spec.
  Context {R : Type}.
  Notation log := (list (event R)).

  Definition is_exec (e : event R) : bool := match e with EExec _ _ => true | _ => false end.
  (** No command was executed. *)
  Definition no_exec (l : log) : Prop := forall c x, ~ In (EExec c x) l.

  (** Commands executed, in order. *)
  Definition executed (l : log) : list cmd :=
    flat_map (fun e => match e with EExec c _ => [c] | _ => [] end) l.
  (** Commands composed by installers, in order. *)
  Definition composed (l : log) : list cmd :=
    flat_map (fun e => match e with ECompose _ _ (Ok cs) => cs | _ => [] end) l.
  (** Resolutions handed to command composition, in order, with their installer. *)
  Definition compose_requests (l : log) : list (text * R) :=
    flat_map (fun e => match e with ECompose n rs _ => map (pair n) rs | _ => [] end) l.
  (** Resolutions that an installer reported as not installed. *)
  Definition reported_uninstalled (l : log) : list (text * R) :=
    flat_map (fun e => match e with EFilter n _ (Ok rs) => map (pair n) rs | _ => [] end) l.
  Definition filter_failed (l : log) : Prop := exists n rs e, In (EFilter n rs (Err e)) l.

  (** The answers to the question what is not installed that were errors, and the lists of errors printed. *)
  Definition failed_checks (l : log) : list exn :=
    flat_map (fun e => match e with EFilter _ _ (Err x) => [x] | _ => [] end) l.
  Definition printed_errors (l : log) : list (list exn) :=
    flat_map (fun e => match e with EReport es => [es] | _ => [] end) l.

  (** After a command that did not exit with 0 no command is executed. *)
  Definition stops_at_failure (l : log) : Prop :=
    forall l1 c x l2, l = l1 ++ EExec c x :: l2 -> x <> Ok 0%Z -> no_exec l2.

  (** What has to be in the log for one group: commands were composed, all executed
      with exit code 0, then all its resolutions detected as installed. *)
  Definition group_done (g : text * list R) (l : log) : Prop :=
    exists cs, cs <> [] /\
      l = ECompose (fst g) (snd g) (Ok cs) ::
          map (fun c => EExec c (Ok 0%Z)) cs ++
          map (fun r => ECheck (fst g) r (Ok true)) (snd g).
  (** ... or the installer had nothing to execute for it. *)
  Definition group_nothing_to_do (g : text * list R) (l : log) : Prop :=
    l = [ECompose (fst g) (snd g) (Ok [])].

  (** The (installer, resolution) pairs of a list of groups, in order. *)
  Definition pairs (groups : list (text * list R)) : list (text * R) :=
    flat_map (fun g => map (pair (fst g)) (snd g)) groups.

  (** No two neighbouring groups belong to the same installer. *)
  Fixpoint alternating (groups : list (text * list R)) : Prop :=
    match groups with
    | g :: l => (match l with g' :: _ => fst g <> fst g' | [] => True end) /\ alternating l
    | [] => True
    end.
End Spec.

(** Installers whose detection is faithful to a notion of "installed", that do not
    change the machine when asked, and that compose at least one command for a
    non-empty list. *)
Definition faithful {W R} (installed : text -> W -> R -> bool) (i : installer W R) : Prop :=
  (forall r w, in_is_installed i r w = (Ok (installed (in_name i) w r), w)) /\
  (forall rs w, in_filter_uninstalled i rs w =
                (Ok (filter (fun r => negb (installed (in_name i) w r)) rs), w)) /\
  (forall rs a b w, exists cs, in_commands i rs a b w = (Ok cs, w) /\ (rs <> [] -> cs <> [])).

(** Nothing that happens uninstalls anything. *)
Definition keeps_installed {W R} (installed : text -> W -> R -> bool) (w w' : W) : Prop :=
  forall n r, installed n w r = true -> installed n w' r = true.
Definition never_uninstalls {W R} (installed : text -> W -> R -> bool)
    (run : cmd -> act W Z) (plugins : list (installer W R)) : Prop :=
  (forall c w, keeps_installed installed w (snd (run c w))) /\
  (forall i a b w, In i plugins -> keeps_installed installed w (snd (in_check_general i a b w))) /\
  (forall i rs a b w, In i plugins -> keeps_installed installed w (snd (in_check_install i rs a b w))).
