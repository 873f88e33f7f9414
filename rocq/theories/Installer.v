(** The installer interface and the installer context, installers/impl.py:57-230 and
    233-430.  [W] is the state of the machine, [R] the type of resolution objects; both
    are parameters of everything that follows. *)
From Verif Require Import Base Dict PyVal Sources Util.

(** A call that may change the machine and may raise. *)
Notation act W A := (W -> res A * W).
(** A command line, list of program and arguments. *)
Notation cmd := (list text).

(** impl.py:57-230 [Installer].  All methods are arbitrary; [options] and
    [get_depends] are not used by resolve and install. *)
Record installer (W R : Type) := {
  in_name : text;
  in_additional : bool;                                (* use_as_additional_installer(os_tuple) *)
  in_resolve : pyval -> res (list R);
  in_check_general : bool -> bool -> act W unit;       (* fix_unsatisfied, interactive *)
  in_check_install : list R -> bool -> bool -> act W unit;
  in_filter_uninstalled : list R -> act W (list R);
  in_is_installed : R -> act W bool;
  in_commands : list R -> bool -> bool -> act W (list cmd) (* interactive, reinstall *)
}.
Arguments in_name {W R}. Arguments in_additional {W R}. Arguments in_resolve {W R}.
Arguments in_check_general {W R}. Arguments in_check_install {W R}.
Arguments in_filter_uninstalled {W R}. Arguments in_is_installed {W R}.
Arguments in_commands {W R}.

(** impl.py:233-270: the attributes of an [InstallerContext] after set up. *)
Record context (W R : Type) := {
  cx_ic : ictx;
  cx_plugins : list (installer W R);
  cx_core : list (installer W R);
  cx_additional : list (installer W R)
}.
Arguments cx_ic {W R}. Arguments cx_plugins {W R}.
Arguments cx_core {W R}. Arguments cx_additional {W R}.

(** impl.py:374-384 [lookup_installer]. *)
Definition lookup_installer {W R} (c : context W R) (name : text) : option (installer W R) :=
  find (fun i => eqb (in_name i) name) (cx_plugins c).

(** [except InstallerError]: the class and its subclasses, impl.py:42-54. *)
Definition is_InstallerError (e : exn) : bool :=
  match e with InstallerError | InvalidRuleError | InstallerPrerequisiteError => true | _ => false end.

(** [except LookupError]: the class and its builtin subclasses. *)
Definition is_LookupError (e : exn) : bool :=
  match e with LookupError | KeyError | IndexError => true | _ => false end.
