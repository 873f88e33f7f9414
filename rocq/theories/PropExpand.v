(** Properties C13-C15: expansion of rules files. *)
From Verif Require Import Base Dict PyVal RulesDict Verify VerifySpec Expand ExpandSpec ExpandProofs.

(** C13.  Expanding an expanded file changes nothing (not even dict order). *)
Theorem C13_expand_idempotent :
  forall v v', wfval v -> expand_rules v = Ok v' -> expand_rules v' = Ok v'.
Proof. exact expand_rules_idem. Qed.

(** C14.  The expanded file, read as plain nested dicts, has exactly the entries
    that the documented shorthands give the original file. *)
Theorem C14_shorthand :
  forall v v', wfval v -> expand_rules v = Ok v' ->
  forall key os ver,
    ((exists y, plain_version v' key os ver y) <-> exists x, file_version v key os ver x) /\
    forall i r, plain_installer v' key os ver i r <->
                exists x, file_installer v key os ver i x /\ rule_means x r.
Proof. exact expand_meaning. Qed.

(** Keys and oses are neither added nor lost. *)
Theorem C14_keys_preserved :
  forall v v', wfval v -> expand_rules v = Ok v' ->
  (forall key, file_has_key v' key <-> file_has_key v key) /\
  (forall key os, (exists x, file_has_os v' key os x) <-> (exists x, file_has_os v key os x)).
Proof. exact expand_keys. Qed.

(** C15.  Expansion succeeds exactly on files of valid structure; every failure is
    a ValueError (top level is no mapping) or a TypeError. *)
Theorem C15_fails_exactly_partial :
  forall v, wfval v ->
    ((exists v', expand_rules v = Ok v') <-> file_shape v) /\
    (forall e, expand_rules v = Err e -> e = ValueError \/ e = TypeError).
Proof.
  intros v Hw; split; [apply expand_rules_shape; assumption|].
  intros e He; apply expand_rules_error in He.
  destruct (match v with VNone | VDict _ => true | _ => false end); auto.
Qed.

(** The documented error class is never raised: whenever some key of a mapping is
    malformed, a TypeError escapes. *)
Theorem C15_documented_error_refuted :
  (forall v, expand_rules v <> Err SpecParsingError) /\
  (forall d, wfval (VDict d) -> ~ file_shape (VDict d) -> expand_rules (VDict d) = Err TypeError).
Proof.
  split.
  - intros v E; apply expand_rules_error in E; destruct v; discriminate.
  - intros d Hw Hs; destruct (expand_rules (VDict d)) as [v'|e] eqn:E.
    + elim Hs; apply expand_rules_shape; eauto.
    + apply expand_rules_error in E; congruence.
Qed.

(** Non-trivial instances. *)
Definition ex_raw : pyval :=
  VDict [(S "boost", VDict [
            (S "any_os", VDict [(S "pip", VStr (u "boost-py"))]);
            (S "ubuntu", VDict [(S "trusty", VNone);
                                (S "xenial", VDict [(S "apt", VDict [(S "packages", VStr (u "a"));
                                                                     (S "depends", VNone);
                                                                     (S "opt", VInt 3)])])]);
            (S "fedora", VList [VStr (u "boost"); VStr (u "boost-devel")])])].
Definition ex_expanded : pyval :=
  VDict [(S "boost", VDict [
            (S "any_os", VDict [(S "any_version", VDict [(S "pip", VDict [(S "packages", VList [VStr (u "boost-py")])])])]);
            (S "ubuntu", VDict [(S "trusty", VDict [(S "default_installer", VDict [(S "packages", VList [])])]);
                                (S "xenial", VDict [(S "apt", VDict [(S "packages", VList [VStr (u "a")]);
                                                                     (S "opt", VInt 3)])])]);
            (S "fedora", VDict [(S "any_version", VDict [(S "default_installer",
                VDict [(S "packages", VList [VStr (u "boost"); VStr (u "boost-devel")])])])])])].

Example C13_nonvacuous : wfval ex_raw /\ expand_rules ex_raw = Ok ex_expanded /\ ex_raw <> ex_expanded.
Proof.
  split; [|split; [reflexivity|discriminate]].
  repeat (cbn; split); try exact I;
    (repeat constructor; cbn; intros H; repeat (destruct H as [H|H]; [discriminate H|]); exact H).
Qed.

Example C14_nonvacuous :
  file_installer ex_raw (S "boost") (S "any_os") (S "any_version") (S "pip") (VStr (u "boost-py")) /\
  rule_means (VStr (u "boost-py")) (VDict [(S "packages", VList [VStr (u "boost-py")])]).
Proof.
  split.
  - exists (VDict [(S "pip", VStr (u "boost-py"))]); split; [|apply im_dict; left; reflexivity].
    exists (VDict [(S "pip", VStr (u "boost-py"))]); split.
    + eexists _, _; split; [reflexivity|]; split; [left; reflexivity|left; reflexivity].
    + apply vm_any_os; [reflexivity|]; cbn; intros [H|[]]; discriminate.
  - apply rm_scalar; [right; left; eauto|constructor].
Qed.

(** [any_os] mixing [any_version] with another entry is rejected, with TypeError. *)
Example C15_nonvacuous :
  expand_rules (VDict [(S "boost", VDict [(S "any_os", VDict [(S "any_version", VNone); (S "pip", VNone)])])])
  = Err TypeError.
Proof. reflexivity. Qed.
Example C15_ok : file_shape ex_raw.
Proof. apply expand_rules_shape; [apply C13_nonvacuous|eexists; reflexivity]. Qed.

Print Assumptions C13_expand_idempotent.
Print Assumptions C14_shorthand.
Print Assumptions C14_keys_preserved.
Print Assumptions C15_fails_exactly_partial.
Print Assumptions C15_documented_error_refuted.
