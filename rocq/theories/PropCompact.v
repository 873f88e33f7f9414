(** Property C16: compacting rules keeps their meaning. *)
From Verif Require Import Base Dict PyVal RulesDict RulesSpec Verify VerifySpec VerifiedLookup
  Expand ExpandSpec ExpandProofs Compact CompactSpec CompactProofs.

(** C16.  [v] is the loaded file; [_compact_rules_file] expands, verifies and
    compacts it, storing [c].  Reading [c] again (expanding it) gives, for every
    key, os and version, and with the os's configured default installer, the same
    lookup outcome as the original file. *)
Theorem C16_compact_preserves :
  forall uni_word v v1,
    wfval v -> expand_rules v = Ok v1 -> verify_rules_dict uni_word v1 true = Ok tt ->
    exists r, v1 = inj_rules r /\
    forall defs c, compact_rules r defs = Ok c ->
    exists v2, expand_rules c = Ok v2 /\
      forall key os version, os <> any_os ->
        same_outcome (raw_lookup v1 key os version (configured_default defs os))
                     (raw_lookup v2 key os version (configured_default defs os)).
Proof.
  intros uni v v1 Hw Hx Hv.
  destruct (verified_typed uni v1 true (wfval_expand_rules _ _ Hw Hx) Hv) as (r & Er & _).
  exists r; split; [exact Er|]; intros defs c Hc.
  eapply compact_preserves; eassumption.
Qed.

(** Compaction fails exactly if some installer dict names both the keyword
    [default_installer] and the os's configured default installer; the error is
    a ValueError.  ([conflict] is spelled out.) *)
Theorem C16_compact_fails_exactly :
  forall uni_word v r defs,
    wfval v -> expand_rules v = Ok (inj_rules r) ->
    verify_rules_dict uni_word (inj_rules r) true = Ok tt ->
    (compact_rules r defs = Err ValueError <->
     exists key os version id n,
       entry r key os version id /\ os <> any_os /\ get os defs = Some (Some n) /\ n <> [] /\
       In (u "default_installer") (map fst id) /\ In n (map fst id)) /\
    (forall e, compact_rules r defs = Err e -> e = ValueError).
Proof.
  intros uni v r defs Hw Hx Hv.
  destruct (compact_rules_fails_expanded uni v r defs Hw Hx Hv) as [H1 H2].
  split; [split|].
  - intros E; exact (proj2 (H1 _ E)).
  - exact H2.
  - intros e E; exact (proj1 (H1 _ E)).
Qed.

(** A concrete round trip: shorthand, a dropped version entry, an option. *)
Definition ex16 : pyval :=
  VDict [(S "boost", VDict [
     (S "any_os", VDict [(S "pip", VStr (u "boost-py"))]);
     (S "ubuntu", VDict [(S "any_version", VStr (u "libboost"));
                         (S "trusty", VDict [(S "apt", VStr (u "libboost"))]);
                         (S "xenial", VDict [(S "apt", VDict [(S "packages", VStr (u "a"));
                                                              (S "opt", VInt 3)])])])])].
Definition defs16 : dict text (option text) := [(u "ubuntu", Some (u "apt")); (u "osx", None)].

Definition ex16_r : rules_dict pyval :=
  [(u "boost", [
     (any_os, [(any_version, [(u "pip", VDict [(S "packages", VList [VStr (u "boost-py")])])])]);
     (u "ubuntu", [(any_version, [(default_installer, VDict [(S "packages", VList [VStr (u "libboost")])])]);
                   (u "trusty", [(u "apt", VDict [(S "packages", VList [VStr (u "libboost")])])]);
                   (u "xenial", [(u "apt", VDict [(S "packages", VList [VStr (u "a")]); (S "opt", VInt 3)])])])])].

Example C16_nonvacuous :
  wfval ex16 /\ expand_rules ex16 = Ok (inj_rules ex16_r) /\
  verify_rules_dict (fun _ => false) (inj_rules ex16_r) true = Ok tt /\
  compact_rules ex16_r defs16 = Ok
    (VDict [(S "boost", VDict [
       (S "any_os", VDict [(S "pip", VList [VStr (u "boost-py")])]);
       (S "ubuntu", VDict [(S "any_version", VList [VStr (u "libboost")]);
                           (S "xenial", VDict [(S "apt", VDict [(S "packages", VList [VStr (u "a")]);
                                                                (S "opt", VInt 3)])])])])]) /\
  raw_lookup (inj_rules ex16_r) (u "boost") (u "ubuntu") (u "trusty") (Some (u "apt")) =
    Ok (VDict [(S "pip", VDict [(S "packages", VList [VStr (u "boost-py")])]);
               (S "apt", VDict [(S "packages", VList [VStr (u "libboost")])])]).
Proof.
  split; [|repeat split; reflexivity].
  repeat (cbn; split); try exact I;
    (repeat constructor; cbn; intros H; repeat (destruct H as [H|H]; [discriminate H|]); exact H).
Qed.

(** The restriction to the configured default installer is needed: compaction
    bakes it into the file, so lookups with another default installer differ. *)
Theorem C16_other_default_refuted :
  exists v r defs c v2, wfval v /\ expand_rules v = Ok (inj_rules r) /\
    verify_rules_dict (fun _ => false) (inj_rules r) true = Ok tt /\
    compact_rules r defs = Ok c /\ expand_rules c = Ok v2 /\
    ~ same_outcome (raw_lookup (inj_rules r) (u "boost") (u "ubuntu") (u "xenial") (Some (u "pip")))
                   (raw_lookup v2 (u "boost") (u "ubuntu") (u "xenial") (Some (u "pip"))).
Proof.
  exists (VDict [(S "boost", VDict [(S "ubuntu", VDict [(S "xenial",
             VDict [(S "default_installer", VStr (u "b")); (S "gem", VStr (u "g"))])])])]),
    [(u "boost", [(u "ubuntu", [(u "xenial", [(default_installer, VDict [(S "packages", VList [VStr (u "b")])]);
                                               (u "gem", VDict [(S "packages", VList [VStr (u "g")])])])])])],
    defs16.
  eexists _, _; split.
  - repeat (cbn; split); try exact I;
    (repeat constructor; cbn; intros H; repeat (destruct H as [H|H]; [discriminate H|]); exact H).
  - split; [reflexivity|]; split; [reflexivity|]; split; [vm_compute; reflexivity|].
    split; [vm_compute; reflexivity|].
    vm_compute; intros [H _].
    destruct (H (S "pip") _ eq_refl) as (b & Hb & _); vm_compute in Hb; discriminate.
Qed.

Print Assumptions C16_compact_preserves.
Print Assumptions C16_compact_fails_exactly.
Print Assumptions C16_other_default_refuted.
