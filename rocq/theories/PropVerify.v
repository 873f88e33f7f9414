(** Properties C10-C12, C60: verification of rules dicts. *)
From Verif Require Import Base Dict PyVal RulesDict RulesSpec Verify VerifySpec VerifyProofs VerifiedLookup.

(** C10.  Verification accepts exactly the well-formed rules dicts (identifiers
    in the sense of the accepted language, see C12) and otherwise raises
    ValueError and nothing else. *)
Theorem C10_verify_exact :
  forall uni_word v allow,
    (verify_rules_dict uni_word v allow = Ok tt <->
     rules_file_ok (accepted_identifier uni_word) v) /\
    (~ rules_file_ok (accepted_identifier uni_word) v ->
     verify_rules_dict uni_word v allow = Err ValueError).
Proof.
  intros uni_word v allow; split; [apply verify_rules_dict_Ok|].
  intros Hn; destruct (verify_rules_dict uni_word v allow) as [[]|e] eqn:E.
  - elim Hn; eapply verify_rules_dict_Ok; eassumption.
  - f_equal; eapply verify_rules_dict_Err; eassumption.
Qed.

(** The same for the verification of single installer dicts, which the database
    applies to lookup results. *)
Theorem C10_verify_installer_dict_exact :
  forall uni_word v allow,
    (verify_installer_dict uni_word v allow = Ok tt <->
     installer_dict_ok (accepted_identifier uni_word) allow v) /\
    (~ installer_dict_ok (accepted_identifier uni_word) allow v ->
     verify_installer_dict uni_word v allow = Err ValueError).
Proof.
  intros uni_word v allow; split; [apply verify_installer_dict_Ok|].
  intros Hn; destruct (verify_installer_dict uni_word v allow) as [[]|e] eqn:E.
  - elim Hn; eapply verify_installer_dict_Ok; eassumption.
  - f_equal; eapply verify_installer_dict_Err; eassumption.
Qed.

Definition S s := KStr (u s).
Definition ex_rule : pyval :=
  VDict [(S "packages", VList [VStr (u "libboost-dev")]); (S "depends", VList [VStr (u "gcc")])].
Definition ex_file : pyval :=
  VDict [(S "boost", VDict [
     (S "ubuntu", VDict [(S "any_version", VDict [(S "default_installer", ex_rule)]);
                         (S "trusty", VDict [(S "apt", ex_rule); (S "pip", VDict [])])]);
     (S "any_os", VDict [(S "any_version", VDict [(S "pip", ex_rule)])])])].

Example C10_accepts : verify_rules_dict (fun _ => false) ex_file true = Ok tt.
Proof. reflexivity. Qed.
Example C10_rejects_default_under_any_os :
  verify_rules_dict (fun _ => false)
    (VDict [(S "boost", VDict [(S "any_os", VDict [(S "any_version",
               VDict [(S "default_installer", ex_rule)])])])]) true = Err ValueError.
Proof. reflexivity. Qed.
Example C10_rejects_scalar_packages :
  verify_installer_rule (fun _ => false) (VDict [(S "packages", VStr (u "gcc"))]) = Err ValueError.
Proof. reflexivity. Qed.

(** C11.  On verified data every lookup with a legal default installer name
    succeeds and gives an installer dict that passes verification without
    default_installer. *)
Theorem C11_verified_lookup_safe :
  forall uni_word v allow key os version n,
    verify_rules_dict uni_word v allow = Ok tt ->
    legal_identifier uni_word n -> ~ In n reserved ->
    exists d, raw_lookup v key os version (Some n) = Ok d /\
              verify_installer_dict uni_word d false = Ok tt.
Proof.
  intros uni_word v allow key os version n Hv Hn Hr.
  eapply verified_lookup; [eassumption|left; exact Hn|exact Hr].
Qed.

(** Verified values are exactly typed rules dicts, and lookups on them agree with
    the typed lookup of C01-C07. *)
Theorem C11_verified_is_typed :
  forall uni_word v allow,
    wfval v -> verify_rules_dict uni_word v allow = Ok tt ->
    exists r : rules_dict pyval, v = inj_rules r /\ wf_rules r /\
      forall key os version def,
        raw_lookup v key os version def = res_map inj_id (lookup_rules r key os version def).
Proof.
  intros uni_word v allow Hw Hv.
  destruct (verified_typed uni_word v allow Hw Hv) as (r & -> & Hr).
  exists r; split; [reflexivity|]; split; [exact Hr|]; intros; apply raw_lookup_inj.
Qed.

Example C11_nonvacuous :
  raw_lookup ex_file (u "boost") (u "ubuntu") (u "trusty") (Some (u "apt")) =
  Ok (VDict [(S "pip", VDict []); (S "apt", ex_rule)]).
Proof. reflexivity. Qed.
(** Without verification a lookup can crash with another error. *)
Example C11_unverified_crash :
  raw_lookup (VDict [(S "boost", VList [])]) (u "boost") (u "ubuntu") (u "trusty") (Some (u "apt"))
  = Err AttributeError.
Proof. reflexivity. Qed.

(** C12.  Accepted identifiers are legal up to one trailing newline. *)
Theorem C12_identifier_partial :
  forall uni_word s allowed,
    verify_key_identifier uni_word (KStr s) allowed = Ok tt ->
    (legal_identifier uni_word s \/ exists s0, legal_identifier uni_word s0 /\ s = s0 ++ u "
") /\ (In s reserved -> In s allowed).
Proof.
  intros uni_word s allowed H; apply verify_key_identifier_Ok in H.
  destruct H as (s' & E & Hs & Hr); injection E as <-; split; [|assumption].
  destruct Hs as [Hs|(s0 & Hn & Hf & ->)]; [auto|right; exists s0; split; [right; auto|reflexivity]].
Qed.

(** Every legal identifier that is no keyword is accepted. *)
Theorem C12_legal_accepted :
  forall uni_word s allowed,
    legal_identifier uni_word s -> (In s reserved -> In s allowed) ->
    verify_key_identifier uni_word (KStr s) allowed = Ok tt.
Proof.
  intros uni_word s allowed Hs Hr; apply verify_key_identifier_Ok.
  exists s; repeat split; auto; left; assumption.
Qed.

(** The full claim is false: the pattern's [$] also matches before a trailing
    newline; a keyword followed by a newline is even accepted as xylem key. *)
Theorem C12_identifier_refuted :
  forall uni_word, exists s,
    verify_xylem_key uni_word (KStr s) = Ok tt /\ ~ legal_identifier uni_word s /\
    (exists k, In k reserved /\ s = k ++ [10%N]).
Proof.
  intros uni_word; exists (u "any_os" ++ [10%N]); split; [reflexivity|]; split.
  - intros [E|[_ Hf]]; [discriminate|].
    rewrite Forall_forall in Hf; specialize (Hf 10%N).
    apply ident_char_spec in Hf; [discriminate|].
    apply in_or_app; right; left; reflexivity.
  - exists (u "any_os"); split; [left; reflexivity|reflexivity].
Qed.

(** C60.  Verification that forbids default_installer: correct for os dicts... *)
Theorem C60_os_dict_forbids_default :
  forall uni_word v od vd id d,
    verify_os_dict uni_word v false = Ok tt ->
    v = VDict od -> (exists os, In (os, VDict vd) od) -> (exists ver, In (ver, VDict id) vd) ->
    In d id -> fst d <> KStr (u "default_installer").
Proof.
  intros uni_word v od vd id [k x] Hv -> (os & Hos) (ver & Hver) Hin Ek; simpl in Ek; subst k.
  apply verify_os_dict_Ok in Hv; destruct Hv as (od' & E & Hv); injection E as <-.
  destruct (Hv _ _ Hos) as (_ & b & (vd' & E & Hvd) & Hb); injection E as <-.
  destruct (Hvd _ _ Hver) as (_ & (id' & E & Hid)); injection E as <-.
  destruct (Hid _ _ Hin) as (_ & Hd & _); specialize (Hd eq_refl).
  apply Hb in Hd; destruct Hd; discriminate.
Qed.

(** ... but for whole rules dicts the argument is not passed on. *)
(** For whole rules dicts the argument makes no difference at all. *)
Theorem C60_rules_dict_ignored :
  forall uni_word v, verify_rules_dict uni_word v false = verify_rules_dict uni_word v true.
Proof. reflexivity. Qed.
Print Assumptions C60_rules_dict_ignored.

Theorem C60_rules_dict_refuted :
  forall uni_word, exists v,
    verify_rules_dict uni_word v false = Ok tt /\
    exists key os ver rule,
      v = VDict [(key, VDict [(os, VDict [(ver, VDict [(KStr (u "default_installer"), rule)])])])].
Proof.
  intros uni_word.
  exists (VDict [(S "boost", VDict [(S "ubuntu", VDict [(S "any_version",
               VDict [(S "default_installer", VDict [])])])])]).
  split; [reflexivity|]; eexists _, _, _, _; reflexivity.
Qed.

Example C60_nonvacuous :
  verify_os_dict (fun _ => false) (VDict [(S "ubuntu", VDict [(S "any_version",
               VDict [(S "apt", VDict [])])])]) false = Ok tt.
Proof. reflexivity. Qed.

Print Assumptions C10_verify_exact.
Print Assumptions C10_verify_installer_dict_exact.
Print Assumptions C11_verified_lookup_safe.
Print Assumptions C11_verified_is_typed.
Print Assumptions C12_identifier_partial.
Print Assumptions C12_legal_accepted.
Print Assumptions C12_identifier_refuted.
Print Assumptions C60_os_dict_forbids_default.
Print Assumptions C60_rules_dict_refuted.
