(** Independent specification vocabulary for rules dicts (properties C01-C07).
    Everything is stated with list membership; none of the model's functions
    are used. *)
From Verif Require Import Base Dict RulesDict.

Section RulesSpec.
  Context {R : Type}.

  (** Dictionaries have unique keys on all levels. *)
  Definition wf_version_dict (vd : version_dict R) : Prop :=
    wf vd /\ forall v id, In (v, id) vd -> wf id.
  Definition wf_os_dict (od : os_dict R) : Prop :=
    wf od /\ forall os vd, In (os, vd) od -> wf_version_dict vd.
  Definition wf_rules (r : rules_dict R) : Prop :=
    wf r /\ forall k od, In (k, od) r -> wf_os_dict od.

  (** The file has the installer dict [id] at key/os/version. *)
  Definition entry (r : rules_dict R) (key os version : text) (id : installer_dict R) : Prop :=
    exists od vd, In (key, od) r /\ In (os, vd) od /\ In (version, id) vd.

  (** A usable default installer name. *)
  Definition default_ok (def : option text) : Prop :=
    exists n, def = Some n /\ n <> [].

  (** Installer dict [id] has rule [rule] for the installer named [i], reading
      the keyword as the default installer. *)
  Definition names (def : option text) (id : installer_dict R) (i : text) (rule : R) : Prop :=
    (i <> default_installer /\ In (i, rule) id) \/
    (In (default_installer, rule) id /\ def = Some i /\ i <> []).

  (** The file has rule [rule] for installer [i] at key/os/version. *)
  Definition rule_at (r : rules_dict R) (def : option text) (key os version i : text) (rule : R) : Prop :=
    exists id, entry r key os version id /\ names def id i rule.

  Definition no_rule_at (r : rules_dict R) (def : option text) (key os version i : text) : Prop :=
    forall rule, ~ rule_at r def key os version i rule.

  (** The effective rule: most specific entry that has one for [i]. *)
  Inductive effective (r : rules_dict R) (def : option text) (key os version i : text) : R -> Prop :=
  | eff_specific rule :
      rule_at r def key os version i rule ->
      effective r def key os version i rule
  | eff_any_version rule :
      no_rule_at r def key os version i ->
      rule_at r def key os any_version i rule ->
      effective r def key os version i rule
  | eff_any_os rule :
      no_rule_at r def key os version i ->
      no_rule_at r def key os any_version i ->
      rule_at r def key any_os any_version i rule ->
      effective r def key os version i rule.

  (** No installer dict names both the keyword and the default installer it
      stands for. *)
  Definition unambiguous_id (def : option text) (id : installer_dict R) : Prop :=
    forall n, def = Some n -> n <> default_installer ->
              In default_installer (map fst id) -> ~ In n (map fst id).

  (** The three entries a lookup may consult. *)
  Definition consulted (r : rules_dict R) (key os version : text) (id : installer_dict R) : Prop :=
    entry r key os version id \/ entry r key os any_version id \/ entry r key any_os any_version id.

  (** Same dictionary up to iteration order on all levels. *)
  Definition dict_equiv {V W} (E : V -> W -> Prop) (d : dict text V) (d' : dict text W) : Prop :=
    exists d0, Permutation d d0 /\
               Forall2 (fun p q => fst p = fst q /\ E (snd p) (snd q)) d0 d'.
  Definition id_equiv : installer_dict R -> installer_dict R -> Prop := @Permutation (text * R).
  Definition rules_equiv : rules_dict R -> rules_dict R -> Prop :=
    dict_equiv (dict_equiv (dict_equiv id_equiv)).

  (** Outcomes that agree up to iteration order of the returned dict. *)
  Definition outcome_equiv (x y : res (installer_dict R)) : Prop :=
    match x, y with
    | Ok d, Ok d' => Permutation d d'
    | Err e, Err e' => e = e'
    | _, _ => False
    end.

  (** The configured oses: every os has a usable default installer, whose name is
      not the keyword, and [any_os] is not an os. *)
  Definition good_config (defs : dict text (option text)) : Prop :=
    wf defs /\ ~ In any_os (map fst defs) /\
    forall os def, In (os, def) defs -> default_ok def /\ def <> Some default_installer.

  (** [any_os] entries have exactly the shape that expansion produces: they have
      an [any_version] entry and do not use the keyword. *)
  Definition any_os_shape (r : rules_dict R) : Prop :=
    forall key od vd, In (key, od) r -> In (any_os, vd) od ->
      (exists id, In (any_version, id) vd) /\
      forall v id rule, In (v, id) vd -> ~ In (default_installer, rule) id.

  (** No [any_version] entry of a configured os uses the keyword. *)
  Definition any_version_explicit (defs : dict text (option text)) (r : rules_dict R) : Prop :=
    forall key os id rule, In os (map fst defs) -> entry r key os any_version id ->
      ~ In (default_installer, rule) id.

  (** The dict says, for any version of [os], "use the default installer". *)
  Definition keyword_at (r : rules_dict R) (key os : text) : Prop :=
    exists id rule, entry r key os any_version id /\ In (default_installer, rule) id.

  (** Something of the installer dict [cid] is left after the [any_os] entry of
      [r] has overridden the installers it names. *)
  Definition survives (r : rules_dict R) (key : text) (cid : installer_dict R) : Prop :=
    (forall id i rule, entry r key any_os any_version id -> ~ In (i, rule) id) \/
    exists i rule, In (i, rule) cid /\
      forall id rule', entry r key any_os any_version id -> ~ In (i, rule') id.

  (** [r] cannot be laid over [below]: it uses the keyword under [any_version]
      of a configured os for which [below] still has an [any_version] entry. *)
  Definition clash (defs : dict text (option text)) (r below : rules_dict R) : Prop :=
    exists key os cid, In os (map fst defs) /\ keyword_at r key os /\
      entry below key os any_version cid /\ survives r key cid.

End RulesSpec.
