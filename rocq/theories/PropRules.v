(** Properties C01-C07: lookup, key listing and merging of rules dicts.
    Vocabulary: [RulesSpec.v].  Model: [RulesDict.v]. *)
From Verif Require Import Base Dict RulesDict RulesSpec
  RulesLookupProofs RulesMergeProofs RulesMergeTotal RulesMergeExact.

(** Concrete data for the non-vacuity examples. *)
Definition ex_ubuntu := u "ubuntu".
Definition ex_debian := u "debian".
Definition ex_precise := u "precise".
Definition ex_lucid := u "lucid".
Definition ex_apt := u "apt".
Definition ex_pip := u "pip".
Definition ex_foo := u "foo".

Definition ex_rules : rules_dict N :=
  [(ex_foo,
    [(any_os, [(any_version, [(ex_pip, 1%N); (ex_apt, 2%N)])]);
     (ex_ubuntu, [(any_version, [(default_installer, 3%N)]);
                  (ex_lucid, [(ex_pip, 4%N); (default_installer, 5%N)])])])].

Definition ex_rules2 : rules_dict N :=
  [(ex_foo,
    [(ex_ubuntu, [(ex_lucid, [(ex_apt, 7%N)])]);
     (ex_debian, [(any_version, [(ex_pip, 8%N)])])])].

Ltac solve_wf :=
  repeat match goal with
  | |- wf _ => unfold wf, keys; simpl; repeat constructor; simpl; intuition discriminate
  | |- wf_rules _ => split
  | |- wf_os_dict _ => split
  | |- wf_version_dict _ => split
  | |- forall _ _, In _ _ -> _ => simpl; intros ? ? Hin
  | Hin : _ \/ _ |- _ => destruct Hin as [Hin|Hin]
  | Hin : False |- _ => destruct Hin
  | Hin : (_, _) = (_, _) |- _ => injection Hin as <- <-
  end.

Example ex_rules_wf : wf_rules ex_rules.
Proof. solve_wf. Qed.
Example ex_rules2_wf : wf_rules ex_rules2.
Proof. solve_wf. Qed.

(** C01: rule lookup precedence. *)
Theorem C01_lookup_precedence :
  forall (R : Type) (r : rules_dict R) (key os version : text) (def : option text) (d : installer_dict R),
    wf_rules r ->
    (forall id, consulted r key os version id -> unambiguous_id def id) ->
    lookup_rules r key os version def = Ok d ->
    forall (i : text) (rule : R),
      In (i, rule) d <-> effective r def key os version i rule.
Proof. exact @lookup_precedence. Qed.
Print Assumptions C01_lookup_precedence.

Example C01_nonvacuous :
  lookup_rules ex_rules ex_foo ex_ubuntu ex_lucid (Some ex_apt) = Ok [(ex_pip, 4%N); (ex_apt, 5%N)] /\
  lookup_rules ex_rules ex_foo ex_ubuntu ex_precise (Some ex_apt) = Ok [(ex_pip, 1%N); (ex_apt, 3%N)] /\
  lookup_rules ex_rules ex_foo ex_debian ex_precise (Some ex_apt) = Ok [(ex_pip, 1%N); (ex_apt, 2%N)].
Proof. repeat split; vm_compute; reflexivity. Qed.

Lemma entry_chain {R} (r : rules_dict R) key os version id :
  entry r key os version id ->
  exists p q s, In p r /\ In q (snd p) /\ In s (snd q) /\ snd s = id /\ fst s = version.
Proof.
  intros (od & vd & H1 & H2 & H3); exists (key, od), (os, vd), (version, id); auto.
Qed.

Example C01_hypothesis_met :
  forall id, consulted ex_rules ex_foo ex_ubuntu ex_lucid id -> unambiguous_id (Some ex_apt) id.
Proof.
  intros id H.
  assert (G : exists os v, entry ex_rules ex_foo os v id /\ (os = ex_ubuntu \/ os = any_os) /\ (v = ex_lucid \/ v = any_version)).
  { destruct H as [H|[H|H]]; eauto 10. }
  destruct G as (os & v & (od & vd & H1 & H2 & H3) & _).
  simpl in H1; destruct H1 as [H1|[]]; injection H1 as <-.
  simpl in H2; destruct H2 as [H2|[H2|[]]]; injection H2 as _ <-;
    simpl in H3; repeat (destruct H3 as [H3|H3]; [injection H3 as _ <-|]); try destruct H3;
    intros n E _; injection E as <-; vm_compute; intuition discriminate.
Qed.

(** C02: the keyword default_installer is always resolved; lookup fails exactly
    when it is used without a configured default installer. *)
Theorem C02_default_installer_resolved :
  forall (R : Type) (r : rules_dict R) (key os version : text) (def : option text) (d : installer_dict R) (rule : R),
    def <> Some default_installer ->
    lookup_rules r key os version def = Ok d ->
    ~ In (default_installer, rule) d.
Proof. exact @lookup_no_keyword. Qed.
Print Assumptions C02_default_installer_resolved.

Theorem C02_lookup_fails_iff :
  forall (R : Type) (r : rules_dict R) (key os version : text) (def : option text) (e : exn),
    wf_rules r ->
    (lookup_rules r key os version def = Err e <->
     e = ValueError /\ ~ default_ok def /\
     exists id rule, consulted r key os version id /\ In (default_installer, rule) id).
Proof. exact @lookup_fails_iff. Qed.
Print Assumptions C02_lookup_fails_iff.

Example C02_nonvacuous :
  lookup_rules ex_rules ex_foo ex_ubuntu ex_lucid None = Err ValueError /\
  exists d, lookup_rules ex_rules ex_foo ex_debian ex_lucid None = Ok d.
Proof. split; [vm_compute; reflexivity|eexists; vm_compute; reflexivity]. Qed.

(** C03: lookup does not depend on iteration order. *)
Theorem C03_lookup_order_independent :
  forall (R : Type) (r r' : rules_dict R) (key os version : text) (def : option text),
    wf_rules r -> rules_equiv r r' ->
    (forall id, consulted r key os version id -> unambiguous_id def id) ->
    outcome_equiv (lookup_rules r key os version def) (lookup_rules r' key os version def).
Proof. exact @lookup_order_independent. Qed.
Print Assumptions C03_lookup_order_independent.

(** Without the proviso, two iteration orders of the same file give different rules. *)
Definition amb1 : rules_dict N := [(ex_foo, [(ex_ubuntu, [(ex_lucid, [(default_installer, 1%N); (ex_apt, 2%N)])])])].
Definition amb2 : rules_dict N := [(ex_foo, [(ex_ubuntu, [(ex_lucid, [(ex_apt, 2%N); (default_installer, 1%N)])])])].
Theorem C03_order_matters_when_ambiguous_refuted :
  exists (r r' : rules_dict N) key os version def d d',
    wf_rules r /\ rules_equiv r r' /\
    lookup_rules r key os version def = Ok d /\ lookup_rules r' key os version def = Ok d' /\
    In (ex_apt, 2%N) d /\ In (ex_apt, 1%N) d' /\ ~ In (ex_apt, 2%N) d'.
Proof.
  exists amb1, amb2, ex_foo, ex_ubuntu, ex_lucid, (Some ex_apt), [(ex_apt, 2%N)], [(ex_apt, 1%N)].
  split; [unfold amb1; solve_wf|]; split.
  - exists amb1; split; [apply Permutation_refl|]; repeat constructor; simpl.
    eexists; split; [apply Permutation_refl|]; repeat constructor; simpl.
    eexists; split; [apply Permutation_refl|]; repeat constructor; simpl.
  - repeat split; try (vm_compute; reflexivity); simpl; auto.
    intros [E|[]]; discriminate.
Qed.
Print Assumptions C03_order_matters_when_ambiguous_refuted.

(** C04: the key listing is complete, and only lists keys of the file. *)
Theorem C04_keys_complete :
  forall (R : Type) (r : rules_dict R) (key os version : text) (def : option text) (d : installer_dict R),
    lookup_rules r key os version def = Ok d -> d <> [] ->
    In key (spec_keys r os version).
Proof. exact @keys_complete. Qed.
Print Assumptions C04_keys_complete.

Theorem C04_keys_from_file :
  forall (R : Type) (r : rules_dict R) (os version k : text),
    In k (spec_keys r os version) -> In k (map fst r).
Proof. exact @spec_keys_subset. Qed.
Print Assumptions C04_keys_from_file.

Theorem C04_keys_once :
  forall (R : Type) (r : rules_dict R) (os version : text),
    NoDup (map fst r) -> NoDup (spec_keys r os version).
Proof. exact @spec_keys_nodup. Qed.
Print Assumptions C04_keys_once.

(** Which keys are listed: those with an entry for any os, or for the os and its version or any version. *)
Theorem C04_listed_exactly :
  forall (R : Type) (r : rules_dict R) (key os version : text), wf_rules r ->
    (In key (spec_keys r os version) <->
     (exists od vd, In (key, od) r /\ In (any_os, vd) od) \/
     (exists id, entry r key os version id \/ entry r key os any_version id)).
Proof.
  intros R r key os version [Hw Hr]; unfold spec_keys, keys; rewrite in_map_iff; split.
  - intros ((k & od) & <- & Hin); apply filter_In in Hin; destruct Hin as [Hin Hh]; cbn [fst snd] in *.
    unfold has_rule_for_os in Hh; destruct (has any_os od) eqn:Ha.
    + left; unfold has in Ha; destruct (get any_os od) as [vd|] eqn:E; [|discriminate].
      exists od, vd; split; [exact Hin|apply get_In; exact E].
    + right; destruct (get os od) as [vd|] eqn:E; [|discriminate]; apply get_In in E.
      apply orb_true_iff in Hh; unfold has in Hh.
      destruct Hh as [Hh|Hh]; [destruct (get version vd) as [id|] eqn:Ei|destruct (get any_version vd) as [id|] eqn:Ei]; try discriminate;
        apply get_In in Ei; exists id; [left|right]; exists od, vd; repeat split; assumption.
  - intros [(od & vd & H1 & H2)|(id & H)].
    + exists (key, od); split; [reflexivity|]; apply filter_In; split; [exact H1|]; cbn [snd]; unfold has_rule_for_os, has.
      rewrite (In_get _ _ _ (proj1 (Hr _ _ H1)) H2); reflexivity.
    + assert (G : exists v, (v = version \/ v = any_version) /\ entry r key os v id) by (destruct H; eauto).
      destruct G as (v & Hv & od & vd & H1 & H2 & H3).
      exists (key, od); split; [reflexivity|]; apply filter_In; split; [exact H1|]; cbn [snd]; unfold has_rule_for_os.
      destruct (Hr _ _ H1) as [Ho Hvd]; rewrite (In_get _ _ _ Ho H2); unfold has.
      destruct (get any_os od); [reflexivity|].
      pose proof (In_get _ _ _ (proj1 (Hvd _ _ H2)) H3) as E.
      destruct Hv as [-> | ->]; rewrite E; [reflexivity|apply orb_true_r].
Qed.
Print Assumptions C04_listed_exactly.

(** A lookup that succeeds finds no rule exactly if the entries it consults are all empty. *)
Theorem C04_no_rule_exactly :
  forall (R : Type) (r : rules_dict R) (key os version : text) (def : option text) (d : installer_dict R), wf_rules r ->
    lookup_rules r key os version def = Ok d ->
    (d = [] <-> forall id, consulted r key os version id -> id = []).
Proof.
  intros R r key os version def d Hw E; split.
  - intros -> id Hc; destruct id as [|[n rule] id]; [reflexivity|exfalso].
    assert (Hn : exists i, names def ((n, rule) :: id) i rule).
    { destruct (eqb_spec n default_installer) as [->|Hn]; [|exists n; left; split; [exact Hn|left; reflexivity]].
      assert (Hd : default_ok def).
      { destruct def as [[|c s]|]; [exfalso|exists (c :: s); split; [reflexivity|discriminate]|exfalso];
        match type of E with ?l = _ => assert (X : l = Err ValueError) end;
        try (apply (C02_lookup_fails_iff _ r key os version _ ValueError Hw); split; [reflexivity|]; split;
            [intros (m & Em & Hm); congruence|exists ((default_installer, rule) :: id), rule; split; [exact Hc|left; reflexivity]]);
        rewrite E in X; discriminate X. }
      destruct Hd as (m & -> & Hm); exists m; right; split; [left; reflexivity|split; [reflexivity|exact Hm]]. }
    destruct Hn as (i & Hn); destruct (names_offer _ _ _ _ Hn) as (r0 & Ho).
    pose proof (lookup_get _ _ _ _ _ _ i E) as G; cbn [get] in G.
    destruct Hc as [Hc|[Hc|Hc]]; rewrite (entry_look _ _ _ _ _ Hw Hc), Ho in G; cbn [orelse] in G;
      destruct (offer def (look r key os version) i); try discriminate G;
      destruct (offer def (look r key os any_version) i); discriminate G.
  - intros Hc; destruct d as [|[i rule] d]; [reflexivity|exfalso].
    pose proof (lookup_get _ _ _ _ _ _ i E) as G; rewrite get_cons, eqb_refl in G.
    assert (N : forall o v, (forall id, entry r key o v id -> id = []) -> offer def (look r key o v) i = None).
    { intros o v He; apply offer_None; intros r0 Hn.
      apply (rule_at_look r def key o v i r0 Hw) in Hn; destruct Hn as (id & Hi & Hn).
      rewrite (He _ Hi) in Hn; destruct Hn as [[_ []]|([] & _)]. }
    rewrite !N in G; [discriminate G| | |]; intros id He; apply Hc; unfold consulted; tauto.
Qed.
Print Assumptions C04_no_rule_exactly.

(** So the converse of completeness holds when no entry is empty and every any_os entry is for any_version
    (the only one that verification admits). *)
Theorem C04_listed_has_rule_partial :
  forall (R : Type) (r : rules_dict R) (key os version : text) (def : option text) (d : installer_dict R), wf_rules r ->
    (forall os' version' id, entry r key os' version' id -> id <> []) ->
    (forall od vd, In (key, od) r -> In (any_os, vd) od -> exists id, In (any_version, id) vd) ->
    In key (spec_keys r os version) ->
    lookup_rules r key os version def = Ok d -> d <> [].
Proof.
  intros R r key os version def d Hw Hne Hany Hin E Ed.
  pose proof (proj1 (C04_no_rule_exactly _ _ _ _ _ _ _ Hw E) Ed) as Hc.
  apply (C04_listed_exactly _ _ _ _ _ Hw) in Hin; destruct Hin as [(od & vd & H1 & H2)|(id & [H|H])].
  - destruct (Hany _ _ H1 H2) as (id & H3); assert (He : entry r key any_os any_version id) by (exists od, vd; auto).
    apply (Hne _ _ _ He), Hc; right; right; exact He.
  - apply (Hne _ _ _ H), Hc; left; exact H.
  - apply (Hne _ _ _ H), Hc; right; left; exact H.
Qed.
Print Assumptions C04_listed_has_rule_partial.

Example C04_nonvacuous :
  spec_keys ex_rules2 ex_ubuntu ex_lucid = [ex_foo] /\ spec_keys ex_rules2 ex_ubuntu ex_precise = [].
Proof. split; vm_compute; reflexivity. Qed.

Example C04_partial_nonvacuous :
  (forall os' version' id, entry ex_rules2 ex_foo os' version' id -> id <> []) /\
  (forall od vd, In (ex_foo, od) ex_rules2 -> In (any_os, vd) od -> exists id, In (any_version, id) vd) /\
  In ex_foo (spec_keys ex_rules2 ex_ubuntu ex_lucid).
Proof.
  split; [|split; [|vm_compute; tauto]].
  - intros os' v' id (od & vd & [H1|[]] & H2 & H3); injection H1 as <-; destruct H2 as [H2|[H2|[]]]; injection H2 as _ <-;
      destruct H3 as [H3|[]]; injection H3 as _ <-; discriminate.
  - intros od vd [H1|[]] H2; injection H1 as <-; exfalso.
    destruct H2 as [H2|[H2|[]]]; vm_compute in H2; discriminate H2.
Qed.

(** The converse fails: a listed key may have no rule at all. *)
Theorem C04_listed_key_without_rule_refuted :
  exists (r : rules_dict N) key os version,
    wf_rules r /\ In key (spec_keys r os version) /\
    forall def, lookup_rules r key os version def = Ok [].
Proof.
  exists [(ex_foo, [(any_os, [(any_version, [])])])], ex_foo, ex_ubuntu, ex_lucid.
  split; [solve_wf|]; split; [vm_compute; auto|intros def; vm_compute; reflexivity].
Qed.
Print Assumptions C04_listed_key_without_rule_refuted.

(** C05: looking up in the merge = first dict of the list whose lookup has a rule. *)
Theorem C05_merge_front_wins :
  forall (R : Type) (l : list (rules_dict R)) (defs : dict text (option text)) (m : rules_dict R),
    (forall os def, get os defs = Some def -> def <> Some default_installer) ->
    Forall wf_rules l ->
    merge_rules l defs = Ok m ->
    forall (key os : text) (def : option text) (version : text),
      get os defs = Some def -> os <> any_os ->
      (forall r, In r l -> exists d, lookup_rules r key os version def = Ok d) /\
      exists dm, lookup_rules m key os version def = Ok dm /\
      forall i rule, In (i, rule) dm <->
        exists before r after d,
          l = before ++ r :: after /\
          lookup_rules r key os version def = Ok d /\ In (i, rule) d /\
          forall r' d', In r' before -> lookup_rules r' key os version def = Ok d' ->
                        ~ In i (map fst d').
Proof. exact @merge_then_lookup. Qed.
Print Assumptions C05_merge_front_wins.

Definition ex_defs : dict text (option text) := [(ex_ubuntu, Some ex_apt); (ex_debian, Some ex_apt)].
Definition ex_merged : rules_dict N :=
  [(ex_foo,
    [(any_os, [(any_version, [(ex_pip, 1%N); (ex_apt, 2%N)])]);
     (ex_ubuntu, [(any_version, [(ex_apt, 3%N)]); (ex_lucid, [(ex_pip, 4%N); (ex_apt, 7%N)])]);
     (ex_debian, [(any_version, [(ex_pip, 8%N)])])])].

Example C05_nonvacuous :
  (forall os def, get os ex_defs = Some def -> def <> Some default_installer) /\
  Forall wf_rules [ex_rules2; ex_rules] /\
  merge_rules [ex_rules2; ex_rules] ex_defs = Ok ex_merged.
Proof.
  split; [|split].
  - intros os def H; apply get_In in H; simpl in H.
    destruct H as [H|[H|[]]]; injection H as _ <-; vm_compute; discriminate.
  - constructor; [apply ex_rules2_wf|constructor; [apply ex_rules_wf|constructor]].
  - vm_compute; reflexivity.
Qed.

(** C06: merged rules only contain configured oses and no keyword. *)
Theorem C06_merged_domain :
  forall (R : Type) (l : list (rules_dict R)) (defs : dict text (option text)) (m : rules_dict R),
    (forall os def, get os defs = Some def -> def <> Some default_installer) ->
    Forall wf_rules l ->
    merge_rules l defs = Ok m ->
    forall key os version id, entry m key os version id ->
      (os = any_os \/ In os (map fst defs)) /\
      forall rule, ~ In (default_installer, rule) id.
Proof. exact @merge_domain. Qed.
Print Assumptions C06_merged_domain.

Example C06_nonvacuous : entry ex_merged ex_foo ex_ubuntu ex_lucid [(ex_pip, 4%N); (ex_apt, 7%N)].
Proof. eexists _, _; split; [left; reflexivity|split; [right; left; reflexivity|right; left; reflexivity]]. Qed.

(** C07: merging does not fail, provided that only the lowest priority dict uses
    the keyword under any_version.  Missing: dicts of higher priority that use
    default_installer under any_version -- there the full claim is false, see
    the refutation below. *)
Theorem C07_merge_total_partial :
  forall (R : Type) (l : list (rules_dict R)) (lowest : rules_dict R) (defs : dict text (option text)),
    good_config defs ->
    Forall wf_rules (l ++ [lowest]) ->
    Forall any_os_shape (l ++ [lowest]) ->
    Forall (any_version_explicit defs) l ->
    exists m, merge_rules (l ++ [lowest]) defs = Ok m.
Proof. exact @merge_rules_total. Qed.
Print Assumptions C07_merge_total_partial.

Example C07_nonvacuous :
  good_config ex_defs /\ any_os_shape ex_rules /\ any_os_shape ex_rules2 /\ any_version_explicit ex_defs ex_rules2.
Proof.
  split; [|split; [|split]].
  - split; [unfold wf, keys; simpl; repeat constructor; simpl; intuition discriminate|split].
    + simpl; intuition discriminate.
    + intros os def [H|[H|[]]]; injection H as _ <-;
        (split; [exists ex_apt; split; [reflexivity|discriminate]|vm_compute; discriminate]).
  - intros key od vd [H|[]] H2; injection H as _ <-; destruct H2 as [H2|[H2|[]]]; [|discriminate].
    injection H2 as <-; split; [eexists; left; reflexivity|].
    intros v id rule [H|[]]; injection H as _ <-; simpl; intuition discriminate.
  - intros key od vd [H|[]] H2; injection H as _ <-; destruct H2 as [H2|[H2|[]]]; discriminate.
  - intros key os id rule _ (od & vd & [H|[]] & H2 & H3); injection H as _ <-.
    destruct H2 as [H2|[H2|[]]]; injection H2 as _ <-; destruct H3 as [H3|[]]; injection H3; intros <-; intros.
    + discriminate.
    + simpl; intuition discriminate.
Qed.

(** Two well-formed dicts that both use the keyword under any_version cannot be
    merged, although every os has a default installer. *)
Theorem C07_merge_total_refuted :
  exists (a b : rules_dict N) (defs : dict text (option text)),
    good_config defs /\ wf_rules a /\ wf_rules b /\ any_os_shape a /\ any_os_shape b /\
    merge_rules [a; b] defs = Err ValueError.
Proof.
  exists [(ex_foo, [(ex_ubuntu, [(any_version, [(default_installer, 1%N)])])])],
         [(ex_foo, [(ex_ubuntu, [(any_version, [(default_installer, 2%N)])])])], ex_defs.
  split; [apply C07_nonvacuous|]; split; [solve_wf|]; split; [solve_wf|].
  split; [|split; [|vm_compute; reflexivity]];
    intros key od vd [H|[]] H2; injection H as _ <-; destruct H2 as [H2|[]]; discriminate.
Qed.
Print Assumptions C07_merge_total_refuted.

(** C07: exactly when merging fails.  Reading the list from the lowest priority
    dict upwards, the merge stops with a [ValueError] at the first dict that uses
    the keyword under any_version of a configured os for which the dicts below it
    leave an any_version entry; there is no other way to fail. *)
Theorem C07_fails_exactly :
  forall (R : Type) (l : list (rules_dict R)) (defs : dict text (option text)) (e : exn),
    good_config defs -> Forall wf_rules l -> Forall any_os_shape l ->
    (merge_rules l defs = Err e <->
     e = ValueError /\
     exists above r below m,
       l = above ++ r :: below /\ merge_rules below defs = Ok m /\ clash defs r m).
Proof. exact @merge_fails_exactly. Qed.
Print Assumptions C07_fails_exactly.

(** Both outcomes occur: the keyword over an existing entry clashes; when the
    any_os entry of the same dict overrides everything below, it does not. *)
Definition ex_kw : rules_dict N :=
  [(ex_foo, [(ex_ubuntu, [(any_version, [(default_installer, 1%N)])])])].
Definition ex_kw_over : rules_dict N :=
  [(ex_foo, [(any_os, [(any_version, [(ex_apt, 5%N)])]);
             (ex_ubuntu, [(any_version, [(default_installer, 1%N)])])])].

Example C07_fails_nonvacuous :
  clash ex_defs ex_kw ex_merged /\ merge_rules [ex_kw; ex_rules2; ex_rules] ex_defs = Err ValueError /\
  merge_rules [ex_kw] ex_defs <> Err ValueError /\
  wf_rules ex_kw_over /\ any_os_shape ex_kw_over /\
  merge_rules [ex_kw_over; ex_kw] ex_defs =
    Ok [(ex_foo, [(any_os, [(any_version, [(ex_apt, 5%N)])]); (ex_ubuntu, [(any_version, [(ex_apt, 1%N)])])])].
Proof.
  split; [|split; [vm_compute; reflexivity|split; [vm_compute; discriminate|split; [solve_wf|split; [|vm_compute; reflexivity]]]]].
  - exists ex_foo, ex_ubuntu, [(ex_apt, 3%N)]; split; [vm_compute; tauto|]; split; [|split].
    + exists [(default_installer, 1%N)], 1%N; split; [|left; reflexivity].
      eexists _, _; split; [left; reflexivity|split; [left; reflexivity|left; reflexivity]].
    + eexists _, _; split; [left; reflexivity|split; [right; left; reflexivity|left; reflexivity]].
    + left; intros id i rule He; destruct He as (od & vd & H & H2 & _); destruct H as [H|[]]; assert (Eod := f_equal snd H); cbn [snd] in Eod; subst od.
      destruct H2 as [H2|[]]; discriminate.
  - intros key od vd [H|[]] H2; injection H as _ <-; destruct H2 as [H2|[H2|[]]]; [|discriminate].
    injection H2 as <-; split; [eexists; left; reflexivity|].
    intros v id rule [H|[]]; injection H as _ <-; simpl; intuition discriminate.
Qed.
