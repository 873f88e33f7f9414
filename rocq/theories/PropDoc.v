(** C78: the lookup logic documented in xylem/specs/plugins/rules.py:93-106 compared with
    what the code does. *)
From Verif Require Import Base Dict PyVal RulesDict RulesSpec RulesLookupProofs PropRules.

Section Doc.
  Context {R : Type}.

  (** The file mentions the os under the key. *)
  Definition mentions_os (r : rules_dict R) (key os : text) : Prop :=
    exists od vd, In (key, od) r /\ In (os, vd) od.

  (** The documented logic: the entry of the os version; without one, the [any_version] entry
      of the os; for an os that is not mentioned, the entry of [any_os]. *)
  Inductive documented (r : rules_dict R) (key os version : text) : installer_dict R -> Prop :=
  | doc_version id :
      entry r key os version id -> documented r key os version id
  | doc_any_version id :
      (forall id', ~ entry r key os version id') ->
      entry r key os any_version id -> documented r key os version id
  | doc_any_os id :
      ~ mentions_os r key os ->
      entry r key any_os any_version id -> documented r key os version id.

  Lemma In_unique {V} (k : text) (v1 v2 : V) (d : dict text V) :
    wf d -> In (k, v1) d -> In (k, v2) d -> v1 = v2.
  Proof. intros Hw H1 H2. apply In_get in H1, H2; try assumption. congruence. Qed.

  Lemma entry_mentions (r : rules_dict R) key os version id :
    entry r key os version id -> mentions_os r key os.
  Proof. intros (od & vd & H1 & H2 & _). exists od, vd; auto. Qed.

  (** Every rule of the documented answer is in the answer of a lookup. *)
  Theorem C78_documented_rules_found_partial (r : rules_dict R) key os version def d id :
    wf_rules r ->
    (forall id', consulted r key os version id' -> unambiguous_id def id') ->
    lookup_rules r key os version def = Ok d ->
    documented r key os version id ->
    forall i rule, names def id i rule -> In (i, rule) d.
  Proof.
    intros Hw Hu Hl Hd i rule Hn. apply (C01_lookup_precedence R r key os version def d Hw Hu Hl i rule).
    inversion Hd as [? He|? Hno He|? Hno He]; subst.
    - apply eff_specific. exists id; auto.
    - apply eff_any_version; [|exists id; auto].
      intros rule' (id' & He' & _). exact (Hno _ He').
    - apply eff_any_os; [| |exists id; auto]; intros rule' (id' & He' & _);
        apply Hno; eapply entry_mentions; exact He'.
  Qed.

  (** Conversely, whatever a lookup adds comes from an entry that the documented logic
      ignores as less specific: [any_version] or [any_os]. *)
  Theorem C78_additions_less_specific_partial (r : rules_dict R) key os version def d id :
    wf_rules r ->
    (forall id', consulted r key os version id' -> unambiguous_id def id') ->
    lookup_rules r key os version def = Ok d ->
    documented r key os version id ->
    forall i rule, In (i, rule) d ->
      names def id i rule \/
      ((forall rule', ~ names def id i rule') /\
       (rule_at r def key os any_version i rule \/ rule_at r def key any_os any_version i rule)).
  Proof.
    intros Hw Hu Hl Hd i rule Hin.
    pose proof (proj1 (C01_lookup_precedence R r key os version def d Hw Hu Hl i rule) Hin) as He.
    assert (Hsame : forall o v id1 id2, entry r key o v id1 -> entry r key o v id2 -> id1 = id2).
    { intros o v id1 id2 (od1 & vd1 & A1 & B1 & C1) (od2 & vd2 & A2 & B2 & C2).
      destruct Hw as [Hw1 Hw2].
      assert (od1 = od2) by (eapply In_unique; eassumption); subst od2.
      destruct (Hw2 _ _ A1) as [Hw3 Hw4].
      assert (vd1 = vd2) by (eapply In_unique; eassumption); subst vd2.
      destruct (Hw4 _ _ B1) as [Hw5 _]. eapply In_unique; eassumption. }
    inversion Hd as [? Hid|? Hno Hid|? Hno Hid]; subst.
    - destruct He as [rule (id' & E1 & E2)|rule Hn E|rule Hn1 Hn2 E].
      + left. rewrite (Hsame _ _ _ _ Hid E1). exact E2.
      + right. split; [|left; exact E]. intros rule' Hr. apply (Hn rule'). exists id; auto.
      + right. split; [|right; exact E]. intros rule' Hr. apply (Hn1 rule'). exists id; auto.
    - destruct He as [rule (id' & E1 & E2)|rule Hn (id' & E1 & E2)|rule Hn1 Hn2 E].
      + exfalso. exact (Hno _ E1).
      + left. rewrite (Hsame _ _ _ _ Hid E1). exact E2.
      + right. split; [|right; exact E]. intros rule' Hr. apply (Hn2 rule'). exists id; auto.
    - destruct He as [rule (id' & E1 & E2)|rule Hn (id' & E1 & E2)|rule Hn1 Hn2 (id' & E1 & E2)].
      + exfalso. apply Hno; eapply entry_mentions; exact E1.
      + exfalso. apply Hno; eapply entry_mentions; exact E1.
      + left. rewrite (Hsame _ _ _ _ Hid E1). exact E2.
  Qed.
End Doc.

(** The example of rules.py:73-91. *)
Definition doc_foo : rules_dict N :=
  [(u "foo",
    [(any_os, [(any_version, [(u "pip", 1%N)])]);
     (u "ubuntu", [(any_version, [(default_installer, 2%N)])]);
     (u "debian", [(any_version, [(default_installer, 2%N)])]);
     (u "osx", [(any_version, [(u "homebrew", 1%N)])])])].

(** The documented answer on ubuntu has one rule, for apt; a lookup also returns the pip rule
    of [any_os].  And a version without entry gets the rule of [any_os], where the documented
    logic finds nothing. *)
Definition doc_bar : rules_dict N :=
  [(u "bar", [(any_os, [(any_version, [(u "pip", 1%N)])]);
              (u "ubuntu", [(u "lucid", [(u "apt", 2%N)])])])].

Theorem C78_exact_answer_refuted :
  (exists id, documented doc_foo (u "foo") (u "ubuntu") (u "precise") id /\
     (forall rule, ~ names (Some (u "apt")) id (u "pip") rule) /\
     exists d, lookup_rules doc_foo (u "foo") (u "ubuntu") (u "precise") (Some (u "apt")) = Ok d /\
               In (u "pip", 1%N) d) /\
  (forall id, ~ documented doc_bar (u "bar") (u "ubuntu") (u "precise") id) /\
  lookup_rules doc_bar (u "bar") (u "ubuntu") (u "precise") (Some (u "apt")) = Ok [(u "pip", 1%N)].
Proof.
  assert (NE : forall id, ~ entry doc_foo (u "foo") (u "ubuntu") (u "precise") id).
  { intros id (od & vd & H1 & H2 & H3). destruct H1 as [E|[]]. injection E as <-.
    destruct H2 as [E|[E|[E|[E|[]]]]]; try discriminate E. injection E as <-.
    destruct H3 as [E|[]]. discriminate E. }
  repeat split.
  - exists [(default_installer, 2%N)]. repeat split.
    + apply doc_any_version; [exact NE|]. eexists; eexists. split; [left; reflexivity|].
      split; [right; left; reflexivity|left; reflexivity].
    + intros rule [[_ [E|[]]]|(_ & E & _)]; discriminate E.
    + eexists. split; [vm_compute; reflexivity|]. left; reflexivity.
  - intros id Hd. inversion Hd as [? He|? Hno He|? Hno He]; subst.
    + destruct He as (od & vd & H1 & H2 & H3). destruct H1 as [E|[]]. injection E as <-.
      destruct H2 as [E|[E|[]]]; try discriminate E. injection E as <-.
      destruct H3 as [E|[]]. discriminate E.
    + destruct He as (od & vd & H1 & H2 & H3). destruct H1 as [E|[]]. injection E as <-.
      destruct H2 as [E|[E|[]]]; try discriminate E. injection E as <-.
      destruct H3 as [E|[]]. discriminate E.
    + apply Hno. eexists; eexists. split; [left; reflexivity|right; left; reflexivity].
Qed.

(** Non-vacuity: the documented answers of the example. *)
Example C78_nonvacuous :
  wf_rules doc_foo /\
  documented doc_foo (u "foo") (u "windows") (u "7") [(u "pip", 1%N)] /\
  documented doc_foo (u "foo") (u "osx") (u "lion") [(u "homebrew", 1%N)] /\
  lookup_rules doc_foo (u "foo") (u "windows") (u "7") (Some (u "choco")) = Ok [(u "pip", 1%N)].
Proof.
  split; [solve_wf|]. split; [|split].
  - apply doc_any_os.
    + intros (od & vd & H1 & H2). destruct H1 as [E|[]]. injection E as <-.
      destruct H2 as [E|[E|[E|[E|[]]]]]; discriminate E.
    + eexists; eexists. split; [left; reflexivity|]. split; [left; reflexivity|left; reflexivity].
  - apply doc_any_version.
    + intros id (od & vd & H1 & H2 & H3). destruct H1 as [E|[]]. injection E as <-.
      destruct H2 as [E|[E|[E|[E|[]]]]]; try discriminate E. injection E as <-.
      destruct H3 as [E|[]]. discriminate E.
    + eexists; eexists. split; [left; reflexivity|].
      split; [right; right; right; left; reflexivity|left; reflexivity].
  - vm_compute. reflexivity.
Qed.

Print Assumptions C78_documented_rules_found_partial.
Print Assumptions C78_additions_less_specific_partial.
Print Assumptions C78_exact_answer_refuted.
