(** When merging rules dicts cannot fail (C07). *)
From Verif Require Import Base Dict RulesDict RulesSpec RulesLookupProofs RulesMergeProofs.

Section Total.
  Context {R : Type}.

  Lemma keyword_In (id : installer_dict R) :
    (forall rule, ~ In (default_installer, rule) id) -> ~ In default_installer (keys id).
  Proof.
    intros Hn Hin; unfold keys in Hin; apply in_map_iff in Hin.
    destruct Hin as ([n rule] & E & Hin); simpl in E; subst; eapply Hn; eassumption.
  Qed.

  Lemma copy_version_total (vd : version_dict R) def :
    kw_ok def vd -> wf vd -> exists vd', copy_version_dict vd def = Ok vd'.
  Proof.
    intros Hk Hw; unfold copy_version_dict.
    eapply (foldM_local_total _ (fun _ _ _ _ => True)); [|exact Hw|apply wf_nil|].
    - intros c k x c' Hc E; simpl in E; apply bind_Ok in E; destruct E as (id & Eid & E).
      injection E as <-; split; [apply wf_set; assumption|split; [exact I|]].
      intros k' Hn; apply get_set_other; assumption.
    - intros k x c1 Hin _ _; simpl.
      destruct (merge_installer_ok x [] def) as [d Ed].
      + destruct (in_dec (list_eq_dec N.eq_dec) default_installer (keys x)) as [Hi|Hi]; [|auto].
        right; eapply Hk; [apply In_get; eassumption|assumption].
      + rewrite copy_is_merge, Ed; simpl; eauto.
  Qed.

  Lemma copy_os_total (od : os_dict R) defs :
    wfv od ->
    (forall vd, get any_os od = Some vd -> kw_ok None vd) ->
    (forall os def vd, os <> any_os -> get os defs = Some def -> get os od = Some vd -> kw_ok def vd) ->
    exists c, copy_os_dict od defs = Ok c.
  Proof.
    intros [Hw Hwv] Ha Hk; unfold copy_os_dict.
    eapply (foldM_local_total _ (fun _ _ _ _ => True)); [|exact Hw|apply wf_nil|].
    - intros c k x c' Hc E; simpl in E.
      assert (G : forall vd, wf (set k vd c) /\ True /\ forall k', k' <> k -> get k' (set k vd c) = get k' c).
      { intros vd; split; [apply wf_set; assumption|split; [exact I|]].
        intros k' Hn; apply get_set_other; assumption. }
      destruct (eqb k any_os).
      + apply bind_Ok in E; destruct E as (vd & _ & E); injection E as <-; apply G.
      + destruct (get k defs); [|injection E as <-; auto].
        apply bind_Ok in E; destruct E as (vd & _ & E); injection E as <-; apply G.
    - intros k x c1 Hin _ _; simpl; apply (In_get _ _ _ Hw) in Hin.
      destruct (eqb_spec k any_os) as [->|Hn].
      + destruct (copy_version_total x None) as [vd Ev]; [eapply Ha; eassumption|eapply Hwv; eassumption|].
        rewrite Ev; simpl; eauto.
      + destruct (get k defs) as [def|] eqn:Ed; [|eauto].
        destruct (copy_version_total x def) as [vd Ev]; [eapply Hk; eassumption|eapply Hwv; eassumption|].
        rewrite Ev; simpl; eauto.
  Qed.

  Lemma remove_fold_versions_total def (l : list text) (vd : version_dict R) :
    (In default_installer l -> default_ok def) ->
    exists vd', foldM (fun c name => let* n := replace_default_installer name def in
                         Ok (remove_rule_for_all_versions c n true)) l vd = Ok vd'.
  Proof.
    revert vd; induction l as [|n l IH]; intros vd Hk; simpl; [eauto|].
    destruct (replace_default_installer n def) as [m|e] eqn:Em; simpl.
    - apply IH; intros Hi; apply Hk; right; assumption.
    - exfalso; apply replace_Err in Em; destruct Em as (_ & -> & Hd); apply Hd, Hk; left; reflexivity.
  Qed.

  Lemma merge_version_total (new comb : version_dict R) def :
    wf new -> cl_vd comb -> def <> Some default_installer ->
    kw_ok def new ->
    (forall id, get any_version new = Some id -> ~ In default_installer (keys id)) ->
    exists c, merge_version_dict new comb def = Ok c.
  Proof.
    intros Hw Hc Hdef Hk Ha; unfold merge_version_dict.
    assert (T1 : exists c1, merge_any_version new comb def = Ok c1).
    { unfold merge_any_version; destruct (get any_version new) as [nid|] eqn:En; [|eauto].
      destruct (remove_fold_versions_total def (keys nid) comb) as [c1 E1].
      { intros Hi; exfalso; eapply Ha; eauto. }
      rewrite E1; simpl; destruct (get any_version c1) as [cid|].
      - destruct (merge_installer_ok nid cid None) as [d Ed]; [left; auto|].
        rewrite Ed; simpl; eauto.
      - rewrite copy_is_merge; destruct (merge_installer_ok nid [] def) as [d Ed]; [left; auto|].
        rewrite Ed; simpl; eauto. }
    destruct T1 as [c1 E1]; rewrite E1; simpl.
    destruct (merge_any_version_spec _ _ _ _ Hdef Hc E1) as (Hc1 & _).
    eapply (foldM_local_total _ (Pmergev def) (merge_version_step_local def)); [exact Hw|apply Hc1|].
    intros k x c2 Hin _ _; unfold merge_version_step; simpl; apply (In_get _ _ _ Hw) in Hin.
    assert (Hok : ~ In default_installer (keys x) \/ default_ok def).
    { destruct (in_dec (list_eq_dec N.eq_dec) default_installer (keys x)) as [Hi|Hi]; [|auto].
      right; eapply Hk; eassumption. }
    destruct (get k c2) as [cid|].
    - destruct (merge_installer_ok x cid def Hok) as [d Ed]; rewrite Ed; simpl; eauto.
    - rewrite copy_is_merge; destruct (merge_installer_ok x [] def Hok) as [d Ed]; rewrite Ed; simpl; eauto.
  Qed.

  (** any_os entries of a combined os dict have an any_version entry. *)
  Definition av_ok (od : os_dict R) : Prop :=
    forall vd, get any_os od = Some vd -> exists id, get any_version vd = Some id.

  Lemma remove_fold_os_total (l : list text) (od : os_dict R) :
    ~ In default_installer l ->
    exists od', foldM (fun c name => let* n := replace_default_installer name None in
                         Ok (remove_rule_for_all_os c n)) l od = Ok od'.
  Proof.
    revert od; induction l as [|n l IH]; intros od Hk; simpl; [eauto|].
    destruct (replace_default_installer n None) as [m|e] eqn:Em; simpl.
    - apply IH; intros Hi; apply Hk; right; assumption.
    - exfalso; apply replace_Err in Em; destruct Em as (_ & -> & Hd); apply Hk; left; reflexivity.
  Qed.

  Lemma merge_any_os_total (new comb : os_dict R) :
    wfv new -> cl_od comb -> av_ok new -> av_ok comb ->
    (forall vd, get any_os new = Some vd -> kw_ok None vd) ->
    exists c, merge_any_os new comb = Ok c /\ av_ok c.
  Proof.
    intros Hwn Hc Hav Hav' Hk; unfold merge_any_os.
    destruct (get any_os new) as [nvd|] eqn:En; [|eauto].
    destruct (Hav nvd En) as [nid Env]; unfold getitem; rewrite Env; simpl.
    assert (Hkn : ~ In default_installer (keys nid)).
    { intros Hi; destruct (Hk _ eq_refl _ _ Env Hi) as (n & Hn & _); discriminate. }
    destruct (remove_fold_os_total (keys nid) comb Hkn) as [c1 E1]; rewrite E1; simpl.
    destruct (remove_fold_os _ _ _ Hc E1) as (Hc1 & Ha & _).
    destruct (get any_os c1) as [cvd|] eqn:Eo.
    - destruct (Hav' cvd (eq_sym Ha)) as [cid Ecv]; rewrite Ecv; simpl.
      destruct (merge_installer_ok nid cid None) as [d Ed]; [auto|]; rewrite Ed; simpl.
      eexists; split; [reflexivity|]; intros vd Hg; rewrite get_set_same in Hg; injection Hg as <-.
      rewrite get_set_same; eauto.
    - assert (Hw : wf nvd) by (eapply (proj2 Hwn); eassumption).
      destruct (copy_version_total nvd None) as [vd Ev]; [auto|assumption|]; rewrite Ev; simpl.
      eexists; split; [reflexivity|]; intros vd' Hg; rewrite get_set_same in Hg; injection Hg as <-.
      destruct (copy_version_spec _ _ _ Hw Ev) as [_ Hs]; specialize (Hs any_version); rewrite Env in Hs.
      destruct Hs as (id' & Hi & _); eauto.
  Qed.

  Lemma merge_os_total (new comb : os_dict R) defs :
    good_defs defs -> get any_os defs = None ->
    wfv new -> cl_od comb -> av_ok new -> av_ok comb ->
    (forall vd, get any_os new = Some vd -> kw_ok None vd) ->
    (forall os def vd, get os defs = Some def -> get os new = Some vd ->
       kw_ok def vd /\ forall id, get any_version vd = Some id -> ~ In default_installer (keys id)) ->
    exists c, merge_os_dict new comb defs = Ok c /\ av_ok c.
  Proof.
    intros Hdefs Hao Hwn Hc Hav Hav' Hk Hos; unfold merge_os_dict.
    destruct (merge_any_os_total new comb Hwn Hc Hav Hav' Hk) as (c1 & E1 & Hav1); rewrite E1; simpl.
    destruct (merge_any_os_spec _ _ _ Hwn Hc E1) as (Hc1 & _).
    assert (T : exists c, foldM (merge_os_step defs) new c1 = Ok c).
    { eapply (foldM_local_total _ (Pmergeo defs) (merge_os_step_local defs)); [apply Hwn|apply Hc1|].
      intros k x c2 Hin Hw2 Hg; unfold merge_os_step; simpl.
      apply (In_get _ _ _ (proj1 Hwn)) in Hin.
      destruct (get k defs) as [def|] eqn:Ed; [|eauto].
      destruct (Hos k def x Ed Hin) as [Hkw Hany].
      assert (Hwx : wf x) by (eapply (proj2 Hwn); eassumption).
      destruct (get k c2) as [cvd|] eqn:Ec.
      - destruct (merge_version_total x cvd def) as [vd Ev]; auto.
        + eapply (proj2 Hc1); symmetry; exact Hg.
        + eapply Hdefs; eassumption.
        + rewrite Ev; simpl; eauto.
      - destruct (copy_version_total x def) as [vd Ev]; auto; rewrite Ev; simpl; eauto. }
    destruct T as [c E2]; exists c; split; [exact E2|].
    destruct (foldM_local _ (Pmergeo defs) (merge_os_step_local defs) new c1 c (proj1 Hwn) (proj1 Hc1) E2) as [_ Hs].
    specialize (Hs any_os); unfold Pmergeo in Hs; rewrite Hao in Hs.
    assert (Eq : get any_os c = get any_os c1) by (destruct (get any_os new); assumption).
    intros vd Hg; rewrite Eq in Hg; apply Hav1; assumption.
  Qed.

  (** What an os dict must satisfy to be merged. *)
  Definition od_shape (od : os_dict R) : Prop :=
    av_ok od /\ forall vd, get any_os od = Some vd -> kw_ok None vd.
  Definition od_explicit (defs : dict text (option text)) (od : os_dict R) : Prop :=
    forall os def vd id, get os defs = Some def -> get os od = Some vd ->
      get any_version vd = Some id -> ~ In default_installer (keys id).

  Definition av_rules (m : rules_dict R) : Prop := forall k od, get k m = Some od -> av_ok od.

  Definition defaults_ok (defs : dict text (option text)) : Prop :=
    forall os def, get os defs = Some def -> default_ok def.

  Lemma default_ok_kw def (vd : version_dict R) : default_ok def -> kw_ok def vd.
  Proof. intros Hd v id _ _; exact Hd. Qed.

  Lemma copy_os_av (od c : os_dict R) defs :
    wfv od -> od_shape od -> copy_os_dict od defs = Ok c -> av_ok c.
  Proof.
    intros Hw [Hav _] E; unfold copy_os_dict in E.
    apply (foldM_local' (Pcopyo defs)) in E; [|apply Hw|apply wf_nil|].
    - destruct E as [_ Hs]; specialize (Hs any_os); intros vd Hg.
      destruct (get any_os od) as [nvd|] eqn:En; [|rewrite Hs in Hg; discriminate].
      unfold Pcopyo in Hs; rewrite eqb_refl in Hs; destruct Hs as (vd' & Ev & Ec).
      assert (vd' = vd) by congruence; subst vd'.
      destruct (Hav nvd En) as [nid Env].
      assert (Hwn : wf nvd) by (eapply (proj2 Hw); eassumption).
      destruct (copy_version_spec _ _ _ Hwn Ec) as [_ Hs]; specialize (Hs any_version); rewrite Env in Hs.
      destruct Hs as (id' & Hi & _); eauto.
    - clear; intros c os nvd c' Hc E; simpl in E; unfold Pcopyo.
      destruct (eqb os any_os).
      + apply bind_Ok in E; destruct E as (vd & Ev & E); injection E as <-.
        split; [apply wf_set; assumption|split; [exists vd; rewrite get_set_same; auto|]].
        intros o' Hn; apply get_set_other; assumption.
      + destruct (get os defs) as [def|]; [|injection E as <-; auto].
        apply bind_Ok in E; destruct E as (vd & Ev & E); injection E as <-.
        split; [apply wf_set; assumption|split; [exists vd; rewrite get_set_same; auto|]].
        intros o' Hn; apply get_set_other; assumption.
  Qed.

  Lemma merge_rules_inner_total defs (r c : rules_dict R) :
    good_defs defs -> defaults_ok defs -> get any_os defs = None ->
    wf_rules r -> cl_rules c -> av_rules c ->
    (forall k od, get k r = Some od -> od_shape od) ->
    (forall k od, get k r = Some od -> has k c = true -> od_explicit defs od) ->
    exists c', foldM (merge_rules_step defs) r c = Ok c' /\ av_rules c'.
  Proof.
    intros Hdefs Hdo Hao Hwr Hc Hav Hsh Hex.
    assert (T : exists c', foldM (merge_rules_step defs) r c = Ok c').
    { eapply (foldM_local_total _ (Pmerger defs) (fun c k x c' => merge_rules_step_local defs c k x c' Hdefs));
        [apply Hwr|apply Hc|].
      intros k x c2 Hin Hw2 Hg; apply (In_get _ _ _ (proj1 Hwr)) in Hin.
      unfold merge_rules_step; simpl.
      assert (Hwx : wfv x) by (eapply wf_rules_wfv; eassumption).
      destruct (Hsh _ _ Hin) as [Hs1 Hs2].
      destruct (get k c2) as [cod|] eqn:Ec.
      - destruct (merge_os_total x cod defs) as (od & Eo & _); auto.
        + eapply (proj2 Hc); symmetry; exact Hg.
        + eapply Hav; symmetry; exact Hg.
        + intros os def vd Hd Hv; split; [apply default_ok_kw; eapply Hdo; eassumption|].
          intros id Hid; eapply (Hex k x Hin); eauto; apply has_true; eauto.
        + rewrite Eo; simpl; eauto.
      - destruct (copy_os_total x defs) as [od Eo]; auto.
        + intros os def vd _ Hd _; apply default_ok_kw; eapply Hdo; eassumption.
        + rewrite Eo; simpl; destruct od; eauto. }
    destruct T as [c' E]; exists c'; split; [exact E|].
    apply (foldM_local' (fun k nod o o' => wfv nod -> od_shape nod -> (o <> None -> od_explicit defs nod) ->
               (forall od, o = Some od -> cl_od od /\ av_ok od) ->
               forall od, o' = Some od -> av_ok od)) in E; [|apply Hwr|apply Hc|].
    - destruct E as [_ Hs]; intros k od Hg; specialize (Hs k).
      destruct (get k r) as [nod|] eqn:Er; [|rewrite Hs in Hg; eapply Hav; eassumption].
      eapply Hs; eauto.
      + eapply wf_rules_wfv; eassumption.
      + intros Hne; eapply Hex; [eassumption|]; unfold has; destruct (get k c); congruence.
      + intros od' Ho; split; [eapply (proj2 Hc); eassumption|eapply Hav; eassumption].
    - intros c0 k nod c1 Hw0 E0.
      destruct (merge_rules_step_local defs c0 k nod c1 Hdefs Hw0 E0) as (Hw1 & _ & Ho).
      split; [assumption|split; [|assumption]].
      intros Hwn [Hs1 Hs2] Hexp Hold od Hg; unfold merge_rules_step in E0; simpl in E0.
      destruct (get k c0) as [cod|] eqn:Ec; apply bind_Ok in E0; destruct E0 as (od1 & Eo & E0).
      + injection E0 as <-; rewrite get_set_same in Hg; injection Hg as <-.
        destruct (Hold _ eq_refl) as [Hclo Havo].
        destruct (merge_os_total nod cod defs) as (od2 & Eo2 & Hav2); auto; [|assert (od2 = od1) by congruence; subst; assumption].
        intros os def vd Hd Hv; split; [apply default_ok_kw; eapply Hdo; eassumption|].
        intros id Hid; eapply Hexp; eauto; discriminate.
      + assert (Hcp : av_ok od1) by (eapply copy_os_av; [exact Hwn|split; [exact Hs1|exact Hs2]|exact Eo]).
        destruct od1; injection E0 as <-; [congruence|].
        rewrite get_set_same in Hg; injection Hg as <-; assumption.
  Qed.

  Lemma shape_od (r : rules_dict R) k od :
    wf_rules r -> any_os_shape r -> get k r = Some od -> od_shape od.
  Proof.
    intros Hw Hs Hg; pose proof (wf_rules_wfv _ _ _ Hw Hg) as [Hwo Hwv]; apply get_In in Hg; split.
    - intros vd Hv; pose proof (Hwv _ _ Hv) as Hwvd; apply get_In in Hv.
      destruct (Hs _ _ _ Hg Hv) as [[id Hid] _]; exists id; apply In_get; assumption.
    - intros vd Hv v id Hid Hin; apply get_In in Hv; apply get_In in Hid.
      destruct (Hs _ _ _ Hg Hv) as [_ Hn]; exfalso.
      revert Hin; apply keyword_In; intros rule; eapply Hn; eassumption.
  Qed.

  Lemma explicit_od defs (r : rules_dict R) k od :
    any_version_explicit defs r -> get k r = Some od -> od_explicit defs od.
  Proof.
    intros He Hg os def vd id Hd Hv Hid; apply keyword_In; intros rule; apply (He k os id rule).
    - eapply In_keys, get_In; eassumption.
    - exists od, vd; repeat split; apply get_In; assumption.
  Qed.

  Lemma merge_rules_total (l : list (rules_dict R)) (lowest : rules_dict R) defs :
    good_config defs ->
    Forall wf_rules (l ++ [lowest]) -> Forall any_os_shape (l ++ [lowest]) ->
    Forall (any_version_explicit defs) l ->
    exists m, merge_rules (l ++ [lowest]) defs = Ok m.
  Proof.
    intros (Hwd & Hnao & Hgd) Hw Hs He.
    assert (Hdefs : good_defs defs) by (intros os def Hg; eapply Hgd, get_In; exact Hg).
    assert (Hdo : defaults_ok defs) by (intros os def Hg; eapply Hgd, get_In; exact Hg).
    assert (Hao : get any_os defs = None) by (apply get_None; exact Hnao).
    cut (exists m, merge_rules (l ++ [lowest]) defs = Ok m /\ av_rules m); [intros (m & E & _); eauto|].
    unfold merge_rules.
    induction l as [|r l IH].
    - simpl in *; inversion Hw; inversion Hs; subst.
      destruct (merge_rules_inner_total defs lowest []) as (m & E & Hav); auto.
      + split; [apply wf_nil|discriminate].
      + intros k od Hg; discriminate.
      + intros k od Hg; eapply shape_od; eassumption.
      + intros k od _ Hh; discriminate.
      + rewrite E; simpl; eauto.
    - simpl in *; inversion Hw; inversion Hs; inversion He; subst.
      destruct IH as (c & E & Hav); auto.
      rewrite foldM_app, E; simpl.
      destruct (merge_rules_spec (l ++ [lowest]) defs c) as (Hc & _); auto.
      destruct (merge_rules_inner_total defs r c) as (m & Em & Havm); auto.
      + intros k od Hg; eapply shape_od; eassumption.
      + intros k od Hg _; eapply explicit_od; eassumption.
      + rewrite Em; simpl; eauto.
  Qed.

End Total.
