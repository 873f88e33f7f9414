(** Exactly when merging rules dicts fails (C07). *)
From Verif Require Import Base Dict RulesDict RulesSpec RulesLookupProofs RulesMergeProofs RulesMergeTotal.

Section LocalErr.
  Context {K V W : Type} `{EqB K}.
  Variable step : dict K W -> K * V -> res (dict K W).
  Variable P : K -> V -> option W -> option W -> Prop.
  Hypothesis step_local : forall c k x c', wf c -> step c (k, x) = Ok c' ->
    wf c' /\ P k x (get k c) (get k c') /\ forall k', k' <> k -> get k' c' = get k' c.

  Lemma foldM_local_err d c e : wf d -> wf c -> foldM step d c = Err e ->
    exists k x c1, In (k, x) d /\ wf c1 /\ get k c1 = get k c /\ step c1 (k, x) = Err e.
  Proof.
    revert c; induction d as [|[k0 x0] d IH]; intros c Hwd Hwc E; [discriminate E|].
    simpl in E; apply bind_Err in E; destruct E as [E|(c1 & E1 & E)].
    - exists k0, x0, c; split; [left; reflexivity|]; auto.
    - destruct (step_local _ _ _ _ Hwc E1) as (Hwc1 & _ & Ho).
      apply wf_cons in Hwd; destruct Hwd as [Hk0 Hwd].
      destruct (IH _ Hwd Hwc1 E) as (k & x & c2 & Hin & Hw2 & Hg & E2).
      exists k, x, c2; split; [right; exact Hin|]; split; [exact Hw2|]; split; [|exact E2].
      rewrite Hg; apply Ho; intros ->; apply get_None in Hk0; apply Hk0; eapply In_keys; eassumption.
  Qed.

  Lemma foldM_local_fails d c k x : wf d -> wf c -> In (k, x) d ->
    (forall c1, wf c1 -> get k c1 = get k c -> exists e, step c1 (k, x) = Err e) ->
    exists e, foldM step d c = Err e.
  Proof.
    revert c; induction d as [|[k0 x0] d IH]; intros c Hwd Hwc Hin Hf; [destruct Hin|].
    simpl; destruct (step c (k0, x0)) as [c1|e] eqn:E1; [|exists e; reflexivity].
    destruct (step_local _ _ _ _ Hwc E1) as (Hwc1 & _ & Ho).
    apply wf_cons in Hwd; destruct Hwd as [Hk0 Hwd].
    destruct Hin as [Eq|Hin].
    - injection Eq as -> ->; destruct (Hf c Hwc eq_refl) as [e Ee]; congruence.
    - apply IH; auto; intros c2 Hw2 Hg; apply Hf; [exact Hw2|]; rewrite Hg; apply Ho; intros ->.
      apply get_None in Hk0; apply Hk0; eapply In_keys; eassumption.
  Qed.
End LocalErr.

Section Exact.
  Context {R : Type}.
  Implicit Types (id nid : installer_dict R) (vd : version_dict R) (od : os_dict R).

  (** The any_version entry of an os. *)
  Definition av od os : option (installer_dict R) :=
    match get os od with Some vd => get any_version vd | None => None end.

  Lemma av_remove od name os : cl_od od -> os <> any_os ->
    av (remove_rule_for_all_os od name) os =
    match av od os with None => None | Some id => match del name id with [] => None | id' => Some id' end end.
  Proof.
    intros [Hw Hc] Hn; unfold av; rewrite (get_remove_os _ _ _ Hw).
    destruct (get os od) as [vd|] eqn:E; [|reflexivity].
    apply eqb_neq in Hn; rewrite Hn.
    assert (Hwv : wf vd) by (eapply Hc; eassumption).
    pose proof (get_remove_versions vd name false any_version Hwv) as G; simpl in G; rewrite <- G.
    destruct (remove_rule_for_all_versions vd name false); reflexivity.
  Qed.

  Lemma del_survives name id : del name id <> [] <-> exists i, In i (keys id) /\ i <> name.
  Proof.
    split.
    - intros H; destruct (del name id) as [|[i r] l] eqn:E; [congruence|].
      assert (Hin : In i (keys (del name id))) by (rewrite E; left; reflexivity).
      apply get_Some_keys in Hin; destruct Hin as [r' Hr]; rewrite get_del in Hr.
      destruct (eqb_spec i name) as [->|Hn]; [discriminate|].
      exists i; split; [apply get_Some_keys; eauto|exact Hn].
    - intros (i & Hi & Hn) E; apply get_Some_keys in Hi; destruct Hi as [r Hr].
      assert (G : get i (del name id) = Some r) by (rewrite get_del; apply eqb_neq in Hn; rewrite Hn; exact Hr).
      rewrite E in G; discriminate.
  Qed.

  Lemma keys_del name id i : In i (keys (del name id)) <-> In i (keys id) /\ i <> name.
  Proof.
    rewrite <- !get_Some_keys; split.
    - intros [r Hr]; rewrite get_del in Hr; destruct (eqb_spec i name) as [->|Hn]; [discriminate|eauto].
    - intros [[r Hr] Hn]; exists r; rewrite get_del; apply eqb_neq in Hn; rewrite Hn; exact Hr.
  Qed.

  (** What survives the removals because of any_os. *)
  Lemma av_fold names : forall od od', cl_od od ->
    foldM (fun c name => let* n := replace_default_installer name None in
                         Ok (remove_rule_for_all_os c n)) names od = Ok od' ->
    forall os, os <> any_os ->
    (av od' os <> None <-> exists id, av od os = Some id /\ (names = [] \/ exists i, In i (keys id) /\ ~ In i names)).
  Proof.
    induction names as [|n names IH]; intros od od' Hc E os Ho.
    - simpl in E; injection E as <-; split.
      + intros H; destruct (av od os) as [id|]; [|congruence]; exists id; auto.
      + intros (id & -> & _); discriminate.
    - simpl in E; destruct (replace_default_installer n None) as [m|e] eqn:Em; [|discriminate]; simpl in E.
      apply replace_Ok in Em; destruct Em as [[Hn ->]|(_ & Hd & _)]; [|discriminate].
      rewrite (IH _ _ (cl_remove_os od n Hc) E os Ho), (av_remove _ _ _ Hc Ho); split.
      + intros (id1 & E1 & Hs); destruct (av od os) as [id|]; [|discriminate].
        destruct (del n id) as [|p l] eqn:Ed; [discriminate|]; injection E1 as <-.
        exists id; split; [reflexivity|]; right; destruct Hs as [->|(i & Hi & Hni)].
        * destruct (proj1 (del_survives n id)) as (i & Hi & Hne); [congruence|].
          exists i; split; [exact Hi|]; intros [D|[]]; congruence.
        * rewrite <- Ed in Hi; apply keys_del in Hi; destruct Hi as [Hi Hne].
          exists i; split; [exact Hi|]; intros [D|D]; [congruence|contradiction].
      + intros (id & -> & [D|(i & Hi & Hni)]); [discriminate|].
        assert (Hne : i <> n) by (intros ->; apply Hni; left; reflexivity).
        assert (Hd : del n id <> []) by (apply del_survives; eauto).
        destruct (del n id) as [|p l] eqn:Ed; [congruence|]; exists (p :: l); split; [reflexivity|].
        right; exists i; split; [rewrite <- Ed; apply keys_del; auto|]; intros D; apply Hni; right; exact D.
  Qed.

  (** ** Version level *)
  Definition vclash (new comb : version_dict R) : Prop :=
    (exists nid, get any_version new = Some nid /\ In default_installer (keys nid)) /\ get any_version comb <> None.

  Lemma merge_version_clash new comb def : cl_vd comb -> def <> Some default_installer -> default_ok def ->
    vclash new comb -> merge_version_dict new comb def = Err ValueError.
  Proof.
    intros Hc Hdef Hok ((nid & En & Hk) & Hcomb); unfold merge_version_dict, merge_any_version; rewrite En.
    destruct (remove_fold_versions_total def (keys nid) comb (fun _ => Hok)) as [c1 E1].
    destruct (remove_fold_versions _ _ _ _ Hc E1) as (_ & Ha & _).
    rewrite E1; cbn [bind]; rewrite Ha; destruct (get any_version comb) as [cid|]; [|congruence].
    assert (E : merge_installer_dict nid cid None = Err ValueError).
    { apply merge_installer_err; split; [reflexivity|]; split; [exact Hk|]; intros (n & D & _); discriminate. }
    rewrite E; reflexivity.
  Qed.

  Lemma merge_version_no_clash new comb def : wf new -> cl_vd comb -> def <> Some default_installer -> default_ok def ->
    ~ vclash new comb -> exists c, merge_version_dict new comb def = Ok c.
  Proof.
    intros Hw Hc Hdef Hok Hn; unfold merge_version_dict.
    assert (T1 : exists c1, merge_any_version new comb def = Ok c1).
    { unfold merge_any_version; destruct (get any_version new) as [nid|] eqn:En; [|eauto].
      destruct (remove_fold_versions_total def (keys nid) comb (fun _ => Hok)) as [c1 E1].
      destruct (remove_fold_versions _ _ _ _ Hc E1) as (_ & Ha & _).
      rewrite E1; simpl; rewrite Ha; destruct (get any_version comb) as [cid|] eqn:Ec.
      - destruct (merge_installer_ok nid cid None) as [d Ed].
        { left; intros Hk; apply Hn; split; [exists nid; auto|congruence]. }
        rewrite Ed; simpl; eauto.
      - rewrite copy_is_merge; destruct (merge_installer_ok nid [] def) as [d Ed]; [right; exact Hok|].
        rewrite Ed; simpl; eauto. }
    destruct T1 as [c1 E1]; rewrite E1; simpl.
    destruct (merge_any_version_spec _ _ _ _ Hdef Hc E1) as (Hc1 & _).
    eapply (foldM_local_total _ (Pmergev def) (merge_version_step_local def)); [exact Hw|apply Hc1|].
    intros k x c2 Hin _ _; unfold merge_version_step; simpl.
    destruct (get k c2) as [cid|].
    - destruct (merge_installer_ok x cid def) as [d Ed]; [right; exact Hok|]; rewrite Ed; simpl; eauto.
    - rewrite copy_is_merge; destruct (merge_installer_ok x [] def) as [d Ed]; [right; exact Hok|]; rewrite Ed; simpl; eauto.
  Qed.

  Lemma vclash_dec new comb : vclash new comb \/ ~ vclash new comb.
  Proof.
    unfold vclash; destruct (get any_version new) as [nid|]; [|right; intros ((? & D & _) & _); discriminate].
    destruct (in_dec (list_eq_dec N.eq_dec) default_installer (keys nid)) as [Hk|Hk];
      [|right; intros ((? & D & H) & _); injection D as <-; contradiction].
    destruct (get any_version comb); [left; split; [eauto|discriminate]|right; intros (_ & D); congruence].
  Qed.

  (** ** Os level *)
  Lemma merge_any_os_av (new comb c : os_dict R) : wfv new -> cl_od comb -> merge_any_os new comb = Ok c ->
    forall os, os <> any_os ->
    (av c os <> None <-> exists cid, av comb os = Some cid /\
       match av new any_os with
       | None => True
       | Some nid => keys nid = [] \/ exists i, In i (keys cid) /\ ~ In i (keys nid)
       end) /\
    (forall vd, get os c = Some vd -> wf vd).
  Proof.
    intros Hwn Hc E os Ho.
    destruct (merge_any_os_spec _ _ _ Hwn Hc E) as (Hcc & _).
    split; [|intros vd Hg; exact (proj1 (proj2 Hcc _ _ Hg))].
    unfold merge_any_os in E; unfold av at 3; destruct (get any_os new) as [nvd|].
    - apply bind_Ok in E; destruct E as (nid & En & E).
      unfold getitem in En; destruct (get any_version nvd) as [nid'|]; [|discriminate]; injection En as <-.
      apply bind_Ok in E; destruct E as (c1 & E1 & E).
      pose proof (av_fold _ _ _ Hc E1 os Ho) as A.
      assert (Eq : get os c = get os c1).
      { destruct (get any_os c1) as [cvd|].
        - apply bind_Ok in E; destruct E as (? & _ & E); apply bind_Ok in E; destruct E as (? & _ & E).
          injection E as <-; apply get_set_other; exact Ho.
        - apply bind_Ok in E; destruct E as (? & _ & E); injection E as <-; apply get_set_other; exact Ho. }
      unfold av at 1; rewrite Eq; exact A.
    - injection E as <-; split.
      + intros H; destruct (av comb os) as [cid|]; [|congruence]; exists cid; auto.
      + intros (cid & -> & _); discriminate.
  Qed.

  (** The clash at os level. *)
  Definition oclash (defs : dict text (option text)) (new comb : os_dict R) : Prop :=
    exists os nid cid, In os (keys defs) /\ av new os = Some nid /\ In default_installer (keys nid) /\
      av comb os = Some cid /\
      match av new any_os with
      | None => True
      | Some aid => keys aid = [] \/ exists i, In i (keys cid) /\ ~ In i (keys aid)
      end.

  Lemma merge_os_exact defs (new comb : os_dict R) :
    good_defs defs -> defaults_ok defs -> get any_os defs = None ->
    wfv new -> cl_od comb -> od_shape new -> av_ok comb ->
    (oclash defs new comb -> merge_os_dict new comb defs = Err ValueError) /\
    (~ oclash defs new comb -> exists c, merge_os_dict new comb defs = Ok c) /\
    (forall c, merge_os_dict new comb defs = Ok c -> av_ok c).
  Proof.
    intros Hdefs Hdo Hao Hwn Hc [Hav Hkw] Hav'.
    destruct (merge_any_os_total new comb Hwn Hc Hav Hav' Hkw) as (c1 & E1 & Hav1).
    destruct (merge_any_os_spec _ _ _ Hwn Hc E1) as (Hc1 & _).
    pose proof (merge_any_os_av _ _ _ Hwn Hc E1) as Hsurv.
    assert (Hnao : forall os, In os (keys defs) -> os <> any_os).
    { intros os Hos ->; apply get_None in Hao; contradiction. }
    assert (Hne : forall e, foldM (merge_os_step defs) new c1 = Err e -> e = ValueError).
    { intros e E; apply (foldM_local_err _ (Pmergeo defs) (merge_os_step_local defs)) in E; [|apply Hwn|apply Hc1].
      destruct E as (k & x & c2 & Hin & Hw2 & Hg & E); unfold merge_os_step in E; simpl in E.
      destruct (get k defs) as [def|] eqn:Ed; [|discriminate].
      apply (In_get _ _ _ (proj1 Hwn)) in Hin; assert (Hwx : wf x) by (eapply (proj2 Hwn); eassumption).
      destruct (get k c2) as [cvd|] eqn:Ec.
      - assert (Hcv : cl_vd cvd) by (eapply (proj2 Hc1); symmetry; exact Hg).
        destruct (vclash_dec x cvd) as [Hv|Hv].
        + rewrite (merge_version_clash x cvd def Hcv (Hdefs _ _ Ed) (Hdo _ _ Ed) Hv) in E; injection E as <-; reflexivity.
        + destruct (merge_version_no_clash x cvd def Hwx Hcv (Hdefs _ _ Ed) (Hdo _ _ Ed) Hv) as [c Eq]; rewrite Eq in E; discriminate.
      - destruct (copy_version_total x def) as [vd Ev]; [apply default_ok_kw; eapply Hdo; eassumption|exact Hwx|].
        rewrite Ev in E; discriminate. }
    split; [|split].
    - intros (os & nid & cid & Hos & En & Hk & Ecid & Hs).
      unfold merge_os_dict; rewrite E1; cbn [bind].
      assert (Hfail : exists e, foldM (merge_os_step defs) new c1 = Err e).
      { unfold av in En; destruct (get os new) as [nvd|] eqn:Eos; [|discriminate].
        apply (foldM_local_fails _ (Pmergeo defs) (merge_os_step_local defs) new c1 os nvd);
          [apply Hwn|apply Hc1|apply get_In; exact Eos|].
        intros c2 Hw2 Hg; apply get_Some_keys in Hos as Hd; destruct Hd as [def Ed].
        unfold merge_os_step; simpl; rewrite Ed, Hg.
        assert (Hsv : av c1 os <> None) by (apply (Hsurv os (Hnao _ Hos)); exists cid; auto).
        unfold av in Hsv; destruct (get os c1) as [cvd|] eqn:Ecv; [|congruence].
        rewrite (merge_version_clash nvd cvd def); [eexists; reflexivity| | | |].
        - eapply (proj2 Hc1); exact Ecv.
        - eapply Hdefs; exact Ed.
        - eapply Hdo; exact Ed.
        - split; [exists nid; auto|exact Hsv]. }
      destruct Hfail as [e Ee]; rewrite Ee; f_equal; exact (Hne _ Ee).
    - intros Hno; unfold merge_os_dict; rewrite E1; cbn [bind].
      apply (foldM_local_total _ (Pmergeo defs) (merge_os_step_local defs)); [apply Hwn|apply Hc1|].
      intros k x c2 Hin Hw2 Hg; unfold merge_os_step; simpl.
      destruct (get k defs) as [def|] eqn:Ed; [|eauto].
      apply (In_get _ _ _ (proj1 Hwn)) in Hin; assert (Hwx : wf x) by (eapply (proj2 Hwn); eassumption).
      destruct (get k c2) as [cvd|] eqn:Ec.
      + assert (Hcv : cl_vd cvd) by (eapply (proj2 Hc1); symmetry; exact Hg).
        destruct (merge_version_no_clash x cvd def Hwx Hcv (Hdefs _ _ Ed) (Hdo _ _ Ed)) as [vd Ev]; [|rewrite Ev; simpl; eauto].
        intros ((nid & En & Hk) & Hcv').
        assert (Hos : In k (keys defs)) by (apply get_Some_keys; eauto).
        assert (Hsv : av c1 k <> None) by (unfold av; rewrite <- Hg; exact Hcv').
        apply (Hsurv k (Hnao _ Hos)) in Hsv; destruct Hsv as (cid & Ecid & Hs).
        apply Hno; exists k, nid, cid; repeat split; auto; unfold av; rewrite Hin; exact En.
      + destruct (copy_version_total x def) as [vd Ev]; [apply default_ok_kw; eapply Hdo; eassumption|exact Hwx|].
        rewrite Ev; simpl; eauto.
    - intros c E; unfold merge_os_dict in E; rewrite E1 in E; cbn [bind] in E.
      destruct (foldM_local _ (Pmergeo defs) (merge_os_step_local defs) new c1 c (proj1 Hwn) (proj1 Hc1) E) as [_ Hs].
      specialize (Hs any_os); unfold Pmergeo in Hs; rewrite Hao in Hs.
      assert (Eq : get any_os c = get any_os c1) by (destruct (get any_os new); assumption).
      intros vd Hg; rewrite Eq in Hg; apply Hav1; assumption.
  Qed.

  Lemma oclash_dec defs (new comb : os_dict R) : oclash defs new comb \/ ~ oclash defs new comb.
  Proof.
    unfold oclash; induction (keys defs) as [|os l IH]; [right; intros (os & _ & _ & [] & _)|].
    destruct IH as [(o & nid & cid & Hin & H)|IH]; [left; exists o, nid, cid; split; [right; exact Hin|exact H]|].
    assert (X : forall Q : Prop, (Q \/ ~ Q) -> (Q -> exists nid cid, av new os = Some nid /\ In default_installer (keys nid) /\
        av comb os = Some cid /\ match av new any_os with None => True
          | Some aid => keys aid = [] \/ exists i, In i (keys cid) /\ ~ In i (keys aid) end) ->
      ((exists nid cid, av new os = Some nid /\ In default_installer (keys nid) /\
        av comb os = Some cid /\ match av new any_os with None => True
          | Some aid => keys aid = [] \/ exists i, In i (keys cid) /\ ~ In i (keys aid) end) -> Q) ->
      (exists os0 nid cid, In os0 (os :: l) /\ av new os0 = Some nid /\ In default_installer (keys nid) /\
        av comb os0 = Some cid /\ match av new any_os with None => True
          | Some aid => keys aid = [] \/ exists i, In i (keys cid) /\ ~ In i (keys aid) end) \/
      ~ (exists os0 nid cid, In os0 (os :: l) /\ av new os0 = Some nid /\ In default_installer (keys nid) /\
        av comb os0 = Some cid /\ match av new any_os with None => True
          | Some aid => keys aid = [] \/ exists i, In i (keys cid) /\ ~ In i (keys aid) end)).
    { intros Q [HQ|HQ] H1 H2.
      - left; destruct (H1 HQ) as (nid & cid & H); exists os, nid, cid; split; [left; reflexivity|exact H].
      - right; intros (o & nid & cid & [<-|Hin] & H); [apply HQ, H2; exists nid, cid; exact H|].
        apply IH; exists o, nid, cid; split; [exact Hin|exact H]. }
    destruct (av new os) as [nid|]; [|apply (X False); [tauto|tauto|intros (? & ? & D & _); discriminate]].
    destruct (in_dec (list_eq_dec N.eq_dec) default_installer (keys nid)) as [Hk|Hk];
      [|apply (X False); [tauto|tauto|intros (? & ? & D & D' & _); injection D as <-; contradiction]].
    destruct (av comb os) as [cid|]; [|apply (X False); [tauto|tauto|intros (? & ? & _ & _ & D & _); discriminate]].
    destruct (av new any_os) as [aid|]; [|apply (X True); [tauto|intros _; exists nid, cid; auto|tauto]].
    assert (D : (exists i, In i (keys cid) /\ ~ In i (keys aid)) \/ ~ exists i, In i (keys cid) /\ ~ In i (keys aid)).
    { clear X; induction (keys cid) as [|i ks IHk]; [right; intros (? & [] & _)|].
      destruct (in_dec (list_eq_dec N.eq_dec) i (keys aid)) as [Hi|Hi]; [|left; exists i; split; [left; reflexivity|exact Hi]].
      destruct IHk as [(j & Hj & Hnj)|IHk]; [left; exists j; split; [right; exact Hj|exact Hnj]|].
      right; intros (j & [<-|Hj] & Hnj); [contradiction|apply IHk; eauto]. }
    apply (X (keys aid = [] \/ exists i, In i (keys cid) /\ ~ In i (keys aid))).
    - destruct (keys aid) eqn:Ek; [left; left; reflexivity|].
      destruct D as [D|D]; [left; right; exact D|right; intros [D'|D']; [discriminate|contradiction]].
    - intros H; exists nid, cid; auto.
    - intros (? & cid' & _ & _ & Ec & H); injection Ec as <-; exact H.
  Qed.

  (** ** Rules level *)
  Definition rclash (defs : dict text (option text)) (r c : rules_dict R) : Prop :=
    exists key od cod, get key r = Some od /\ get key c = Some cod /\ oclash defs od cod.

  Lemma merge_step_exact defs c k x :
    good_defs defs -> defaults_ok defs -> get any_os defs = None -> wfv x -> od_shape x ->
    (forall od, get k c = Some od -> cl_od od /\ av_ok od) ->
    ((exists cod, get k c = Some cod /\ oclash defs x cod) -> merge_rules_step defs c (k, x) = Err ValueError) /\
    ((~ exists cod, get k c = Some cod /\ oclash defs x cod) -> exists c', merge_rules_step defs c (k, x) = Ok c') /\
    (forall c' od, merge_rules_step defs c (k, x) = Ok c' -> get k c' = Some od -> av_ok od).
  Proof.
    intros Hdefs Hdo Hao Hwx Hsx Hold; unfold merge_rules_step; cbn [fst snd].
    destruct (get k c) as [cod|] eqn:Ec.
    - destruct (Hold cod eq_refl) as [Hcl Hav].
      destruct (merge_os_exact defs x cod Hdefs Hdo Hao Hwx Hcl Hsx Hav) as (H1 & H2 & H3).
      split; [|split].
      + intros (cod' & Eq & Hcl'); injection Eq as <-; rewrite (H1 Hcl'); reflexivity.
      + intros Hno; destruct H2 as [c' E]; [intros Hcl'; apply Hno; eauto|]; rewrite E; simpl; eauto.
      + intros c' od E Hg; apply bind_Ok in E; destruct E as (od1 & E1 & E); injection E as <-.
        rewrite get_set_same in Hg; injection Hg as <-; apply H3; exact E1.
    - destruct (copy_os_total x defs Hwx (proj2 Hsx)) as [od0 Eo].
      { intros os def vd _ Hd _; apply default_ok_kw; eapply Hdo; eassumption. }
      pose proof (copy_os_av x od0 defs Hwx Hsx Eo) as Hcp.
      split; [|split].
      + intros (cod & D & _); discriminate.
      + intros _; rewrite Eo; simpl; destruct od0; eauto.
      + intros c' od E Hg; rewrite Eo in E; simpl in E; destruct od0; injection E as <-; [congruence|].
        rewrite get_set_same in Hg; injection Hg as <-; exact Hcp.
  Qed.

  Lemma merge_inner_exact defs (r c : rules_dict R) :
    good_defs defs -> defaults_ok defs -> get any_os defs = None ->
    wf_rules r -> any_os_shape r -> cl_rules c -> av_rules c ->
    (rclash defs r c -> foldM (merge_rules_step defs) r c = Err ValueError) /\
    (~ rclash defs r c -> exists c', foldM (merge_rules_step defs) r c = Ok c') /\
    (forall c', foldM (merge_rules_step defs) r c = Ok c' -> av_rules c').
  Proof.
    intros Hdefs Hdo Hao Hwr Hsh Hc Hav.
    assert (Hod : forall k x, In (k, x) r -> wfv x /\ od_shape x /\ get k r = Some x).
    { intros k x Hin; apply (In_get _ _ _ (proj1 Hwr)) in Hin.
      split; [eapply wf_rules_wfv; eassumption|]; split; [eapply shape_od; eassumption|exact Hin]. }
    assert (Hold : forall k c2, get k c2 = get k c -> forall od, get k c2 = Some od -> cl_od od /\ av_ok od).
    { intros k c2 Hg od E; rewrite Hg in E; split; [eapply (proj2 Hc); exact E|eapply Hav; exact E]. }
    pose proof (fun c0 k x c' => merge_rules_step_local (R := R) defs c0 k x c' Hdefs) as Hloc.
    split; [|split].
    - intros (key & od & cod & Er & Ec & Hcl).
      assert (F : exists e, foldM (merge_rules_step defs) r c = Err e).
      { destruct (Hod key od (get_In _ _ _ Er)) as (Hwx & Hsx & _).
        apply (foldM_local_fails _ (Pmerger defs) Hloc r c key od); [apply Hwr|apply Hc|apply get_In; exact Er|].
        intros c1 Hw1 Hg; exists ValueError.
        apply (merge_step_exact defs c1 key od Hdefs Hdo Hao Hwx Hsx (Hold _ _ Hg)); exists cod; rewrite Hg; auto. }
      destruct F as [e E]; rewrite E; f_equal.
      apply (foldM_local_err _ (Pmerger defs) Hloc) in E; [|apply Hwr|apply Hc].
      destruct E as (k & x & c2 & Hin & Hw2 & Hg & E); destruct (Hod k x Hin) as (Hwx & Hsx & _).
      destruct (merge_step_exact defs c2 k x Hdefs Hdo Hao Hwx Hsx (Hold _ _ Hg)) as (H1 & H2 & _).
      destruct (get k c2) as [cod2|] eqn:Ec2.
      + destruct (oclash_dec defs x cod2) as [Ho|Ho].
        * rewrite H1 in E by eauto; injection E as <-; reflexivity.
        * destruct H2 as [c' E']; [intros (cod' & Eq & Hcl'); injection Eq as <-; contradiction|congruence].
      + destruct H2 as [c' E']; [intros (cod' & Eq & _); discriminate|congruence].
    - intros Hno; apply (foldM_local_total _ (Pmerger defs) Hloc); [apply Hwr|apply Hc|].
      intros k x c1 Hin Hw1 Hg; destruct (Hod k x Hin) as (Hwx & Hsx & Er).
      apply (merge_step_exact defs c1 k x Hdefs Hdo Hao Hwx Hsx (Hold _ _ Hg)).
      intros (cod & Ec & Hcl); apply Hno; exists k, x, cod; rewrite <- Hg; auto.
    - intros c' E.
      apply (foldM_local' (fun k nod o o' => wfv nod -> od_shape nod ->
               (forall od, o = Some od -> cl_od od /\ av_ok od) ->
               forall od, o' = Some od -> av_ok od)) in E; [|apply Hwr|apply Hc|].
      + destruct E as [_ Hs]; intros k od Hg; specialize (Hs k).
        destruct (get k r) as [nod|] eqn:Er; [|rewrite Hs in Hg; eapply Hav; eassumption].
        destruct (Hod k nod (get_In _ _ _ Er)) as (Hwx & Hsx & _).
        apply (Hs Hwx Hsx); [|exact Hg]; intros od' Ho; split; [eapply (proj2 Hc); eassumption|eapply Hav; eassumption].
      + intros c0 k nod c1 Hw0 E0; destruct (Hloc c0 k nod c1 Hw0 E0) as (Hw1 & _ & Ho).
        split; [assumption|split; [|assumption]].
        intros Hwn Hsn Hold' od Hg.
        exact (proj2 (proj2 (merge_step_exact defs c0 k nod Hdefs Hdo Hao Hwn Hsn Hold')) c1 od E0 Hg).
  Qed.

  Lemma rclash_dec defs (r c : rules_dict R) : wf r -> rclash defs r c \/ ~ rclash defs r c.
  Proof.
    unfold rclash; induction r as [|[k x] r IH]; intros Hw; [right; intros (k & od & cod & D & _); discriminate|].
    apply wf_cons in Hw; destruct Hw as [Hk Hw].
    destruct (IH Hw) as [(key & od & cod & Eg & H)|Hn].
    { left; exists key, od, cod; split; [|exact H]; rewrite get_cons; destruct (eqb_spec key k) as [->|_]; congruence. }
    destruct (get k c) as [cod|] eqn:Ec.
    - destruct (oclash_dec defs x cod) as [Ho|Ho].
      + left; exists k, x, cod; rewrite get_cons, eqb_refl; auto.
      + right; intros (key & od & cod' & Eg & Ec' & Hcl); rewrite get_cons in Eg.
        destruct (eqb_spec key k) as [->|_].
        * injection Eg as <-; rewrite Ec in Ec'; injection Ec' as <-; contradiction.
        * apply Hn; exists key, od, cod'; auto.
    - right; intros (key & od & cod' & Eg & Ec' & Hcl); rewrite get_cons in Eg.
      destruct (eqb_spec key k) as [->|_]; [congruence|apply Hn; exists key, od, cod'; auto].
  Qed.

  Lemma merge_rules_cons (r : rules_dict R) l defs :
    merge_rules (r :: l) defs = let* c := merge_rules l defs in foldM (merge_rules_step defs) r c.
  Proof.
    unfold merge_rules; simpl; rewrite foldM_app.
    destruct (foldM _ (rev l) []) as [c|e]; [|reflexivity]; simpl.
    destruct (foldM (merge_rules_step defs) r c); reflexivity.
  Qed.

  Lemma merge_rules_av l defs : good_config defs -> Forall wf_rules l -> Forall any_os_shape l ->
    forall m : rules_dict R, merge_rules l defs = Ok m -> cl_rules m /\ av_rules m.
  Proof.
    intros (Hwd & Hnao & Hgd).
    assert (Hdefs : good_defs defs) by (intros os def Hg; eapply Hgd, get_In; exact Hg).
    assert (Hdo : defaults_ok defs) by (intros os def Hg; eapply Hgd, get_In; exact Hg).
    assert (Hao : get any_os defs = None) by (apply get_None; exact Hnao).
    induction l as [|r l IH]; intros Hw Hs m E.
    - unfold merge_rules in E; simpl in E; injection E as <-; split; [split; [apply wf_nil|discriminate]|intros k od D; discriminate].
    - inversion Hw; inversion Hs; subst.
      assert (Hm : cl_rules m) by (destruct (merge_rules_spec (r :: l) defs m) as (Hc & _); auto).
      split; [exact Hm|].
      rewrite merge_rules_cons in E; apply bind_Ok in E; destruct E as (c & Ec & E).
      destruct (IH ltac:(assumption) ltac:(assumption) c Ec) as [Hcl Hav].
      exact (proj2 (proj2 (merge_inner_exact defs r c Hdefs Hdo Hao ltac:(assumption) ltac:(assumption) Hcl Hav)) m E).
  Qed.

  Lemma merge_rules_exact (l : list (rules_dict R)) defs e :
    good_config defs -> Forall wf_rules l -> Forall any_os_shape l ->
    (merge_rules l defs = Err e <->
     e = ValueError /\ exists above r below c, l = above ++ r :: below /\ merge_rules below defs = Ok c /\ rclash defs r c).
  Proof.
    intros Hg; pose proof Hg as (Hwd & Hnao & Hgd).
    assert (Hdefs : good_defs defs) by (intros os def H; eapply Hgd, get_In; exact H).
    assert (Hdo : defaults_ok defs) by (intros os def H; eapply Hgd, get_In; exact H).
    assert (Hao : get any_os defs = None) by (apply get_None; exact Hnao).
    induction l as [|r l IH]; intros Hw Hs.
    - split; [discriminate|]; intros (_ & above & r & below & c & E & _); destruct above; discriminate.
    - inversion Hw as [|? ? Hwr Hwl]; inversion Hs as [|? ? Hsr Hsl]; subst.
      specialize (IH Hwl Hsl); rewrite merge_rules_cons.
      destruct (merge_rules l defs) as [c|e'] eqn:Em; cbn [bind].
      + destruct (merge_rules_av l defs Hg Hwl Hsl c Em) as [Hcl Hav].
        destruct (merge_inner_exact defs r c Hdefs Hdo Hao Hwr Hsr Hcl Hav) as (H1 & H2 & _); split.
        * intros E; destruct (rclash_dec defs r c (proj1 Hwr)) as [Hc|Hc].
          -- rewrite (H1 Hc) in E; injection E as <-; split; [reflexivity|].
             exists [], r, l, c; auto.
          -- destruct (H2 Hc) as [c' E']; congruence.
        * intros (-> & above & r' & below & c' & El & Eb & Hc); destruct above as [|a above]; cbn [app] in El.
          -- injection El as <- <-; assert (c' = c) by congruence; subst; apply H1; exact Hc.
          -- injection El as <- El; assert (D : Ok c = Err ValueError) by (apply IH; split; [reflexivity|]; exists above, r', below, c'; auto).
             discriminate.
      + split.
        * intros E; apply IH in E; destruct E as (-> & above & r' & below & c' & -> & Eb & Hc).
          split; [reflexivity|]; exists (r :: above), r', below, c'; auto.
        * intros (-> & above & r' & below & c' & El & Eb & Hc); apply IH; split; [reflexivity|].
          destruct above as [|a above]; cbn [app] in El; injection El as <- ->; [congruence|exists above, r', below, c'; auto].
  Qed.

  (** ** In terms of entries *)
  Lemma entry_av (r : rules_dict R) key os id : wf_rules r ->
    entry r key os any_version id <-> exists od, get key r = Some od /\ av od os = Some id.
  Proof.
    intros [Hw Hk]; unfold av; split.
    - intros (od & vd & H1 & H2 & H3); destruct (Hk _ _ H1) as [Hwo Ho]; destruct (Ho _ _ H2) as [Hwv _].
      exists od; split; [apply In_get; assumption|]; rewrite (In_get _ _ _ Hwo H2); apply In_get; assumption.
    - intros (od & H1 & H2); destruct (get os od) as [vd|] eqn:E; [|discriminate].
      exists od, vd; repeat split; apply get_In; assumption.
  Qed.

  Lemma cl_rules_wf (r : rules_dict R) : cl_rules r -> wf_rules r.
  Proof.
    intros [Hw Hc]; split; [exact Hw|]; intros k od Hin; apply (In_get _ _ _ Hw) in Hin; apply Hc in Hin.
    destruct Hin as [Hwo Ho]; split; [exact Hwo|]; intros os vd Hin; apply (In_get _ _ _ Hwo) in Hin; apply Ho in Hin.
    destruct Hin as [Hwv Hv]; split; [exact Hwv|]; intros v id Hin; apply (In_get _ _ _ Hwv) in Hin; apply Hv in Hin.
    apply Hin.
  Qed.

  Lemma clash_rclash defs (r c : rules_dict R) : wf_rules r -> cl_rules c -> clash defs r c <-> rclash defs r c.
  Proof.
    intros Hr Hc; pose proof (cl_rules_wf c Hc) as Hwc; split.
    - intros (key & os & cid & Hos & (nid & rule & Hn & Hk) & He & Hs).
      apply (entry_av _ _ _ _ Hr) in Hn; destruct Hn as (od & Er & En).
      apply (entry_av _ _ _ _ Hwc) in He; destruct He as (cod & Ec & Ecid).
      exists key, od, cod; split; [exact Er|]; split; [exact Ec|].
      exists os, nid, cid; split; [exact Hos|]; split; [exact En|]; split; [eapply In_keys; exact Hk|].
      split; [exact Ecid|].
      destruct (av od any_os) as [aid|] eqn:Ea; [|exact I].
      assert (Ha : entry r key any_os any_version aid) by (apply (entry_av _ _ _ _ Hr); eauto).
      destruct Hs as [Hs|(i & rule' & Hi & Hs)].
      + left; destruct aid as [|[i rule'] aid]; [reflexivity|]; destruct (Hs _ i rule' Ha); left; reflexivity.
      + right; exists i; split; [eapply In_keys; exact Hi|]; intros Hin.
        unfold keys in Hin; apply in_map_iff in Hin; destruct Hin as ([j rj] & Ej & Hin); cbn [fst] in Ej; subst j.
        exact (Hs _ _ Ha Hin).
    - intros (key & od & cod & Er & Ec & os & nid & cid & Hos & En & Hk & Ecid & Hs).
      assert (Hun : forall id, entry r key any_os any_version id -> av od any_os = Some id).
      { intros id He; apply (entry_av _ _ _ _ Hr) in He; destruct He as (od' & Er' & E); congruence. }
      unfold keys in Hk; apply in_map_iff in Hk; destruct Hk as ([j rj] & Ej & Hk); cbn [fst] in Ej; subst j.
      exists key, os, cid; split; [exact Hos|]; split; [|split].
      + exists nid, rj; split; [apply (entry_av _ _ _ _ Hr); eauto|exact Hk].
      + apply (entry_av _ _ _ _ Hwc); eauto.
      + destruct (av od any_os) as [aid|].
        * destruct Hs as [Hs|(i & Hi & Hni)].
          -- left; intros id i rule He; injection (Hun _ He) as <-; destruct aid; [intros []|discriminate].
          -- right; unfold keys in Hi; apply in_map_iff in Hi; destruct Hi as ([j ri] & Ej & Hi); cbn [fst] in Ej; subst j.
             exists i, ri; split; [exact Hi|]; intros id rule' He; injection (Hun _ He) as <-; intros D; apply Hni; eapply In_keys; exact D.
        * left; intros id i rule He; discriminate (Hun _ He).
  Qed.

  Lemma merge_fails_exactly (l : list (rules_dict R)) defs e :
    good_config defs -> Forall wf_rules l -> Forall any_os_shape l ->
    (merge_rules l defs = Err e <->
     e = ValueError /\ exists above r below m, l = above ++ r :: below /\ merge_rules below defs = Ok m /\ clash defs r m).
  Proof.
    intros Hg Hw Hs; rewrite (merge_rules_exact l defs e Hg Hw Hs).
    assert (Heq : forall above r below m, l = above ++ r :: below -> merge_rules below defs = Ok m ->
      (clash defs r m <-> rclash defs r m)).
    { intros above r below m -> Em; apply Forall_app in Hw; apply Forall_app in Hs.
      destruct Hw as [_ Hw], Hs as [_ Hs]; inversion Hw; inversion Hs; subst.
      apply clash_rclash; [assumption|]; eapply merge_rules_av; eassumption. }
    split; (intros (E & above & r & below & m & El & Em & Hc); split; [exact E|]; exists above, r, below, m;
      split; [exact El|]; split; [exact Em|]; eapply Heq; eassumption).
  Qed.
End Exact.
