(** Proofs about merging rules dicts (C05-C07). *)
From Verif Require Import Base Dict RulesDict RulesSpec RulesLookupProofs.

(** Loops over the items of a dict whose body only touches the item's key. *)
Section LocalLoop.
  Context {K V W : Type} `{EqB K}.
  Variable step : dict K W -> K * V -> res (dict K W).
  Variable P : K -> V -> option W -> option W -> Prop.
  Hypothesis step_local : forall c k x c', wf c -> step c (k, x) = Ok c' ->
    wf c' /\ P k x (get k c) (get k c') /\ forall k', k' <> k -> get k' c' = get k' c.

  Lemma foldM_local d c c' :
    wf d -> wf c -> foldM step d c = Ok c' ->
    wf c' /\ forall k, match get k d with
                       | Some x => P k x (get k c) (get k c')
                       | None => get k c' = get k c
                       end.
  Proof.
    revert c; induction d as [|[k0 x0] d IH]; intros c Hwd Hwc E.
    - simpl in E; injection E as <-; split; [assumption|intros k; reflexivity].
    - simpl in E; apply bind_Ok in E; destruct E as (c1 & E1 & E).
      destruct (step_local _ _ _ _ Hwc E1) as (Hwc1 & HP & Ho).
      apply wf_cons in Hwd; destruct Hwd as [Hk0 Hwd].
      destruct (IH _ Hwd Hwc1 E) as [Hwc' Hrest]; split; [assumption|].
      intros k; rewrite get_cons; destruct (eqb_spec k k0) as [->|Hn].
      + specialize (Hrest k0); rewrite Hk0 in Hrest; rewrite Hrest; exact HP.
      + specialize (Hrest k); rewrite (Ho k Hn) in Hrest; exact Hrest.
  Qed.

  Lemma foldM_local_total d c :
    wf d -> wf c ->
    (forall k x c1, In (k, x) d -> wf c1 -> get k c1 = get k c -> exists c2, step c1 (k, x) = Ok c2) ->
    exists c', foldM step d c = Ok c'.
  Proof.
    revert c; induction d as [|[k0 x0] d IH]; intros c Hwd Hwc Htot; simpl; [eauto|].
    destruct (Htot k0 x0 c (or_introl eq_refl) Hwc eq_refl) as [c1 E1]; rewrite E1; simpl.
    destruct (step_local _ _ _ _ Hwc E1) as (Hwc1 & HP & Ho).
    apply wf_cons in Hwd; destruct Hwd as [Hk0 Hwd].
    apply IH; auto; intros k x c2 Hin Hw2 Hg.
    apply Htot; [right; assumption|assumption|].
    rewrite Hg; apply Ho; intros ->.
    apply get_None in Hk0; apply Hk0; eapply In_keys; eassumption.
  Qed.
End LocalLoop.

Lemma foldM_local' {K V W} `{EqB K} (P : K -> V -> option W -> option W -> Prop)
  (step : dict K W -> K * V -> res (dict K W)) d c c' :
  foldM step d c = Ok c' -> wf d -> wf c ->
  (forall c k x c', wf c -> step c (k, x) = Ok c' ->
    wf c' /\ P k x (get k c) (get k c') /\ forall k', k' <> k -> get k' c' = get k' c) ->
  wf c' /\ forall k, match get k d with
                     | Some x => P k x (get k c) (get k c')
                     | None => get k c' = get k c
                     end.
Proof. intros E Hd Hc Hl; exact (foldM_local step P Hl d c c' Hd Hc E). Qed.

Section Merge.
  Context {R : Type}.
  Implicit Types (id nid : installer_dict R) (vd : version_dict R) (od : os_dict R) (def : option text).

  (** Plain lookups in already merged dicts (no keyword left). *)
  Definition vget vd v i := get i (getd v vd).
  Definition vlook def vd v i := orelse (offer def (getd v vd) i) (offer def (getd any_version vd) i).
  Definition vlookc vd v i := orelse (vget vd v i) (vget vd any_version i).
  Definition olook def od os v i :=
    orelse (vlook def (getd os od) v i) (offer def (getd any_version (getd any_os od)) i).
  Definition olookc od os v i :=
    orelse (vlookc (getd os od) v i) (vget (getd any_os od) any_version i).

  (** The keyword is only used where a default installer is known. *)
  Definition kw_ok def vd := forall v id, get v vd = Some id -> In default_installer (keys id) -> default_ok def.

  Definition cl_id id := wf id /\ ~ In default_installer (keys id).
  Definition cl_vd vd := wf vd /\ forall v id, get v vd = Some id -> cl_id id.
  Definition cl_od od := wf od /\ forall os vd, get os od = Some vd -> cl_vd vd.

  Lemma getd_unfold {V} (k : text) (d : dict text (list V)) :
    getd k d = match get k d with Some x => x | None => [] end.
  Proof. reflexivity. Qed.

  Lemma cl_vd_getd v vd : cl_vd vd -> cl_id (getd v vd).
  Proof.
    intros [_ Hc]; unfold getd; destruct (get v vd) as [id|] eqn:E; [eauto|].
    split; [apply wf_nil|intros []].
  Qed.

  Lemma cl_od_getd os od : cl_od od -> cl_vd (getd os od).
  Proof.
    intros [_ Hc]; unfold getd; destruct (get os od) as [vd|] eqn:E; [eauto|].
    split; [apply wf_nil|discriminate].
  Qed.

  Lemma offer_clean def id i : cl_id id -> offer def id i = get i id.
  Proof.
    intros [Hw Hk]; induction id as [|[n r] id IH]; simpl; [reflexivity|].
    apply wf_cons in Hw; destruct Hw as [Hn Hw].
    simpl in Hk; rewrite IH; [|assumption|tauto].
    rewrite get_cons.
    assert (E : replace_default_installer n def = Ok n) by (apply replace_Ok; left; split; [intros ->; tauto|reflexivity]).
    rewrite E; destruct (eqb_spec i n) as [->|Hne]; [rewrite Hn; reflexivity|apply orelse_None_r].
  Qed.

  Lemma offer_no_keyword def def' id i :
    ~ In default_installer (keys id) -> offer def id i = offer def' id i.
  Proof.
    intros Hk; induction id as [|[n r] id IH]; simpl; [reflexivity|].
    simpl in Hk; rewrite IH; [|tauto].
    assert (E : forall x, replace_default_installer n x = Ok n) by (intros x; apply replace_Ok; left; split; [intros ->; tauto|reflexivity]).
    rewrite !E; reflexivity.
  Qed.

  Lemma merge_None_no_keyword nid c d :
    merge_installer_dict nid c None = Ok d -> ~ In default_installer (keys nid).
  Proof.
    intros E Hin.
    assert (F : merge_installer_dict nid c None = Err ValueError).
    { apply merge_installer_err; repeat split; auto; intros (n & Hn & _); discriminate. }
    congruence.
  Qed.

  Lemma merge_Ok_kw nid c def d :
    merge_installer_dict nid c def = Ok d -> In default_installer (keys nid) -> default_ok def.
  Proof.
    intros E Hin; destruct def as [[|ch n]|]; [| |].
    - exfalso; assert (F : merge_installer_dict nid c (Some []) = Err ValueError);
        [apply merge_installer_err; repeat split; auto; intros (m & Hm & Hne); congruence|congruence].
    - exists (ch :: n); split; congruence.
    - exfalso; eapply merge_None_no_keyword; eassumption.
  Qed.

  Lemma merge_clean nid c def d :
    def <> Some default_installer ->
    cl_id c -> merge_installer_dict nid c def = Ok d -> cl_id d.
  Proof.
    intros Hdef [Hw Hk] E; split; [eapply merge_installer_wf; eassumption|].
    intros Hin; apply get_Some_keys in Hin; destruct Hin as [r Hr].
    rewrite (merge_installer_get _ _ _ _ _ E) in Hr.
    apply get_None in Hk; rewrite Hk, orelse_None_r in Hr.
    apply offer_names in Hr; destruct Hr as [[Hn _]|(_ & Hd & _)]; congruence.
  Qed.

  Lemma copy_is_merge id def : copy_installer_dict id def = merge_installer_dict id [] def.
  Proof. reflexivity. Qed.

  Lemma cl_nil : cl_id ([] : installer_dict R).
  Proof. split; [apply wf_nil|intros []]. Qed.

  (** ** Version level *)
  Definition Pcopyv def (v : text) id (_ : option (installer_dict R)) (o : option (installer_dict R)) : Prop :=
    exists id', o = Some id' /\ merge_installer_dict id [] def = Ok id'.

  Lemma copy_version_spec vd def vd' :
    wf vd -> copy_version_dict vd def = Ok vd' ->
    wf vd' /\ forall v, match get v vd with
                        | Some id => exists id', get v vd' = Some id' /\ merge_installer_dict id [] def = Ok id'
                        | None => get v vd' = None
                        end.
  Proof.
    intros Hw E; unfold copy_version_dict in E.
    apply (foldM_local' (Pcopyv def)) in E; [exact E|exact Hw|apply wf_nil|].
    intros c k x c' Hc Ec; simpl in Ec; apply bind_Ok in Ec; destruct Ec as (id & Eid & Ec).
    injection Ec as <-; split; [apply wf_set; assumption|split].
    - exists id; rewrite get_set_same; auto.
    - intros k' Hk; apply get_set_other; assumption.
  Qed.

  Lemma copy_version_vget vd def vd' v i :
    wf vd -> copy_version_dict vd def = Ok vd' -> vget vd' v i = offer def (getd v vd) i.
  Proof.
    intros Hw E; destruct (copy_version_spec _ _ _ Hw E) as [_ Hs]; specialize (Hs v).
    unfold vget, getd; destruct (get v vd) as [id|].
    - destruct Hs as (id' & -> & Em); rewrite (merge_installer_get _ _ _ _ i Em), get_nil, orelse_None_r; reflexivity.
    - rewrite Hs; reflexivity.
  Qed.

  Lemma copy_version_kw vd def vd' : wf vd -> copy_version_dict vd def = Ok vd' -> kw_ok def vd.
  Proof.
    intros Hw E v id Hg Hin; destruct (copy_version_spec _ _ _ Hw E) as [_ Hs]; specialize (Hs v).
    rewrite Hg in Hs; destruct Hs as (id' & _ & Em); eapply merge_Ok_kw; eassumption.
  Qed.

  Lemma copy_version_clean vd def vd' :
    def <> Some default_installer -> wf vd -> copy_version_dict vd def = Ok vd' -> cl_vd vd'.
  Proof.
    intros Hdef Hw E; destruct (copy_version_spec _ _ _ Hw E) as [Hw' Hs]; split; [assumption|].
    intros v id Hg; specialize (Hs v); destruct (get v vd) as [id0|]; [|congruence].
    destruct Hs as (id' & Hg' & Em); assert (id' = id) by congruence; subst.
    eapply merge_clean; [eassumption|apply cl_nil|eassumption].
  Qed.

  Lemma get_remove_versions vd name retain v :
    wf vd ->
    get v (remove_rule_for_all_versions vd name retain) =
    match get v vd with
    | None => None
    | Some id => if retain && eqb v any_version then Some id
                 else match del name id with [] => None | id' => Some id' end
    end.
  Proof.
    induction vd as [|[v0 id0] vd IH]; intros Hw; [reflexivity|].
    apply wf_cons in Hw; destruct Hw as [Hv0 Hw]; specialize (IH Hw).
    simpl; rewrite get_cons.
    assert (Ed : (if has name id0 then del name id0 else id0) = del name id0).
    { destruct (has name id0) eqn:Eh; [reflexivity|]; symmetry.
      apply has_false, get_None in Eh; clear -Eh; unfold del.
      induction id0 as [|[n r] id0 IHi]; simpl in *; [reflexivity|].
      destruct (eqb_spec name n) as [->|Hn]; [tauto|simpl; rewrite IHi; tauto]. }
    rewrite Ed.
    destruct (eqb_spec v v0) as [->|Hn].
    - destruct (retain && eqb v0 any_version); [rewrite get_cons, eqb_refl; reflexivity|].
      destruct (del name id0) as [|p l]; [rewrite IH, Hv0; reflexivity|].
      rewrite get_cons, eqb_refl; reflexivity.
    - assert (Hn' : eqb v v0 = false) by (apply eqb_neq; assumption).
      destruct (retain && eqb v0 any_version); [rewrite get_cons, Hn'; exact IH|].
      destruct (del name id0) as [|p l]; [exact IH|rewrite get_cons, Hn'; exact IH].
  Qed.

  Lemma keys_remove_versions vd name retain v :
    In v (keys (remove_rule_for_all_versions vd name retain)) -> In v (keys vd).
  Proof.
    induction vd as [|[v0 id0] vd IH]; simpl; [tauto|].
    destruct (retain && eqb v0 any_version); simpl; [intros [E|E]; auto|].
    destruct (if has name id0 then del name id0 else id0); simpl; [auto|intros [E|E]; auto].
  Qed.

  Lemma wf_remove_versions vd name retain : wf vd -> wf (remove_rule_for_all_versions vd name retain).
  Proof.
    induction vd as [|[v0 id0] vd IH]; intros Hw; [exact Hw|].
    apply wf_cons in Hw; destruct Hw as [Hv0 Hw]; specialize (IH Hw); simpl.
    assert (Hg : get v0 (remove_rule_for_all_versions vd name retain) = None).
    { apply get_None; intros Hin; apply keys_remove_versions in Hin.
      apply get_None in Hv0; tauto. }
    destruct (retain && eqb v0 any_version); [apply wf_cons; auto|].
    destruct (if has name id0 then del name id0 else id0); [assumption|apply wf_cons; auto].
  Qed.

  Lemma vget_remove_versions vd name retain v i :
    wf vd ->
    vget (remove_rule_for_all_versions vd name retain) v i =
    if retain && eqb v any_version then vget vd v i
    else if eqb i name then None else vget vd v i.
  Proof.
    intros Hw; unfold vget, getd; rewrite (get_remove_versions _ _ _ _ Hw).
    destruct (get v vd) as [id|]; [|destruct (retain && _), (eqb i name); reflexivity].
    destruct (retain && eqb v any_version); [reflexivity|].
    rewrite <- (get_del i name id); destruct (del name id); reflexivity.
  Qed.

  Lemma cl_del name id : cl_id id -> cl_id (del name id).
  Proof.
    intros [Hw Hk]; split; [apply wf_del; assumption|].
    intros Hin; apply Hk; apply get_Some_keys in Hin; destruct Hin as [r Hr].
    rewrite get_del in Hr; destruct (eqb default_installer name); [discriminate|].
    apply get_Some_keys; eauto.
  Qed.

  Lemma cl_remove_versions vd name retain : cl_vd vd -> cl_vd (remove_rule_for_all_versions vd name retain).
  Proof.
    intros [Hw Hc]; split; [apply wf_remove_versions; assumption|].
    intros v id Hg; rewrite (get_remove_versions _ _ _ _ Hw) in Hg.
    destruct (get v vd) as [id0|] eqn:E0; [|discriminate].
    specialize (Hc _ _ E0); destruct (retain && _); [congruence|].
    pose proof (cl_del name id0 Hc) as Hd; destruct (del name id0); congruence.
  Qed.

  (** Removing the rules for all (replaced) names of [nid]. *)
  Lemma remove_fold_versions def nid vd vd' :
    cl_vd vd ->
    foldM (fun c name => let* n := replace_default_installer name def in
                         Ok (remove_rule_for_all_versions c n true)) (keys nid) vd = Ok vd' ->
    cl_vd vd' /\ get any_version vd' = get any_version vd /\
    forall v i, v <> any_version ->
      vget vd' v i = match offer def nid i with Some _ => None | None => vget vd v i end.
  Proof.
    revert vd; induction nid as [|[n r] nid IH]; intros vd Hc E.
    - simpl in E; injection E as <-; simpl; auto.
    - simpl in E; destruct (replace_default_installer n def) as [m|e] eqn:Em; [|discriminate].
      simpl in E; destruct (IH _ (cl_remove_versions vd m true Hc) E) as (Hc' & Ha & Hv).
      split; [assumption|split].
      + rewrite Ha, get_remove_versions by apply Hc; rewrite eqb_refl; simpl.
        destruct (get any_version vd); reflexivity.
      + intros v i Hne; rewrite (Hv v i Hne), vget_remove_versions by apply Hc.
        apply eqb_neq in Hne; rewrite Hne; simpl; rewrite Em.
        destruct (offer def nid i); simpl; [reflexivity|].
        destruct (eqb i m); reflexivity.
  Qed.

  Lemma merge_any_version_spec new comb def c :
    def <> Some default_installer ->
    cl_vd comb -> merge_any_version new comb def = Ok c ->
    cl_vd c /\
    (forall i, vget c any_version i = orelse (offer def (getd any_version new) i) (vget comb any_version i)) /\
    (forall v i, v <> any_version ->
       vget c v i = match offer def (getd any_version new) i with Some _ => None | None => vget comb v i end).
  Proof.
    intros Hdef Hc E; unfold merge_any_version in E.
    rewrite (getd_unfold any_version new).
    destruct (get any_version new) as [nid|]; [|injection E as <-; simpl; auto].
    apply bind_Ok in E; destruct E as (c1 & E1 & E).
    destruct (remove_fold_versions _ _ _ _ Hc E1) as (Hc1 & Ha & Hv).
    assert (G : forall cid', cl_id cid' ->
      (forall i, get i cid' = orelse (offer def nid i) (vget comb any_version i)) ->
      cl_vd (set any_version cid' c1) /\
      (forall i, vget (set any_version cid' c1) any_version i = orelse (offer def nid i) (vget comb any_version i)) /\
      (forall v i, v <> any_version ->
       vget (set any_version cid' c1) v i = match offer def nid i with Some _ => None | None => vget comb v i end)).
    { intros cid' Hcl Hg; split; [|split].
      - split; [apply wf_set, Hc1|]; intros v id Hgv; rewrite get_set in Hgv.
        destruct (eqb_spec v any_version) as [->|Hn]; [congruence|]; eapply (proj2 Hc1); eassumption.
      - intros i; unfold vget at 1, getd; rewrite get_set_same; apply Hg.
      - intros v i Hn; rewrite <- Hv by assumption; unfold vget, getd; rewrite get_set_other by assumption; reflexivity. }
    destruct (get any_version c1) as [cid|] eqn:Ea.
    - apply bind_Ok in E; destruct E as (cid' & Em & E); injection E as <-.
      assert (Hcid : cl_id cid) by (eapply (proj2 Hc1); eassumption).
      apply G; [eapply merge_clean; [|exact Hcid|exact Em]; discriminate|].
      intros i; rewrite (merge_installer_get _ _ _ _ i Em).
      rewrite (offer_no_keyword None def) by (eapply merge_None_no_keyword; eassumption).
      unfold vget, getd; rewrite <- Ha; reflexivity.
    - apply bind_Ok in E; destruct E as (cid' & Em & E); injection E as <-.
      apply G; [eapply merge_clean; [exact Hdef|apply cl_nil|exact Em]|].
      intros i; rewrite copy_is_merge in Em; rewrite (merge_installer_get _ _ _ _ i Em), get_nil.
      unfold vget, getd; rewrite <- Ha; reflexivity.
  Qed.

  Definition Pmergev def (v : text) id (o o' : option (installer_dict R)) : Prop :=
    exists cid id', o = cid /\ o' = Some id' /\
      merge_installer_dict id (match cid with Some x => x | None => [] end) def = Ok id'.

  Lemma merge_version_step_local def c v id c' :
    wf c -> merge_version_step def c (v, id) = Ok c' ->
    wf c' /\ Pmergev def v id (get v c) (get v c') /\ forall v', v' <> v -> get v' c' = get v' c.
  Proof.
    intros Hw E; unfold merge_version_step in E; simpl in E.
    destruct (get v c) as [cid|] eqn:Eg; apply bind_Ok in E; destruct E as (id' & Em & E);
      injection E as <-; (split; [apply wf_set; assumption|split];
      [|intros v' Hn; apply get_set_other; assumption]).
    - exists (Some cid), id'; rewrite get_set_same; auto.
    - exists None, id'; rewrite get_set_same; auto.
  Qed.

  Lemma merge_version_loop new c def c' :
    def <> Some default_installer ->
    wf new -> cl_vd c -> foldM (merge_version_step def) new c = Ok c' ->
    cl_vd c' /\ kw_ok def new /\
    forall v i, vget c' v i = orelse (offer def (getd v new) i) (vget c v i).
  Proof.
    intros Hdef Hwn [Hwc Hc] E.
    destruct (foldM_local _ (Pmergev def) (merge_version_step_local def) new c c' Hwn Hwc E) as [Hw' Hs].
    split; [|split].
    - split; [assumption|]; intros v id Hg; specialize (Hs v).
      destruct (get v new) as [nid|]; [|rewrite Hs in Hg; eauto].
      destruct Hs as (cid & id' & E1 & E2 & Em).
      assert (id' = id) by congruence; subst id' cid.
      eapply merge_clean; [exact Hdef| |exact Em].
      destruct (get v c) eqn:Ev; [eauto|apply cl_nil].
    - intros v id Hg Hin; specialize (Hs v); rewrite Hg in Hs.
      destruct Hs as (cid & id' & E1 & E2 & Em); eapply merge_Ok_kw; eassumption.
    - intros v i; specialize (Hs v); unfold vget, getd.
      destruct (get v new) as [nid|].
      + destruct Hs as (cid & id' & E1 & E2 & Em); rewrite E2, (merge_installer_get _ _ _ _ i Em), <- E1; reflexivity.
      + rewrite Hs; reflexivity.
  Qed.

  Lemma merge_version_spec new comb def c :
    def <> Some default_installer ->
    wf new -> cl_vd comb -> merge_version_dict new comb def = Ok c ->
    cl_vd c /\ kw_ok def new /\
    forall v i, vlookc c v i = orelse (vlook def new v i) (vlookc comb v i).
  Proof.
    intros Hdef Hwn Hc E; unfold merge_version_dict in E.
    apply bind_Ok in E; destruct E as (c1 & E1 & E2).
    destruct (merge_any_version_spec _ _ _ _ Hdef Hc E1) as (Hc1 & Ha & Hv).
    destruct (merge_version_loop _ _ _ _ Hdef Hwn Hc1 E2) as (Hc2 & Hkw & Hl).
    split; [assumption|split; [assumption|]].
    intros v i; unfold vlookc, vlook; rewrite !Hl, !Ha.
    destruct (eqb_spec v any_version) as [->|Hn].
    - rewrite Ha; destruct (offer def (getd any_version new) i); simpl; [reflexivity|].
      destruct (vget comb any_version i); reflexivity.
    - rewrite Hv by assumption.
      destruct (offer def (getd v new) i); simpl; [reflexivity|].
      destruct (offer def (getd any_version new) i); simpl; [reflexivity|].
      destruct (vget comb v i); reflexivity.
  Qed.

  (** ** Os level *)
  Lemma get_remove_os od name os :
    wf od ->
    get os (remove_rule_for_all_os od name) =
    match get os od with
    | None => None
    | Some vd => if eqb os any_os then Some vd
                 else match remove_rule_for_all_versions vd name false with [] => None | vd' => Some vd' end
    end.
  Proof.
    induction od as [|[o0 vd0] od IH]; intros Hw; [reflexivity|].
    apply wf_cons in Hw; destruct Hw as [Ho0 Hw]; specialize (IH Hw).
    simpl; rewrite get_cons.
    destruct (eqb_spec os o0) as [->|Hn].
    - destruct (eqb o0 any_os); [rewrite get_cons, eqb_refl; reflexivity|].
      destruct (remove_rule_for_all_versions vd0 name false); [rewrite IH, Ho0; reflexivity|].
      rewrite get_cons, eqb_refl; reflexivity.
    - apply eqb_neq in Hn.
      destruct (eqb o0 any_os); [rewrite get_cons, Hn; exact IH|].
      destruct (remove_rule_for_all_versions vd0 name false); [exact IH|rewrite get_cons, Hn; exact IH].
  Qed.

  Lemma keys_remove_os od name os : In os (keys (remove_rule_for_all_os od name)) -> In os (keys od).
  Proof.
    induction od as [|[o0 vd0] od IH]; simpl; [tauto|].
    destruct (eqb o0 any_os); simpl; [intros [E|E]; auto|].
    destruct (remove_rule_for_all_versions vd0 name false); simpl; [auto|intros [E|E]; auto].
  Qed.

  Lemma wf_remove_os od name : wf od -> wf (remove_rule_for_all_os od name).
  Proof.
    induction od as [|[o0 vd0] od IH]; intros Hw; [exact Hw|].
    apply wf_cons in Hw; destruct Hw as [Ho0 Hw]; specialize (IH Hw); simpl.
    assert (Hg : get o0 (remove_rule_for_all_os od name) = None).
    { apply get_None; intros Hin; apply keys_remove_os in Hin; apply get_None in Ho0; tauto. }
    destruct (eqb o0 any_os); [apply wf_cons; auto|].
    destruct (remove_rule_for_all_versions vd0 name false); [assumption|apply wf_cons; auto].
  Qed.

  Lemma cl_remove_os od name : cl_od od -> cl_od (remove_rule_for_all_os od name).
  Proof.
    intros [Hw Hc]; split; [apply wf_remove_os; assumption|].
    intros os vd Hg; rewrite (get_remove_os _ _ _ Hw) in Hg.
    destruct (get os od) as [vd0|] eqn:E0; [|discriminate].
    specialize (Hc _ _ E0); destruct (eqb os any_os); [congruence|].
    pose proof (cl_remove_versions vd0 name false Hc) as Hr.
    destruct (remove_rule_for_all_versions vd0 name false); congruence.
  Qed.

  Lemma vget_remove_os od name os v i :
    cl_od od -> os <> any_os ->
    vget (getd os (remove_rule_for_all_os od name)) v i =
    if eqb i name then None else vget (getd os od) v i.
  Proof.
    intros [Hw Hc] Hn; apply eqb_neq in Hn; unfold getd at 1; rewrite (get_remove_os _ _ _ Hw), Hn.
    unfold getd; destruct (get os od) as [vd|] eqn:E.
    - pose proof (vget_remove_versions vd name false v i ltac:(eapply Hc; eassumption)) as Hr.
      simpl in Hr; rewrite <- Hr.
      destruct (remove_rule_for_all_versions vd name false); reflexivity.
    - destruct (eqb i name); reflexivity.
  Qed.

  Lemma remove_fold_os nid od od' :
    cl_od od ->
    foldM (fun c name => let* n := replace_default_installer name None in
                         Ok (remove_rule_for_all_os c n)) (keys nid) od = Ok od' ->
    cl_od od' /\ get any_os od' = get any_os od /\ incl (keys od') (keys od) /\
    forall os v i, os <> any_os ->
      vget (getd os od') v i = match offer None nid i with Some _ => None | None => vget (getd os od) v i end.
  Proof.
    revert od; induction nid as [|[n r] nid IH]; intros od Hc E.
    - simpl in E; injection E as <-; simpl; auto using incl_refl.
    - simpl in E; destruct (replace_default_installer n None) as [m|e] eqn:Em; [|discriminate].
      simpl in E; destruct (IH _ (cl_remove_os od m Hc) E) as (Hc' & Ha & Hi & Hv).
      split; [assumption|split; [|split]].
      + rewrite Ha, get_remove_os by apply Hc; rewrite eqb_refl.
        destruct (get any_os od); reflexivity.
      + intros o Ho; eapply keys_remove_os, Hi; exact Ho.
      + intros os v i Hne; rewrite (Hv os v i Hne), vget_remove_os by assumption.
        simpl; rewrite Em; destruct (offer None nid i); simpl; [reflexivity|].
        destruct (eqb i m); reflexivity.
  Qed.

  Definition wfv od := wf od /\ forall os vd, get os od = Some vd -> wf vd.

  Lemma merge_any_os_spec new comb c :
    wfv new -> cl_od comb -> merge_any_os new comb = Ok c ->
    cl_od c /\
    ~ In default_installer (keys (getd any_version (getd any_os new))) /\
    (forall o, In o (keys c) -> o = any_os \/ In o (keys comb)) /\
    (forall def i, vget (getd any_os c) any_version i =
               orelse (offer def (getd any_version (getd any_os new)) i) (vget (getd any_os comb) any_version i)) /\
    (forall def os v i, os <> any_os ->
       vget (getd os c) v i =
       match offer def (getd any_version (getd any_os new)) i with
       | Some _ => None | None => vget (getd os comb) v i end).
  Proof.
    intros [Hwn Hwn'] Hc E; unfold merge_any_os in E.
    rewrite (getd_unfold any_os new).
    destruct (get any_os new) as [nvd|] eqn:Enew.
    2:{ injection E as <-; split; [assumption|]; split; [intros []|]; split; [auto|].
        split; reflexivity. }
    apply bind_Ok in E; destruct E as (nid & Enid & E).
    unfold getitem in Enid; destruct (get any_version nvd) as [nid0|] eqn:Env; [|discriminate].
    injection Enid as ->.
    assert (Hnid : getd any_version nvd = nid) by (unfold getd; rewrite Env; reflexivity).
    rewrite Hnid.
    apply bind_Ok in E; destruct E as (c1 & E1 & E).
    destruct (remove_fold_os _ _ _ Hc E1) as (Hc1 & Ha & Hi & Hv).
    assert (G : forall cvd', ~ In default_installer (keys nid) -> cl_vd cvd' ->
      (forall i, vget cvd' any_version i = orelse (offer None nid i) (vget (getd any_os comb) any_version i)) ->
      cl_od (set any_os cvd' c1) /\
      ~ In default_installer (keys nid) /\
      (forall o, In o (keys (set any_os cvd' c1)) -> o = any_os \/ In o (keys comb)) /\
      (forall def i, vget (getd any_os (set any_os cvd' c1)) any_version i =
         orelse (offer def nid i) (vget (getd any_os comb) any_version i)) /\
      (forall def os v i, os <> any_os ->
         vget (getd os (set any_os cvd' c1)) v i =
         match offer def nid i with Some _ => None | None => vget (getd os comb) v i end)).
    { intros cvd' Hkw Hcl Hg; repeat split.
      - apply wf_set, Hc1.
      - rewrite get_set in H; destruct (eqb_spec os any_os) as [->|Hn];
          [injection H as <-; apply Hcl|]; eapply (proj2 Hc1); eassumption.
      - rewrite get_set in H; destruct (eqb_spec os any_os) as [->|Hn];
          [injection H as <-; apply (proj2 Hcl v id H0)|]; eapply (proj2 Hc1); eassumption.
      - rewrite get_set in H; destruct (eqb_spec os any_os) as [->|Hn];
          [injection H as <-; apply (proj2 Hcl v id H0)|]; eapply (proj2 Hc1); eassumption.
      - assumption.
      - intros o Ho; apply in_keys_set in Ho; destruct Ho as [->|Ho]; [auto|right; apply Hi; assumption].
      - intros def i; unfold getd at 1; rewrite get_set_same, Hg, (offer_no_keyword None def) by assumption.
        reflexivity.
      - intros def os v i Hn; rewrite (offer_no_keyword def None) by assumption.
        rewrite <- (Hv os v i Hn); unfold getd; rewrite get_set_other by assumption; reflexivity. }
    destruct (get any_os c1) as [cvd|] eqn:Eo.
    - apply bind_Ok in E; destruct E as (cid & Ecid & E).
      unfold getitem in Ecid; destruct (get any_version cvd) as [cid0|] eqn:Ecv; [|discriminate].
      injection Ecid as ->.
      apply bind_Ok in E; destruct E as (cid' & Em & E); injection E as <-.
      assert (Hcvd : cl_vd cvd) by (eapply (proj2 Hc1); eassumption).
      apply G.
      + eapply merge_None_no_keyword; eassumption.
      + split; [apply wf_set, Hcvd|]; intros v id Hg; rewrite get_set in Hg.
        destruct (eqb v any_version); [injection Hg as <-|eapply (proj2 Hcvd); eassumption].
        eapply merge_clean; [|eapply (proj2 Hcvd); eassumption|exact Em]; discriminate.
      + intros i; unfold vget at 1; unfold getd at 1; rewrite get_set_same, (merge_installer_get _ _ _ _ i Em).
        f_equal; unfold vget, getd; rewrite <- Ha, Ecv; reflexivity.
    - apply bind_Ok in E; destruct E as (cvd & Ecv & E); injection E as <-.
      assert (Hw : wf nvd) by (eapply Hwn'; eassumption).
      apply G.
      + pose proof (copy_version_kw _ _ _ Hw Ecv) as Hk; intros Hin.
        destruct (Hk _ _ Env Hin) as (n & Hn & _); discriminate.
      + eapply copy_version_clean; [|exact Hw|exact Ecv]; discriminate.
      + intros i; rewrite (copy_version_vget _ _ _ _ _ Hw Ecv), Hnid.
        unfold vget, getd; rewrite <- Ha; symmetry; apply orelse_None_r.
  Qed.

  Lemma vlook_nil def v i : vlook def [] v i = None.
  Proof. reflexivity. Qed.
  Lemma vlookc_nil v i : vlookc [] v i = None.
  Proof. reflexivity. Qed.

  Lemma copy_version_vlook vd def vd' v i :
    wf vd -> copy_version_dict vd def = Ok vd' -> vlookc vd' v i = vlook def vd v i.
  Proof.
    intros Hw E; unfold vlookc, vlook; rewrite !(copy_version_vget _ _ _ _ _ Hw E); reflexivity.
  Qed.

  Definition od_of (o : option (version_dict R)) : version_dict R := match o with Some x => x | None => [] end.

  (** Effect of the os loop on one os. *)
  Definition Pmergeo (defs : dict text (option text)) (os : text) nvd (o o' : option (version_dict R)) : Prop :=
    match get os defs with
    | None => o' = o
    | Some def =>
      exists vd', o' = Some vd' /\
        (wf nvd -> cl_vd (od_of o) -> def <> Some default_installer ->
         cl_vd vd' /\ kw_ok def nvd /\
         forall v i, vlookc vd' v i = orelse (vlook def nvd v i) (vlookc (od_of o) v i))
    end.

  Lemma merge_os_step_local defs c os nvd c' :
    wf c -> merge_os_step defs c (os, nvd) = Ok c' ->
    wf c' /\ Pmergeo defs os nvd (get os c) (get os c') /\ forall o', o' <> os -> get o' c' = get o' c.
  Proof.
    intros Hw E; unfold merge_os_step in E; simpl in E; unfold Pmergeo.
    destruct (get os defs) as [def|]; [|injection E as <-; auto].
    destruct (get os c) as [cvd|] eqn:Eg; apply bind_Ok in E; destruct E as (vd & Em & E);
      injection E as <-; (split; [apply wf_set; assumption|split];
      [|intros v' Hn; apply get_set_other; assumption]); exists vd; rewrite get_set_same; split; auto.
    - intros Hwn Hc Hdef; apply merge_version_spec; assumption.
    - intros Hwn Hc Hdef; split; [eapply copy_version_clean; eassumption|].
      split; [eapply copy_version_kw; eassumption|].
      intros v i; simpl; rewrite vlookc_nil, orelse_None_r; apply copy_version_vlook; assumption.
  Qed.

  Definition good_defs (defs : dict text (option text)) : Prop :=
    forall os def, get os defs = Some def -> def <> Some default_installer.

  Lemma kw_ok_nil def : kw_ok def [].
  Proof. intros v id Hg; discriminate. Qed.

  Lemma merge_os_spec new comb defs c :
    good_defs defs -> wfv new -> cl_od comb -> merge_os_dict new comb defs = Ok c ->
    cl_od c /\
    (forall o, In o (keys c) -> o = any_os \/ has o defs = true \/ In o (keys comb)) /\
    ~ In default_installer (keys (getd any_version (getd any_os new))) /\
    (forall os def, get os defs = Some def -> kw_ok def (getd os new)) /\
    forall os def v i, get os defs = Some def -> os <> any_os ->
      olookc c os v i = orelse (olook def new os v i) (olookc comb os v i).
  Proof.
    intros Hdefs Hwn Hc E; unfold merge_os_dict in E.
    apply bind_Ok in E; destruct E as (c1 & E1 & E2).
    destruct (merge_any_os_spec _ _ _ Hwn Hc E1) as (Hc1 & Hkw & Hk & Ha & Ho).
    destruct (foldM_local _ (Pmergeo defs) (merge_os_step_local defs) new c1 c (proj1 Hwn) (proj1 Hc1) E2) as [Hw' Hs].
    (* uniform description of the loop *)
    assert (L : forall os def, get os defs = Some def ->
              kw_ok def (getd os new) /\
              forall v i, vlookc (getd os c) v i = orelse (vlook def (getd os new) v i) (vlookc (getd os c1) v i)).
    { intros os def Hd; specialize (Hs os); unfold getd.
      destruct (get os new) as [nvd|] eqn:En; [|rewrite Hs; split; [apply kw_ok_nil|reflexivity]].
      unfold Pmergeo in Hs; rewrite Hd in Hs; destruct Hs as (vd' & -> & Hvd).
      destruct Hvd as (Hcv & Hkv & Hv).
      - eapply (proj2 Hwn); eassumption.
      - destruct (get os c1) as [x|] eqn:Ex; simpl; [eapply (proj2 Hc1); eassumption|].
        split; [apply wf_nil|discriminate].
      - eapply Hdefs; eassumption.
      - split; [assumption|exact Hv]. }
    split; [|split; [|split; [assumption|split]]].
    - split; [assumption|]; intros os vd Hg; specialize (Hs os).
      destruct (get os new) as [nvd|] eqn:En; [|rewrite Hs in Hg; eapply (proj2 Hc1); eassumption].
      unfold Pmergeo in Hs; destruct (get os defs) as [def|] eqn:Ed;
        [|rewrite Hs in Hg; eapply (proj2 Hc1); eassumption].
      destruct Hs as (vd' & Ev & Hvd); assert (vd' = vd) by congruence; subst vd'.
      apply Hvd.
      + eapply (proj2 Hwn); eassumption.
      + destruct (get os c1) as [x|] eqn:Ex; simpl; [eapply (proj2 Hc1); eassumption|].
        split; [apply wf_nil|discriminate].
      + eapply Hdefs; eassumption.
    - intros o Hin; apply get_Some_keys in Hin; destruct Hin as [vd Hg]; specialize (Hs o).
      assert (K1 : get o c = get o c1 -> o = any_os \/ has o defs = true \/ In o (keys comb)).
      { intros Eq; rewrite Eq in Hg; destruct (Hk o); [apply get_Some_keys; eauto|auto|auto]. }
      destruct (get o new) as [nvd|] eqn:En; [|auto].
      unfold Pmergeo in Hs; destruct (get o defs) as [def|] eqn:Ed; [|auto].
      right; left; apply has_true; eauto.
    - intros os def Hd; apply L; assumption.
    - intros os def v i Hd Hn.
      assert (A : vget (getd any_os c) any_version i = vget (getd any_os c1) any_version i).
      { destruct (get any_os defs) as [adef|] eqn:Ead.
        - destruct (L any_os adef Ead) as [_ Lv]; specialize (Lv any_version i).
          unfold vlookc, vlook in Lv; rewrite (Ha adef) in Lv |- *.
          destruct (offer adef (getd any_version (getd any_os new)) i) as [r|]; simpl in *.
          + destruct (vget (getd any_os c) any_version i) as [r'|]; simpl in *; [exact Lv|discriminate].
          + destruct (vget (getd any_os c) any_version i) as [r'|]; simpl in *;
              destruct (vget (getd any_os comb) any_version i); simpl in *; congruence.
        - specialize (Hs any_os); unfold Pmergeo in Hs; rewrite Ead in Hs.
          assert (Eq : get any_os c = get any_os c1) by (destruct (get any_os new); assumption).
          unfold getd; rewrite Eq; reflexivity. }
      destruct (L os def Hd) as [_ Lv].
      unfold olookc, olook; rewrite A, (Ha def), Lv; unfold vlookc at 1.
      rewrite !(Ho def) by assumption.
      destruct (vlook def (getd os new) v i); simpl; [reflexivity|].
      destruct (offer def (getd any_version (getd any_os new)) i); simpl; [reflexivity|].
      reflexivity.
  Qed.

  Definition Pcopyo (defs : dict text (option text)) (os : text) nvd (o o' : option (version_dict R)) : Prop :=
    if eqb os any_os then exists vd', o' = Some vd' /\ copy_version_dict nvd None = Ok vd'
    else match get os defs with
         | None => o' = o
         | Some def => exists vd', o' = Some vd' /\ copy_version_dict nvd def = Ok vd'
         end.

  Lemma copy_os_spec new defs c :
    good_defs defs -> wfv new -> copy_os_dict new defs = Ok c ->
    cl_od c /\
    (forall o, In o (keys c) -> o = any_os \/ has o defs = true) /\
    ~ In default_installer (keys (getd any_version (getd any_os new))) /\
    (forall os def, get os defs = Some def -> os <> any_os -> kw_ok def (getd os new)) /\
    forall os def v i, get os defs = Some def -> os <> any_os ->
      olookc c os v i = olook def new os v i.
  Proof.
    intros Hdefs Hwn E; unfold copy_os_dict in E.
    apply (foldM_local' (Pcopyo defs)) in E; [|apply Hwn|apply wf_nil|].
    2:{ clear; intros c os nvd c' Hc E; simpl in E; unfold Pcopyo.
      destruct (eqb os any_os).
      - apply bind_Ok in E; destruct E as (vd & Ev & E); injection E as <-.
        split; [apply wf_set; assumption|split; [exists vd; rewrite get_set_same; auto|]].
        intros o' Hn; apply get_set_other; assumption.
      - destruct (get os defs) as [def|]; [|injection E as <-; auto].
        apply bind_Ok in E; destruct E as (vd & Ev & E); injection E as <-.
        split; [apply wf_set; assumption|split; [exists vd; rewrite get_set_same; auto|]].
        intros o' Hn; apply get_set_other; assumption. }
    destruct E as [Hw' Hs].
    assert (A : ~ In default_installer (keys (getd any_version (getd any_os new))) /\
                forall def i, vget (getd any_os c) any_version i = offer def (getd any_version (getd any_os new)) i).
    { specialize (Hs any_os); unfold Pcopyo in Hs; rewrite eqb_refl in Hs.
      rewrite (getd_unfold any_os new), (getd_unfold any_os c).
      destruct (get any_os new) as [nvd|] eqn:En; [|rewrite Hs; split; [intros []|reflexivity]].
      destruct Hs as (vd' & -> & Ec).
      assert (Hw : wf nvd) by (eapply (proj2 Hwn); eassumption).
      assert (Hkw : ~ In default_installer (keys (getd any_version nvd))).
      { unfold getd; destruct (get any_version nvd) as [nid|] eqn:Env; [|intros []].
        intros Hin; destruct (copy_version_kw _ _ _ Hw Ec _ _ Env Hin) as (n & Hn & _); discriminate. }
      split; [assumption|]; intros def i; rewrite (copy_version_vget _ _ _ _ _ Hw Ec).
      apply offer_no_keyword; assumption. }
    assert (L : forall os def, get os defs = Some def -> os <> any_os ->
              kw_ok def (getd os new) /\
              forall v i, vlookc (getd os c) v i = vlook def (getd os new) v i).
    { intros os def Hd Hn; specialize (Hs os); unfold Pcopyo in Hs; apply eqb_neq in Hn; rewrite Hn, Hd in Hs.
      unfold getd; destruct (get os new) as [nvd|] eqn:En;
        [|rewrite Hs; split; [apply kw_ok_nil|reflexivity]].
      destruct Hs as (vd' & -> & Ec).
      assert (Hw : wf nvd) by (eapply (proj2 Hwn); eassumption).
      split; [eapply copy_version_kw; eassumption|].
      intros v i; apply copy_version_vlook; assumption. }
    split; [|split; [|split; [apply A|split]]].
    - split; [assumption|]; intros os vd Hg; specialize (Hs os).
      destruct (get os new) as [nvd|] eqn:En; [|rewrite Hs in Hg; discriminate].
      assert (Hw : wf nvd) by (eapply (proj2 Hwn); eassumption).
      unfold Pcopyo in Hs; destruct (eqb os any_os).
      { destruct Hs as (vd' & Ev & Ec); assert (vd' = vd) by congruence; subst vd'.
        eapply copy_version_clean; [|exact Hw|exact Ec]; discriminate. }
      destruct (get os defs) as [def|] eqn:Ed; [|rewrite Hs in Hg; discriminate].
      destruct Hs as (vd' & Ev & Ec); assert (vd' = vd) by congruence; subst vd'.
      eapply copy_version_clean; [|exact Hw|exact Ec]; eapply Hdefs; eassumption.
    - intros o Hin; apply get_Some_keys in Hin; destruct Hin as [vd Hg]; specialize (Hs o).
      destruct (get o new) as [nvd|]; [|rewrite Hs in Hg; discriminate].
      unfold Pcopyo in Hs; destruct (eqb_spec o any_os); [auto|].
      right; apply has_true; destruct (get o defs); [eauto|]; rewrite Hs in Hg; discriminate.
    - intros os def Hd Hn; apply L; assumption.
    - intros os def v i Hd Hn; unfold olookc, olook.
      rewrite (proj2 A def), (proj2 (L os def Hd Hn)); reflexivity.
  Qed.

  (** ** Rules level *)
  Definition cl_rules (m : rules_dict R) := wf m /\ forall k od, get k m = Some od -> cl_od od.
  Definition dom_ok (defs : dict text (option text)) (m : rules_dict R) :=
    forall k od, get k m = Some od -> forall o, In o (keys od) -> o = any_os \/ has o defs = true.

  Definition rlookc (m : rules_dict R) k os v i := olookc (getd k m) os v i.
  Definition rlook def (r : rules_dict R) k os v i := olook def (getd k r) os v i.

  Definition Pmerger (defs : dict text (option text)) (k : text) nod (o o' : option (os_dict R)) : Prop :=
    wfv nod -> (forall od, o = Some od -> cl_od od /\ (forall os, In os (keys od) -> os = any_os \/ has os defs = true)) ->
    (forall od, o' = Some od -> cl_od od /\ (forall os, In os (keys od) -> os = any_os \/ has os defs = true)) /\
    ~ In default_installer (keys (getd any_version (getd any_os nod))) /\
    (forall os def, get os defs = Some def -> os <> any_os -> kw_ok def (getd os nod)) /\
    (forall os def v i, get os defs = Some def -> os <> any_os ->
       olookc (match o' with Some x => x | None => [] end) os v i =
       orelse (olook def nod os v i) (olookc (match o with Some x => x | None => [] end) os v i)).

  Lemma merge_rules_step_local defs c k nod c' :
    good_defs defs ->
    wf c -> merge_rules_step defs c (k, nod) = Ok c' ->
    wf c' /\ Pmerger defs k nod (get k c) (get k c') /\ forall k', k' <> k -> get k' c' = get k' c.
  Proof.
    intros Hdefs Hw E; unfold merge_rules_step in E; simpl in E; unfold Pmerger.
    destruct (get k c) as [cod|] eqn:Eg; apply bind_Ok in E; destruct E as (od & Em & E).
    - injection E as <-; split; [apply wf_set; assumption|split];
        [|intros v' Hn; apply get_set_other; assumption].
      rewrite get_set_same; intros Hwn Ho; destruct (Ho _ eq_refl) as [Hcl Hdom].
      destruct (merge_os_spec _ _ _ _ Hdefs Hwn Hcl Em) as (H1 & H2 & H3 & H4 & H5).
      split; [|split; [assumption|split; [intros; apply H4; assumption|assumption]]].
      intros od' Eo; injection Eo as <-; split; [assumption|].
      intros os Hin; destruct (H2 os Hin) as [?|[?|Hin']]; auto.
    - assert (G : forall cf, wf cf -> (forall k', k' <> k -> get k' cf = get k' c) ->
                 (get k cf = None /\ od = [] \/ get k cf = Some od) ->
                 wf cf /\ Pmerger defs k nod None (get k cf) /\ forall k', k' <> k -> get k' cf = get k' c).
      { intros cf Hwf Hoth Hk; split; [assumption|split; [|assumption]].
        intros Hwn _; destruct (copy_os_spec _ _ _ Hdefs Hwn Em) as (H1 & H2 & H3 & H4 & H5).
        split; [|split; [assumption|split; [assumption|]]].
        - intros od' Eo; destruct Hk as [[Hk ->]|Hk]; [congruence|].
          assert (od' = od) by congruence; subst; auto.
        - intros os def v i Hd Hn; rewrite <- (H5 os def v i Hd Hn).
          assert (Hk' : match get k cf with Some x => x | None => [] end = od)
            by (destruct Hk as [[-> ->]| ->]; reflexivity).
          rewrite Hk'; unfold olookc at 3; simpl; symmetry; apply orelse_None_r. }
      destruct od as [|p od]; injection E as <-.
      + apply G; auto.
      + apply G; [apply wf_set; assumption|intros k' Hn; apply get_set_other; assumption|].
        right; apply get_set_same.
  Qed.

  (** The rules for [os] in [r] can be looked up without error. *)
  Definition lookable (defs : dict text (option text)) (r : rules_dict R) : Prop :=
    forall k os def, get os defs = Some def -> os <> any_os ->
      ~ In default_installer (keys (getd any_version (getd any_os (getd k r)))) /\
      kw_ok def (getd os (getd k r)).

  Lemma wf_rules_wfv r k od : wf_rules r -> get k r = Some od -> wfv od.
  Proof.
    intros [_ Hw] Hg; apply get_In in Hg; destruct (Hw _ _ Hg) as [H1 H2]; split; [assumption|].
    intros os vd Ho; apply get_In in Ho; apply (H2 _ _ Ho).
  Qed.

  Lemma merge_rules_inner defs r c c' :
    good_defs defs -> wf_rules r -> cl_rules c -> dom_ok defs c ->
    foldM (merge_rules_step defs) r c = Ok c' ->
    cl_rules c' /\ dom_ok defs c' /\ lookable defs r /\
    forall k os def v i, get os defs = Some def -> os <> any_os ->
      rlookc c' k os v i = orelse (rlook def r k os v i) (rlookc c k os v i).
  Proof.
    intros Hdefs Hwr Hcl Hdom E.
    destruct (foldM_local _ (Pmerger defs)
               (fun c k x c' => merge_rules_step_local defs c k x c' Hdefs) r c c'
               (proj1 Hwr) (proj1 Hcl) E) as [Hw' Hs].
    assert (S : forall k nod, get k r = Some nod ->
       (forall od, get k c' = Some od -> cl_od od /\ (forall os, In os (keys od) -> os = any_os \/ has os defs = true)) /\
       ~ In default_installer (keys (getd any_version (getd any_os nod))) /\
       (forall os def, get os defs = Some def -> os <> any_os -> kw_ok def (getd os nod)) /\
       (forall os def v i, get os defs = Some def -> os <> any_os ->
          olookc (getd k c') os v i = orelse (olook def nod os v i) (olookc (getd k c) os v i))).
    { intros k nod Hk; specialize (Hs k); rewrite Hk in Hs; apply Hs.
      - eapply wf_rules_wfv; eassumption.
      - intros od Hod; split; [eapply (proj2 Hcl); eassumption|eapply Hdom; eassumption]. }
    split; [|split; [|split]].
    - split; [assumption|]; intros k od Hg.
      destruct (get k r) as [nod|] eqn:Er; [eapply S; eassumption|].
      specialize (Hs k); rewrite Er in Hs; rewrite Hs in Hg; eapply (proj2 Hcl); eassumption.
    - intros k od Hg; destruct (get k r) as [nod|] eqn:Er; [eapply S; eassumption|].
      specialize (Hs k); rewrite Er in Hs; rewrite Hs in Hg; eapply Hdom; eassumption.
    - intros k os def Hd Hn; rewrite (getd_unfold k r); destruct (get k r) as [nod|] eqn:Er.
      + destruct (S k nod Er) as (_ & H1 & H2 & _); split; [assumption|apply H2; assumption].
      + split; [intros []|apply kw_ok_nil].
    - intros k os def v i Hd Hn; unfold rlookc, rlook; rewrite (getd_unfold k r).
      destruct (get k r) as [nod|] eqn:Er.
      + destruct (S k nod Er) as (_ & _ & _ & H3); apply H3; assumption.
      + specialize (Hs k); rewrite Er in Hs; unfold getd; rewrite Hs; reflexivity.
  Qed.

  (** First rule found in a list of rules dicts. *)
  Fixpoint first_rule def (l : list (rules_dict R)) k os v i : option R :=
    match l with
    | [] => None
    | r :: l' => orelse (rlook def r k os v i) (first_rule def l' k os v i)
    end.

  Lemma merge_rules_spec l defs m :
    good_defs defs -> Forall wf_rules l -> merge_rules l defs = Ok m ->
    cl_rules m /\ dom_ok defs m /\ Forall (lookable defs) l /\
    forall k os def v i, get os defs = Some def -> os <> any_os ->
      rlookc m k os v i = first_rule def l k os v i.
  Proof.
    intros Hdefs; unfold merge_rules; revert m; induction l as [|r l IH]; intros m Hw E.
    - simpl in E; injection E as <-; repeat split; try discriminate; try constructor.
    - simpl in E; rewrite foldM_app in E; apply bind_Ok in E; destruct E as (c & E1 & E2).
      inversion Hw as [|? ? Hwr Hwl]; subst.
      destruct (IH c Hwl E1) as (Hc & Hd & Hl & Hf).
      simpl in E2; apply bind_Ok in E2; destruct E2 as (c' & E2 & E3); injection E3 as <-.
      destruct (merge_rules_inner _ _ _ _ Hdefs Hwr Hc Hd E2) as (Hc' & Hd' & Hl' & Hf').
      split; [assumption|split; [assumption|split; [constructor; assumption|]]].
      intros k os def v i Hg Hn; rewrite (Hf' k os def v i Hg Hn), (Hf k os def v i Hg Hn); reflexivity.
  Qed.

  (** ** Link to [lookup_rules] *)
  Lemma lookup_rlook r k os v def d i :
    lookup_rules r k os v def = Ok d -> get i d = rlook def r k os v i.
  Proof.
    intros E; rewrite (lookup_get _ _ _ _ _ _ i E); unfold rlook, olook, vlook, look.
    apply orelse_assoc.
  Qed.

  Lemma lookable_ok defs r k os v def :
    lookable defs r -> get os defs = Some def -> os <> any_os ->
    exists d, lookup_rules r k os v def = Ok d.
  Proof.
    intros Hl Hd Hn; destruct (lookup_rules r k os v def) as [d|e] eqn:E; [eauto|].
    exfalso; apply lookup_err_look in E; destruct E as (-> & Hdo & Hin).
    destruct (Hl k os def Hd Hn) as [Ha Hk]; unfold look in Hin.
    assert (K : forall w, In default_installer (keys (getd w (getd os (getd k r)))) -> default_ok def).
    { intros w Hw; unfold getd at 1 in Hw; destruct (get w (getd os (getd k r))) as [id|] eqn:Ew; [|destruct Hw].
      eapply Hk; eassumption. }
    destruct Hin as [Hin|[Hin|Hin]]; [apply Hdo, (K _ Hin)|apply Hdo, (K _ Hin)|apply Ha, Hin].
  Qed.

  Lemma rlook_clean def m k os v i : cl_rules m -> rlook def m k os v i = rlookc m k os v i.
  Proof.
    intros Hc; unfold rlook, rlookc, olook, olookc, vlook, vlookc, vget.
    assert (Ho : cl_od (getd k m)).
    { unfold getd; destruct (get k m) as [od|] eqn:E; [eapply (proj2 Hc); eassumption|].
      split; [apply wf_nil|discriminate]. }
    rewrite !offer_clean; auto using cl_vd_getd, cl_od_getd.
  Qed.

  Lemma lookup_clean_ok m k os v def : cl_rules m -> exists d, lookup_rules m k os v def = Ok d.
  Proof.
    intros Hc; destruct (lookup_rules m k os v def) as [d|e] eqn:E; [eauto|].
    exfalso; apply lookup_err_look in E; destruct E as (_ & _ & Hin).
    assert (Ho : cl_od (getd k m)).
    { unfold getd; destruct (get k m) as [od|] eqn:Ek; [eapply (proj2 Hc); eassumption|].
      split; [apply wf_nil|discriminate]. }
    unfold look in Hin; destruct Hin as [Hin|[Hin|Hin]];
      revert Hin; apply cl_vd_getd, cl_od_getd; assumption.
  Qed.

  Lemma first_rule_iff defs def l k os v i rule :
    Forall (lookable defs) l -> get os defs = Some def -> os <> any_os ->
    (first_rule def l k os v i = Some rule <->
     exists (before : list (rules_dict R)) (r : rules_dict R) (after : list (rules_dict R)) (d : installer_dict R),
       l = before ++ r :: after /\ lookup_rules r k os v def = Ok d /\ In (i, rule) d /\
       forall (r' : rules_dict R) (d' : installer_dict R), In r' before -> lookup_rules r' k os v def = Ok d' -> ~ In i (keys d')).
  Proof.
    intros Hl Hd Hn; induction Hl as [|r l Hr Hl IH]; simpl.
    - split; [discriminate|]; intros (b & r & a & d & E & _); destruct b; discriminate.
    - destruct (lookable_ok defs r k os v def Hr Hd Hn) as [d Ed].
      rewrite <- (lookup_rlook _ _ _ _ _ _ i Ed).
      destruct (get i d) as [rule0|] eqn:Eg; simpl.
      + split.
        * intros E; injection E as ->; exists [], r, l, d; repeat split; auto.
          apply get_In; assumption.
        * intros (b & r1 & a & d1 & E & Ed1 & Hin & Hb).
          destruct b as [|r0 b]; simpl in E; injection E as -> El.
          -- assert (d1 = d) by congruence; subst.
             apply (In_get _ _ _ (lookup_wf _ _ _ _ _ _ Ed)) in Hin; congruence.
          -- exfalso; apply (Hb r0 d (or_introl eq_refl) Ed); apply get_Some_keys; eauto.
      + rewrite IH; split.
        * intros (b & r1 & a & d1 & -> & Ed1 & Hin & Hb).
          exists (r :: b), r1, a, d1; repeat split; auto.
          intros r' d' [<-|Hr'] E'; [|eapply Hb; eassumption].
          assert (d' = d) by congruence; subst; apply get_None; assumption.
        * intros (b & r1 & a & d1 & E & Ed1 & Hin & Hb).
          destruct b as [|r0 b]; simpl in E; injection E as -> El.
          -- assert (d1 = d) by congruence; subst d1.
             apply (In_get _ _ _ (lookup_wf _ _ _ _ _ _ Ed)) in Hin; congruence.
          -- exists b, r1, a, d1; repeat split; auto.
             intros r' d' Hr' E'; apply (Hb r' d'); auto; right; assumption.
  Qed.

  Lemma merge_then_lookup l defs m :
    good_defs defs -> Forall wf_rules l -> merge_rules l defs = Ok m ->
    forall k os def v, get os defs = Some def -> os <> any_os ->
    (forall r, In r l -> exists d, lookup_rules r k os v def = Ok d) /\
    exists dm, lookup_rules m k os v def = Ok dm /\
    forall i rule, In (i, rule) dm <->
      exists (before : list (rules_dict R)) (r : rules_dict R) (after : list (rules_dict R)) (d : installer_dict R),
       l = before ++ r :: after /\ lookup_rules r k os v def = Ok d /\ In (i, rule) d /\
       forall (r' : rules_dict R) (d' : installer_dict R), In r' before -> lookup_rules r' k os v def = Ok d' -> ~ In i (keys d').
  Proof.
    intros Hdefs Hw E k os def v Hd Hn.
    destruct (merge_rules_spec _ _ _ Hdefs Hw E) as (Hc & _ & Hl & Hf).
    split.
    - intros r Hin; rewrite Forall_forall in Hl; eapply lookable_ok; eauto.
    - destruct (lookup_clean_ok m k os v def Hc) as [dm Edm]; exists dm; split; [assumption|].
      intros i rule; rewrite <- (get_iff _ _ _ (lookup_wf _ _ _ _ _ _ Edm)).
      rewrite (lookup_rlook _ _ _ _ _ _ i Edm), (rlook_clean _ _ _ _ _ _ Hc), (Hf k os def v i Hd Hn).
      apply (first_rule_iff defs); assumption.
  Qed.

  Lemma merge_domain (l : list (rules_dict R)) (defs : dict text (option text)) (m : rules_dict R) :
    good_defs defs -> Forall wf_rules l -> merge_rules l defs = Ok m ->
    forall key os version id, entry m key os version id ->
      (os = any_os \/ In os (keys defs)) /\ forall rule, ~ In (default_installer, rule) id.
  Proof.
    intros Hdefs Hw E key os version id (od & vd & H1 & H2 & H3).
    destruct (merge_rules_spec _ _ _ Hdefs Hw E) as ((Hwm & Hc) & Hdom & _).
    apply (In_get _ _ _ Hwm) in H1; destruct (Hc _ _ H1) as [Hwo Hco].
    split.
    - destruct (Hdom _ _ H1 os) as [?|Hh]; [eapply In_keys; eassumption|auto|].
      right; apply has_keys; assumption.
    - apply (In_get _ _ _ Hwo) in H2; destruct (Hco _ _ H2) as [Hwv Hcv].
      apply (In_get _ _ _ Hwv) in H3; destruct (Hcv _ _ H3) as [_ Hk].
      intros rule Hin; apply Hk; eapply In_keys; eassumption.
  Qed.

End Merge.
