(** The raw operations on rules data depend on dict iteration order in no way but
    the one described by C03: expansion, verification, lookup and key listing of
    values that are equal up to dict order ([veq], SourcesSpec.v) give results that
    are equal up to dict order. *)
From Verif Require Import Base Dict PyVal RulesDict Verify VerifySpec VerifyProofs Expand ExpandProofs
  Sources SourcesSpec CacheProofs.

(** Outcomes equal up to dict order. *)
Definition req (x y : res pyval) : Prop :=
  match x, y with Ok a, Ok b => veq a b | Err e, Err e' => e = e' | _, _ => False end.

Definition opt_veq (x y : option pyval) : Prop :=
  match x, y with Some a, Some b => veq a b | None, None => True | _, _ => False end.
Definition pointwise (d d' : pydict) : Prop := forall k, opt_veq (get k d) (get k d').

Lemma veq_cases v v' : veq v v' ->
  match v with
  | VList l => exists l', v' = VList l' /\ Forall2 veq l l'
  | VDict _ => exists d', v' = VDict d'
  | _ => v' = v
  end.
Proof.
  intros H; destruct v; try (inversion H; subst; reflexivity).
  - apply veq_list_inv; exact H.
  - apply veq_dict_inv in H; destruct H as (e & d' & E & _); eauto.
Qed.

Lemma wf_NoDup {K V} (d : dict K V) : wf d -> NoDup d.
Proof. unfold wf, keys; intros H; eapply NoDup_map_inv; exact H. Qed.

Lemma veq_ext d d' : wf d -> wf d' -> (veq (VDict d) (VDict d') <-> pointwise d d').
Proof.
  intros Hw Hw'; split.
  - intros H k; destruct (veq_get d (VDict d') k Hw H) as (e & E & Hg); injection E as <-.
    destruct (get k d) as [x|]; [destruct Hg as (x' & -> & Hx); exact Hx|rewrite Hg; exact I].
  - intros H.
    set (e := map (fun p : pkey * pyval => (fst p, match get (fst p) d with Some x => x | None => VNone end)) d').
    assert (Hk : keys e = keys d').
    { unfold keys, e; rewrite map_map; reflexivity. }
    apply (veq_dict d e d').
    + apply NoDup_Permutation; [apply wf_NoDup; exact Hw|apply wf_NoDup; unfold wf; rewrite Hk; exact Hw'|].
      intros [k x]; split; intros Hin.
      * apply In_get in Hin; [|exact Hw]; specialize (H k); rewrite Hin in H.
        destruct (get k d') as [x'|] eqn:E'; [|contradiction].
        apply get_In in E'; unfold e; apply in_map_iff; exists (k, x'); split; [|exact E'].
        cbn [fst]; rewrite Hin; reflexivity.
      * unfold e in Hin; apply in_map_iff in Hin; destruct Hin as ([k' x'] & E & Hin).
        cbn [fst] in E; injection E as -> E.
        apply In_get in Hin; [|exact Hw']; specialize (H k); rewrite Hin in H.
        destruct (get k d) as [y|] eqn:Ey; [|contradiction]; subst y; apply get_In; exact Ey.
    + unfold e; clear Hk e; assert (G : forall k x', In (k, x') d' -> exists x, get k d = Some x /\ veq x x').
      { intros k x' Hin; apply In_get in Hin; [|exact Hw']; specialize (H k); rewrite Hin in H.
        destruct (get k d) as [x|]; [eauto|contradiction]. }
      clear Hw' H; induction d' as [|[k x'] d' IH]; [constructor|]; cbn [map fst]; constructor.
      * cbn [fst snd]; destruct (G k x' (or_introl eq_refl)) as (x & -> & Hx); auto.
      * apply IH; intros k0 x0 Hin; apply G; right; exact Hin.
Qed.

Lemma veq_refl v : wfval v -> veq v v.
Proof.
  induction v as [ | | | | | l IH | d IH ] using pyval_ind'; intros Hw; try (apply veq_atom; exact I).
  - apply veq_list; apply (proj1 (wfval_list _)) in Hw.
    induction l as [|x l IHl]; [constructor|]; inversion IH; inversion Hw; subst; constructor; auto.
  - apply (proj1 (wfval_dict _)) in Hw; destruct Hw as [Hw Hf]; apply veq_ext; [exact Hw|exact Hw|].
    intros k; destruct (get k d) as [x|] eqn:E; [|exact I]; apply get_In in E.
    rewrite Forall_forall in IH, Hf; apply (IH _ E), (Hf _ E).
Qed.

Lemma veq_wfval v v' : wfval v -> veq v v' -> wfval v'.
Proof.
  revert v'; induction v as [ | | | | | l IH | d IH ] using pyval_ind'; intros v' Hw H;
    try (inversion H; subst; exact I).
  - apply veq_list_inv in H; destruct H as (l' & -> & HF); apply (proj1 (wfval_list _)) in Hw.
    apply (proj2 (wfval_list _)); induction HF as [|x y l l' Hxy HF IHF]; [constructor|].
    inversion IH; inversion Hw; subst; constructor; auto.
  - apply (proj1 (wfval_dict _)) in Hw; destruct Hw as [Hw Hf].
    destruct (veq_dict_In _ _ H) as (d' & -> & H1 & _ & H3); apply (proj2 (wfval_dict _)).
    split; [auto|]; rewrite Forall_forall in *; intros [k x'] Hin; cbn [snd].
    destruct (H1 _ _ Hin) as (x & Hx & Hv); apply (IH _ Hx); [apply (Hf _ Hx)|exact Hv].
Qed.

Lemma veq_sym v v' : wfval v -> veq v v' -> veq v' v.
Proof.
  revert v'; induction v as [ | | | | | l IH | d IH ] using pyval_ind'; intros v' Hw H;
    try (inversion H; subst; apply veq_atom; exact I).
  - apply veq_list_inv in H; destruct H as (l' & -> & HF); apply (proj1 (wfval_list _)) in Hw.
    apply veq_list; induction HF as [|x y l l' Hxy HF IHF]; [constructor|].
    inversion IH; inversion Hw; subst; constructor; auto.
  - pose proof (veq_wfval _ _ Hw H) as Hw'.
    apply (proj1 (wfval_dict _)) in Hw; destruct Hw as [Hw Hf].
    destruct (veq_dict_In _ _ H) as (d' & -> & _); apply (proj1 (wfval_dict _)) in Hw'; destruct Hw' as [Hw' _].
    apply veq_ext; [exact Hw'|exact Hw|]; apply (proj1 (veq_ext _ _ Hw Hw')) in H.
    intros k; specialize (H k); destruct (get k d) as [x|] eqn:E, (get k d') as [x'|]; try contradiction; try exact I.
    apply get_In in E; rewrite Forall_forall in IH, Hf; apply (IH _ E); [apply (Hf _ E)|exact H].
Qed.

Lemma veq_pyeq v v' : wfval v -> veq v v' -> pyeq v v' = true.
Proof.
  revert v'; induction v as [ | | | | | l IH | d IH ] using pyval_ind'; intros v' Hw H;
    try (inversion H; subst; cbn [pyeq]; try apply eqb_refl; reflexivity).
  - apply veq_list_inv in H; destruct H as (l' & -> & HF); apply (proj1 (wfval_list _)) in Hw.
    induction HF as [|x y l l' Hxy HF IHF]; [reflexivity|].
    inversion IH; inversion Hw; subst; cbn [pyeq]; rewrite (H1 y); auto.
  - pose proof (veq_wfval _ _ Hw H) as Hw'.
    apply (proj1 (wfval_dict _)) in Hw; destruct Hw as [Hw Hf].
    pose proof (veq_dict_inv _ _ H) as (e & d' & -> & Hp & HF).
    apply (proj1 (wfval_dict _)) in Hw'; destruct Hw' as [Hw' _].
    apply (proj1 (veq_ext _ _ Hw Hw')) in H.
    apply (proj2 (pyeq_dict _ _)); split.
    + rewrite (Permutation_length Hp); clear - HF; induction HF; cbn; congruence.
    + intros k x Hin; rewrite Forall_forall in IH, Hf.
      specialize (H k); rewrite (In_get k x d Hw Hin) in H.
      destruct (get k d') as [y|]; [|contradiction]; exists y; split; [reflexivity|].
      apply (IH _ Hin); [apply (Hf _ Hin)|exact H].
Qed.

Lemma pointwise_set k x x' d d' : pointwise d d' -> veq x x' -> pointwise (set k x d) (set k x' d').
Proof.
  intros H Hx i; rewrite !get_set; destruct (eqb i k); [exact Hx|apply H].
Qed.

Lemma pointwise_del k d d' : pointwise d d' -> pointwise (del k d) (del k d').
Proof.
  intros H i; rewrite !get_del; destruct (eqb i k); [exact I|apply H].
Qed.

(** ** Expansion *)
Lemma up_convert_veq v v' : veq v v' -> veq (up_convert v) (up_convert v').
Proof.
  intros H; pose proof (veq_cases _ _ H) as C; destruct v; try (subst v'; cbn [up_convert]; exact H).
  - subst v'; apply veq_list; constructor.
  - subst v'; apply veq_list; repeat constructor.
  - destruct C as (l' & -> & _); exact H.
  - destruct C as (d' & ->); exact H.
Qed.

Lemma expand_packages_veq d d' : wf d -> wf d' -> pointwise d d' ->
  pointwise (expand_packages d) (expand_packages d').
Proof.
  intros Hw Hw' H; unfold expand_packages; pose proof (H k_packages) as Hp.
  destruct (get k_packages d) as [x|], (get k_packages d') as [x'|]; try contradiction; [|exact H].
  apply pointwise_set; [exact H|apply up_convert_veq; exact Hp].
Qed.

Lemma pyeq_nil_veq v v' : veq v v' -> pyeq v (VList []) = pyeq v' (VList []).
Proof.
  intros H; pose proof (veq_cases _ _ H) as C; destruct v; try (subst v'; reflexivity).
  - destruct C as (l' & -> & HF); destruct HF; reflexivity.
  - destruct C as (d' & ->); reflexivity.
Qed.

Lemma expand_depends_veq d d' : wf d -> wf d' -> pointwise d d' ->
  pointwise (expand_depends d) (expand_depends d').
Proof.
  intros Hw Hw' H; unfold expand_depends; pose proof (H k_depends) as Hp.
  destruct (get k_depends d) as [x|], (get k_depends d') as [x'|]; try contradiction; [|exact H].
  apply up_convert_veq in Hp; rewrite (pyeq_nil_veq _ _ Hp).
  destruct (pyeq _ _); [apply pointwise_del; exact H|apply pointwise_set; assumption].
Qed.

Lemma expand_definition_veq v v' : wfval v -> veq v v' -> req (expand_definition v) (expand_definition v').
Proof.
  intros Hw H; unfold expand_definition.
  pose proof (wfval_up_convert v Hw) as Hw1; pose proof (up_convert_veq v v' H) as H1.
  pose proof (veq_wfval _ _ Hw1 H1) as Hw2; pose proof (veq_cases _ _ H1) as C.
  destruct (up_convert v) as [ | | | | | l | d ]; try (rewrite C; reflexivity);
    [destruct C as (l' & C & _)|destruct C as (d' & C)]; rewrite C in *.
  - cbn [req].
    assert (W : forall x, wf [(k_packages, x : pyval)]).
    { intros x; unfold wf; cbn; constructor; [intros []|constructor]. }
    apply veq_ext; try (apply wf_expand_depends, wf_expand_packages, W).
    apply expand_depends_veq; try (apply wf_expand_packages, W).
    apply expand_packages_veq; try apply W.
    intros k; rewrite !get_cons, !get_nil; destruct (eqb k k_packages); [exact H1|exact I].
  - cbn [req]; apply (proj1 (wfval_dict _)) in Hw1, Hw2; destruct Hw1 as [Hd _], Hw2 as [Hd' _].
    apply veq_ext; try (apply wf_expand_depends, wf_expand_packages; assumption).
    apply expand_depends_veq; try (apply wf_expand_packages; assumption).
    apply expand_packages_veq; try assumption; apply (proj1 (veq_ext _ _ Hd Hd')); exact H1.
Qed.

Lemma get_map_items f d d1 : map_items f d = Ok d1 -> forall k,
  match get k d with
  | Some x => exists y, f k x = Ok y /\ get k d1 = Some y
  | None => get k d1 = None
  end.
Proof.
  unfold map_items; revert d1; induction d as [|[k0 x0] d IH]; intros d1 H k.
  - injection H as <-; reflexivity.
  - cbn [mapM fst snd] in H; apply bind_Ok in H; destruct H as (p & E & H).
    apply bind_Ok in E; destruct E as (y & Ey & E); injection E as <-.
    apply bind_Ok in H; destruct H as (d2 & E2 & H); injection H as <-.
    rewrite !get_cons; destruct (eqb_spec k k0) as [->|Hk]; [eauto|apply IH; exact E2].
Qed.

Lemma map_items_veq f E0 d d' : wfval (VDict d) -> veq (VDict d) (VDict d') ->
  (forall k x x', wfval x -> veq x x' -> req (f k x) (f k x')) ->
  (forall k x e, f k x = Err e -> e = E0) ->
  req (let* r := map_items f d in Ok (VDict r)) (let* r := map_items f d' in Ok (VDict r)).
Proof.
  intros Hw H Hf He; pose proof (veq_wfval _ _ Hw H) as Hw'.
  apply (proj1 (wfval_dict _)) in Hw, Hw'; destruct Hw as [Hd Hall], Hw' as [Hd' _].
  rewrite Forall_forall in Hall.
  pose proof (proj1 (veq_ext _ _ Hd Hd') H) as Hp.
  assert (Hok : forall k x, In (k, x) d -> exists x', In (k, x') d' /\ req (f k x) (f k x')).
  { intros k x Hin; specialize (Hp k); rewrite (In_get k x d Hd Hin) in Hp.
    destruct (get k d') as [x'|] eqn:E; [|contradiction]; exists x'; split; [apply get_In; exact E|].
    apply Hf; [apply (Hall _ Hin)|exact Hp]. }
  assert (Hok' : forall k x', In (k, x') d' -> exists x, In (k, x) d /\ req (f k x) (f k x')).
  { intros k x' Hin; specialize (Hp k); rewrite (In_get k x' d' Hd' Hin) in Hp.
    destruct (get k d) as [x|] eqn:E; [|contradiction]; apply get_In in E; exists x; split; [exact E|].
    apply Hf; [apply (Hall _ E)|exact Hp]. }
  assert (T : forall e1, forall dd, map_items f dd = Err e1 -> e1 = E0).
  { intros e1 dd E; apply map_items_Err in E; destruct E as (k & x & _ & Ex); eapply He; exact Ex. }
  destruct (map_items f d) as [d1|e] eqn:E1, (map_items f d') as [d1'|e'] eqn:E1'; cbn [bind req].
  - destruct (map_items_In f d d1 E1) as [_ K1]; destruct (map_items_In f d' d1' E1') as [_ K2].
    apply veq_ext; [unfold wf; rewrite K1; exact Hd|unfold wf; rewrite K2; exact Hd'|]; intros k.
    pose proof (get_map_items f d d1 E1 k) as G; pose proof (get_map_items f d' d1' E1' k) as G'.
    specialize (Hp k); destruct (get k d) as [x|] eqn:Ex, (get k d') as [x'|]; try contradiction.
    + destruct G as (y & Ey & ->), G' as (y' & Ey' & ->); apply get_In in Ex.
      specialize (Hf k x x' (Hall _ Ex) Hp); rewrite Ey, Ey' in Hf; exact Hf.
    + rewrite G, G'; exact I.
  - apply map_items_Err in E1'; destruct E1' as (k & x' & Hin & Ex').
    destruct (Hok' k x' Hin) as (x & Hx & Hr).
    destruct (proj1 (map_items_total f d) (ex_intro _ d1 E1) k x Hx) as [y Ey].
    rewrite Ey, Ex' in Hr; exact Hr.
  - apply map_items_Err in E1; destruct E1 as (k & x & Hin & Ex).
    destruct (Hok k x Hin) as (x' & Hx & Hr).
    destruct (proj1 (map_items_total f d') (ex_intro _ d1' E1') k x' Hx) as [y Ey].
    rewrite Ex, Ey in Hr; exact Hr.
  - rewrite (T _ _ E1), (T _ _ E1'); reflexivity.
Qed.

Lemma veq_singleton k x x' : veq x x' -> veq (VDict [(k, x)]) (VDict [(k, x')]).
Proof. intros H; apply (veq_dict _ [(k, x)]); [apply Permutation_refl|]; constructor; auto. Qed.

Lemma wfval_singleton k x : wfval x -> wfval (VDict [(k, x)]).
Proof.
  intros H; apply (proj2 (wfval_dict _)); split; [|constructor; [exact H|constructor]].
  unfold wf; cbn; constructor; [intros []|constructor].
Qed.

Lemma expand_installer_veq v v' : wfval v -> veq v v' ->
  req (expand_installer_definition v) (expand_installer_definition v').
Proof.
  intros Hw H; unfold expand_installer_definition.
  pose proof (wfval_up_convert v Hw) as Hw1; pose proof (up_convert_veq v v' H) as H1.
  pose proof (veq_cases _ _ H1) as C.
  destruct (up_convert v) as [ | | | | | l | d ]; try (rewrite C; reflexivity);
    [destruct C as (l' & C & _)|destruct C as (d' & C)]; rewrite C in *.
  - apply (map_items_veq _ ValueError).
    + apply wfval_singleton; exact Hw1.
    + apply veq_singleton; exact H1.
    + intros _ x x'; apply expand_definition_veq.
    + intros _ x e; apply expand_definition_Err.
  - apply (map_items_veq _ ValueError); [exact Hw1|exact H1| |].
    + intros _ x x'; apply expand_definition_veq.
    + intros _ x e; apply expand_definition_Err.
Qed.

Lemma veq_length d d' : veq (VDict d) (VDict d') -> List.length d = List.length d'.
Proof.
  intros H; apply veq_dict_inv in H; destruct H as (e & d0 & E & Hp & HF); injection E as <-.
  rewrite (Permutation_length Hp); clear - HF; induction HF; cbn; congruence.
Qed.

Lemma veq_has d d' k : wfval (VDict d) -> veq (VDict d) (VDict d') -> has k d = has k d'.
Proof.
  intros Hw H; pose proof (veq_wfval _ _ Hw H) as Hw'.
  apply (proj1 (wfval_dict _)) in Hw, Hw'; destruct Hw as [Hd _], Hw' as [Hd' _].
  apply (proj1 (veq_ext _ _ Hd Hd')) in H; specialize (H k); unfold has.
  destruct (get k d), (get k d'); try contradiction; reflexivity.
Qed.

Lemma expand_version_veq os v v' : wfval v -> veq v v' ->
  req (expand_os_version_definition os v) (expand_os_version_definition os v').
Proof.
  intros Hw H; unfold expand_os_version_definition.
  pose proof (wfval_up_convert v Hw) as Hw1; pose proof (up_convert_veq v v' H) as H1.
  assert (Go : forall d d', wfval (VDict d) -> veq (VDict d) (VDict d') ->
    req (let* r := map_items (fun _ x => expand_installer_definition x) d in Ok (VDict r))
        (let* r := map_items (fun _ x => expand_installer_definition x) d' in Ok (VDict r))).
  { intros d d' Wd Hd; apply (map_items_veq _ ValueError); [exact Wd|exact Hd| |].
    - intros _ x x'; apply expand_installer_veq.
    - intros _ x e; apply expand_installer_Err. }
  assert (Sp : forall d d', wfval (VDict d) -> veq (VDict d) (VDict d') ->
    req (if eqb os (KStr any_os) then
           if has (KStr any_version) d then
             if Nat.eqb (List.length d) 1
             then let* r := map_items (fun _ x => expand_installer_definition x) d in Ok (VDict r)
             else Err ValueError
           else let* r := map_items (fun _ x => expand_installer_definition x) [(KStr any_version, VDict d)] in Ok (VDict r)
         else let* r := map_items (fun _ x => expand_installer_definition x) d in Ok (VDict r))
        (if eqb os (KStr any_os) then
           if has (KStr any_version) d' then
             if Nat.eqb (List.length d') 1
             then let* r := map_items (fun _ x => expand_installer_definition x) d' in Ok (VDict r)
             else Err ValueError
           else let* r := map_items (fun _ x => expand_installer_definition x) [(KStr any_version, VDict d')] in Ok (VDict r)
         else let* r := map_items (fun _ x => expand_installer_definition x) d' in Ok (VDict r))).
  { intros d d' Wd Hd; rewrite <- (veq_has d d' _ Wd Hd), <- (veq_length d d' Hd).
    destruct (eqb os (KStr any_os)); [|apply Go; assumption].
    destruct (has (KStr any_version) d).
    - destruct (Nat.eqb (List.length d) 1); [apply Go; assumption|reflexivity].
    - apply Go; [apply wfval_singleton; exact Wd|apply veq_singleton; exact Hd]. }
  pose proof (veq_cases _ _ H1) as C.
  destruct (up_convert v) as [ | | | | | l | d ]; try (rewrite C; reflexivity);
    [destruct C as (l' & C & _)|destruct C as (d' & C)]; rewrite C in *.
  - apply Sp; [apply wfval_singleton; exact Hw1|apply veq_singleton; exact H1].
  - apply Sp; assumption.
Qed.

Lemma expand_os_veq v v' : wfval v -> veq v v' -> req (expand_os_definition v) (expand_os_definition v').
Proof.
  intros Hw H; unfold expand_os_definition.
  pose proof (veq_cases _ _ H) as C.
  destruct v as [ | | | | | l | d ]; try (subst v'; reflexivity);
    [destruct C as (l' & -> & _); reflexivity|destruct C as (d' & ->)].
  apply (map_items_veq _ ValueError); [exact Hw|exact H| |].
  - intros k x x'; apply expand_version_veq.
  - intros k x e; apply expand_version_Err.
Qed.

Lemma expand_rules_veq v v' : wfval v -> veq v v' -> req (expand_rules v) (expand_rules v').
Proof.
  intros Hw H; unfold expand_rules.
  pose proof (veq_cases _ _ H) as C.
  destruct v as [ | | | | | l | d ]; try (subst v'; reflexivity);
    [subst v'|destruct C as (l' & -> & _); reflexivity|destruct C as (d' & ->)].
  - cbn [bind map_items mapM req]; apply veq_refl; exact (conj (NoDup_nil _) I).
  - apply (map_items_veq _ TypeError); [exact Hw|exact H| |].
    + intros _ x x' Wx Hx; pose proof (expand_os_veq x x' Wx Hx) as R; unfold wrap_err.
      destruct (expand_os_definition x) as [y|e], (expand_os_definition x') as [y'|e']; cbn [req] in R; try contradiction.
      * exact R.
      * subst e'; destruct e; exact eq_refl.
    + intros _ x e E; unfold wrap_err in E.
      destruct (expand_os_definition x) as [y|e0] eqn:E0; [discriminate|].
      apply expand_os_Err in E0; subst e0; congruence.
Qed.

(** ** Lookup *)

(** No installer dict that the lookup consults names both the keyword and the
    default installer. *)
Definition unamb (def : option text) (d : pydict) : Prop :=
  forall n, def = Some n -> n <> default_installer ->
    In (KStr default_installer) (map fst d) -> ~ In (KStr n) (map fst d).

Definition raw_entry (v : pyval) (key os version : text) (d : pydict) : Prop :=
  exists r od vd, v = VDict r /\ In (KStr key, VDict od) r /\ In (KStr os, VDict vd) od /\
                  In (KStr version, VDict d) vd.

Definition unamb_lookup (v : pyval) (key os version : text) (def : option text) : Prop :=
  forall d, raw_entry v key any_os any_version d \/ raw_entry v key os any_version d \/
            raw_entry v key os version d -> unamb def d.

Lemma raw_replace_inj def d k1 k2 i : unamb def d -> In k1 (map fst d) -> In k2 (map fst d) ->
  raw_replace k1 def = Ok i -> raw_replace k2 def = Ok i -> k1 = k2.
Proof.
  intros Hu H1 H2 E1 E2.
  assert (X : forall k, raw_replace k def = Ok i ->
    k = i \/ (k = KStr default_installer /\ exists n, def = Some n /\ i = KStr n /\ n <> default_installer)).
  { intros k E; destruct k as [s| | | ]; cbn [raw_replace] in E; try (injection E as E; left; exact E).
    apply bind_Ok in E; destruct E as (n & En & E); injection E as <-.
    unfold replace_default_installer in En; destruct (eqb_spec s default_installer) as [Hs|Hs].
    - subst s; destruct def as [[|c m]|]; try discriminate; injection En as <-.
      destruct (eqb_spec (c :: m) default_installer) as [->|Hd]; [left; reflexivity|].
      right; split; [reflexivity|]; exists (c :: m); auto.
    - injection En as <-; left; reflexivity. }
  destruct (X _ E1) as [->|(-> & n & Hn & -> & Hd)], (X _ E2) as [->|(-> & n' & Hn' & En' & Hd')]; auto.
  - subst i; elim (Hu n' Hn' Hd' H2 H1).
  - elim (Hu n Hn Hd H1 H2).
Qed.

Lemma raw_replace_Err k def e : raw_replace k def = Err e -> e = ValueError.
Proof.
  destruct k; cbn [raw_replace]; try discriminate; intros E.
  apply bind_Err in E; destruct E as [E|(n & _ & E)]; [|discriminate].
  unfold replace_default_installer in E; destruct (eqb _ _); [|discriminate].
  destruct def as [[|c m]|]; congruence.
Qed.

Definition put (def : option text) (c : pydict) (p : pkey * pyval) : res pydict :=
  let* n := raw_replace (fst p) def in Ok (set n (snd p) c).

Lemma put_all_get def d c c' : wf d -> unamb def d -> foldM (put def) d c = Ok c' ->
  (forall k x, In (k, x) d -> exists n, raw_replace k def = Ok n /\ get n c' = Some x) /\
  (forall i, (forall k x, In (k, x) d -> raw_replace k def <> Ok i) -> get i c' = get i c).
Proof.
  intros Hw Hu.
  assert (Hi : forall k1 k2 i, In k1 (map fst d) -> In k2 (map fst d) ->
            raw_replace k1 def = Ok i -> raw_replace k2 def = Ok i -> k1 = k2)
    by (intros k1 k2 i; apply raw_replace_inj; exact Hu).
  clear Hu; revert c; induction d as [|[k x] d IH]; intros c E.
  - injection E as <-; split; [intros k x []|reflexivity].
  - cbn [foldM] in E; apply bind_Ok in E; destruct E as (c1 & E1 & E).
    unfold put in E1; apply bind_Ok in E1; destruct E1 as (n & En & E1); injection E1 as <-; cbn [fst snd] in *.
    apply (proj1 (wf_cons _ _ _)) in Hw; destruct Hw as [Hk Hw].
    destruct (IH Hw) with (c := set n x c) as [I1 I2].
    + intros k1 k2 i H1 H2; apply Hi; right; assumption.
    + exact E.
    + split.
      * intros k0 x0 [Eq|Hin]; [injection Eq as <- <-|apply I1; exact Hin].
        exists n; split; [exact En|]; rewrite I2; [apply get_set_same|].
        intros k1 x1 Hin E1; assert (k1 = k).
        { apply (Hi k1 k n); auto; [right; apply in_map_iff; exists (k1, x1); auto|left; reflexivity]. }
        subst k1; apply In_get in Hin; [congruence|exact Hw].
      * intros i Hno; rewrite I2; [|intros k1 x1 Hin; apply (Hno k1 x1); right; exact Hin].
        apply get_set_other; intros ->; apply (Hno k x (or_introl eq_refl)); exact En.
Qed.

Lemma put_all_wf def d c c' : wf c -> foldM (put def) d c = Ok c' -> wf c'.
Proof.
  revert c; induction d as [|p d IH]; intros c Hc E; cbn [foldM] in E; [injection E as <-; exact Hc|].
  apply bind_Ok in E; destruct E as (c1 & E1 & E); unfold put in E1; apply bind_Ok in E1.
  destruct E1 as (n & _ & E1); injection E1 as <-; eapply IH; [|exact E]; apply wf_set; exact Hc.
Qed.

Lemma put_all_Err def d c e : foldM (put def) d c = Err e ->
  e = ValueError /\ exists k x, In (k, x) d /\ raw_replace k def = Err e.
Proof.
  revert c; induction d as [|[k x] d IH]; intros c E; cbn [foldM] in E; [discriminate|].
  apply bind_Err in E; destruct E as [E|(c1 & _ & E)].
  - unfold put in E; apply bind_Err in E; destruct E as [E|(n & _ & E)]; [|discriminate]; cbn [fst] in E.
    split; [eapply raw_replace_Err; exact E|exists k, x; split; [left; reflexivity|exact E]].
  - destruct (IH _ E) as (He & k' & x' & Hin & Hk); split; [exact He|exists k', x'; split; [right|]; assumption].
Qed.

Lemma put_all_Ok def d c : (forall k x, In (k, x) d -> exists n, raw_replace k def = Ok n) ->
  exists c', foldM (put def) d c = Ok c'.
Proof.
  revert c; induction d as [|[k x] d IH]; intros c H; cbn [foldM]; [eauto|].
  destruct (H k x (or_introl eq_refl)) as [n En]; assert (Ep : put def c (k, x) = Ok (set n x c)) by (unfold put; cbn [fst snd]; rewrite En; reflexivity).
  rewrite Ep; cbn [bind].
  apply IH; intros k' x' Hin; apply (H k' x'); right; exact Hin.
Qed.

Definition req_dict (x y : res pydict) : Prop :=
  match x, y with
  | Ok c, Ok c' => pointwise c c' /\ wf c /\ wf c'
  | Err e, Err e' => e = e' | _, _ => False
  end.

Lemma raw_merge_veq v v' c c' def : wfval v -> veq v v' -> pointwise c c' -> wf c -> wf c' ->
  (forall d, v = VDict d -> unamb def d) ->
  req_dict (raw_merge v c def) (raw_merge v' c' def).
Proof.
  intros Hw H Hc Wc Wc' Hu; pose proof (veq_cases _ _ H) as C.
  destruct v as [ | | | | | l | d ]; try (rewrite C; reflexivity);
    [destruct C as (l' & -> & _); reflexivity|destruct C as (d' & ->)].
  specialize (Hu d eq_refl); cbn [raw_merge].
  change (fun (c0 : pydict) (p : pkey * pyval) => let* n := raw_replace (fst p) def in Ok (set n (snd p) c0)) with (put def).
  pose proof (veq_wfval _ _ Hw H) as Hw'.
  apply (proj1 (wfval_dict _)) in Hw, Hw'; destruct Hw as [Hd _], Hw' as [Hd' _].
  destruct (veq_dict_In _ _ H) as (d1 & E & I1 & I2 & _); injection E as <-.
  apply (proj1 (veq_ext _ _ Hd Hd')) in H.
  assert (Hu' : unamb def d').
  { intros n Hn Hne H1 H2; apply (Hu n Hn Hne).
    - apply in_map_iff in H1; destruct H1 as ([k x] & Ek & Hin); cbn in Ek; subst k.
      destruct (I1 _ _ Hin) as (y & Hy & _); apply in_map_iff; exists (KStr default_installer, y); auto.
    - apply in_map_iff in H2; destruct H2 as ([k x] & Ek & Hin); cbn in Ek; subst k.
      destruct (I1 _ _ Hin) as (y & Hy & _); apply in_map_iff; exists (KStr n, y); auto. }
  destruct (foldM (put def) d c) as [r|e] eqn:E1, (foldM (put def) d' c') as [r'|e'] eqn:E2; cbn [req_dict].
  - destruct (put_all_get def d c r Hd Hu E1) as [A1 A2], (put_all_get def d' c' r' Hd' Hu' E2) as [B1 B2].
    split; [|split; [exact (put_all_wf _ _ _ _ Wc E1)|exact (put_all_wf _ _ _ _ Wc' E2)]].
    intros i.
    destruct (existsb (fun p => match raw_replace (fst p) def with Ok n => eqb n i | Err _ => false end) d) eqn:Ex.
    + apply existsb_exists in Ex; destruct Ex as ([k x] & Hin & Hx); cbn [fst] in Hx.
      destruct (A1 k x Hin) as (n & En & G); rewrite En in Hx; apply (proj1 (eqb_eq _ _)) in Hx; subst n.
      destruct (I2 _ _ Hin) as (x' & Hin' & Hv); destruct (B1 k x' Hin') as (n & En' & G').
      assert (n = i) by congruence; subst n; rewrite G, G'; exact Hv.
    + rewrite A2, B2; [apply Hc| |]; intros k x Hin Ek; rewrite <- not_true_iff_false in Ex; apply Ex, existsb_exists.
      * destruct (I1 _ _ Hin) as (y & Hy & _); exists (k, y); split; [exact Hy|]; cbn [fst]; rewrite Ek; apply eqb_refl.
      * exists (k, x); split; [exact Hin|]; cbn [fst]; rewrite Ek; apply eqb_refl.
  - apply put_all_Err in E2; destruct E2 as (_ & k & x' & Hin & Ek).
    destruct (I1 _ _ Hin) as (x & Hx & _); destruct (put_all_get def d c r Hd Hu E1) as [A1 _].
    destruct (A1 k x Hx) as (n & En & _); congruence.
  - apply put_all_Err in E1; destruct E1 as (_ & k & x & Hin & Ek).
    destruct (I2 _ _ Hin) as (x' & Hx & _); destruct (put_all_get def d' c' r' Hd' Hu' E2) as [A1 _].
    destruct (A1 k x' Hx) as (n & En & _); congruence.
  - apply put_all_Err in E1, E2; destruct E1 as [-> _], E2 as [-> _]; reflexivity.
Qed.

Lemma raw_get_veq k v v' : wfval v -> veq v v' -> req (raw_get k v) (raw_get k v').
Proof.
  intros Hw H; pose proof (veq_cases _ _ H) as C.
  destruct v as [ | | | | | l | d ]; try (rewrite C; reflexivity);
    [destruct C as (l' & -> & _); reflexivity|destruct C as (d' & ->)].
  cbn [raw_get req]; pose proof (veq_wfval _ _ Hw H) as Hw'.
  apply (proj1 (wfval_dict _)) in Hw, Hw'; destruct Hw as [Hd _], Hw' as [Hd' _].
  apply (proj1 (veq_ext _ _ Hd Hd')) in H; specialize (H (KStr k)).
  destruct (get (KStr k) d), (get (KStr k) d'); try contradiction; [exact H|].
  apply veq_refl; exact (conj (NoDup_nil _) I).
Qed.

Lemma raw_get_wfval k v x : wfval v -> raw_get k v = Ok x -> wfval x.
Proof.
  destruct v as [ | | | | | l | d ]; cbn [raw_get]; intros Hw E; try discriminate.
  injection E as <-; destruct (get (KStr k) d) eqn:E; [|exact (conj (NoDup_nil _) I)].
  apply get_In in E; apply (proj1 (wfval_dict _)) in Hw; destruct Hw as [_ Hf]; rewrite Forall_forall in Hf; apply (Hf _ E).
Qed.

(** The dict found by three successive accesses is an entry of the file, or empty. *)
Lemma raw_get_entry v key os ver od vd d :
  raw_get key v = Ok od -> raw_get os od = Ok vd -> raw_get ver vd = Ok (VDict d) ->
  d = [] \/ raw_entry v key os ver d.
Proof.
  destruct v as [ | | | | | l | r ]; cbn [raw_get]; intros E1 E2 E3; try discriminate; injection E1 as E1.
  destruct od as [ | | | | | l | od ]; cbn [raw_get] in E2; try discriminate; injection E2 as E2.
  destruct vd as [ | | | | | l | vd ]; cbn [raw_get] in E3; try discriminate; injection E3 as E3.
  destruct (get (KStr ver) vd) eqn:G3; [|left; congruence]; subst p; apply get_In in G3.
  destruct (get (KStr os) od) eqn:G2; [|injection E2 as <-; contradiction]; subst p; apply get_In in G2.
  destruct (get (KStr key) r) eqn:G1; [|injection E1 as <-; contradiction]; subst p; apply get_In in G1.
  right; exists r, od, vd; auto.
Qed.

Lemma unamb_nil def : unamb def [].
Proof. intros n _ _ []. Qed.

Lemma raw_lookup_veq v v' key os ver def : wfval v -> veq v v' -> unamb_lookup v key os ver def ->
  req (raw_lookup v key os ver def) (raw_lookup v' key os ver def).
Proof.
  intros Hw H Hu; unfold raw_lookup.
  assert (Step : forall k (x x' : pyval) (f f' : pyval -> res pyval), wfval x -> veq x x' ->
     (forall y y', raw_get k x = Ok y -> wfval y -> veq y y' -> req (f y) (f' y')) ->
     req (let* y := raw_get k x in f y) (let* y := raw_get k x' in f' y)).
  { intros k x x' f f' Wx Hx Hf; pose proof (raw_get_veq k x x' Wx Hx) as R.
    destruct (raw_get k x) as [y|e] eqn:E, (raw_get k x') as [y'|e']; cbn [req] in R; try contradiction; cbn [bind].
    - apply Hf; [reflexivity|eapply raw_get_wfval; eassumption|exact R].
    - exact R. }
  apply Step; [exact Hw|exact H|]; intros od od' E0 W0 V0.
  apply Step; [exact W0|exact V0|]; intros vd vd' E1 W1 V1.
  apply Step; [exact W0|exact V0|]; intros ao ao' E2 W2 V2.
  apply Step; [exact W2|exact V2|]; intros a a' E3 W3 V3.
  apply Step; [exact W1|exact V1|]; intros b b' E4 W4 V4.
  apply Step; [exact W1|exact V1|]; intros c c' E5 W5 V5.
  assert (Merge : forall x x' m m' (f f' : pydict -> res pyval), wfval x -> veq x x' -> pointwise m m' -> wf m -> wf m' ->
     (forall d, x = VDict d -> unamb def d) ->
     (forall r r', pointwise r r' -> wf r -> wf r' -> req (f r) (f' r')) ->
     req (let* r := raw_merge x m def in f r) (let* r := raw_merge x' m' def in f' r)).
  { intros x x' m m' f f' Wx Vx Pm Wm Wm' Ux Hf; pose proof (raw_merge_veq x x' m m' def Wx Vx Pm Wm Wm' Ux) as R.
    destruct (raw_merge x m def), (raw_merge x' m' def); cbn [req_dict] in R; try contradiction; cbn [bind].
    - destruct R as (P & Q & S); apply Hf; assumption.
    - exact R. }
  apply Merge; [exact W3|exact V3|intros k; exact I|constructor|constructor| |].
  { intros d ->; destruct (raw_get_entry v key any_os any_version _ _ d E0 E2 E3) as [->|R];
      [apply unamb_nil|apply Hu; auto]. }
  intros m1 m1' P1 X1 Y1; apply Merge; [exact W4|exact V4|exact P1|exact X1|exact Y1| |].
  { intros d ->; destruct (raw_get_entry v key os any_version _ _ d E0 E1 E4) as [->|R];
      [apply unamb_nil|apply Hu; auto]. }
  intros m2 m2' P2 X2 Y2; apply Merge; [exact W5|exact V5|exact P2|exact X2|exact Y2| |].
  { intros d ->; destruct (raw_get_entry v key os ver _ _ d E0 E1 E5) as [->|R];
      [apply unamb_nil|apply Hu; auto]. }
  intros m3 m3' P3 X3 Y3; cbn [req]; apply veq_ext; assumption.
Qed.

(** ** Sources and database *)
Lemma put_all_Forall (P : pyval -> Prop) def d c c' : Forall (fun p => P (snd p)) d -> Forall (fun p => P (snd p)) c ->
  foldM (put def) d c = Ok c' -> Forall (fun p => P (snd p)) c'.
Proof.
  intros Hd; revert c; induction Hd as [|[k x] d Hx Hd IH]; intros c Hc E; cbn [foldM] in E; [injection E as <-; exact Hc|].
  apply bind_Ok in E; destruct E as (c1 & E1 & E); unfold put in E1; apply bind_Ok in E1.
  destruct E1 as (n & _ & E1); injection E1 as <-; cbn [fst snd] in *; eapply IH; [|exact E].
  rewrite Forall_forall in *; intros [k' x'] Hin; apply In_set in Hin; destruct Hin as [[-> ->]|Hin]; [exact Hx|apply (Hc _ Hin)].
Qed.

Lemma raw_merge_wfval v c def c' : wfval v -> wfval (VDict c) -> raw_merge v c def = Ok c' -> wfval (VDict c').
Proof.
  destruct v as [ | | | | | l | d ]; try discriminate; intros Hw Hc E; cbn [raw_merge] in E.
  apply (proj1 (wfval_dict _)) in Hw, Hc; destruct Hw as [Wd Fd], Hc as [Wc Fc].
  apply (proj2 (wfval_dict _)); split; [exact (put_all_wf _ _ _ _ Wc E)|exact (put_all_Forall wfval _ _ _ _ Fd Fc E)].
Qed.

Lemma wfval_nil : wfval (VDict []).
Proof. exact (conj (NoDup_nil _) I). Qed.

Lemma raw_lookup_wfval v key os ver def o : wfval v -> raw_lookup v key os ver def = Ok o -> wfval o.
Proof.
  unfold raw_lookup; intros Hw E.
  apply bind_Ok in E; destruct E as (od & E0 & E); apply bind_Ok in E; destruct E as (vd & E1 & E).
  apply bind_Ok in E; destruct E as (ao & E2 & E); apply bind_Ok in E; destruct E as (a & E3 & E).
  apply bind_Ok in E; destruct E as (b & E4 & E); apply bind_Ok in E; destruct E as (c & E5 & E).
  apply bind_Ok in E; destruct E as (m1 & M1 & E); apply bind_Ok in E; destruct E as (m2 & M2 & E).
  apply bind_Ok in E; destruct E as (m3 & M3 & E); injection E as <-.
  pose proof (raw_get_wfval _ _ _ Hw E0) as W0.
  pose proof (raw_get_wfval _ _ _ W0 E1) as W1; pose proof (raw_get_wfval _ _ _ W0 E2) as W2.
  pose proof (raw_get_wfval _ _ _ W2 E3) as W3; pose proof (raw_get_wfval _ _ _ W1 E4) as W4.
  pose proof (raw_get_wfval _ _ _ W1 E5) as W5.
  eapply raw_merge_wfval; [exact W5| |exact M3]; eapply raw_merge_wfval; [exact W4| |exact M2].
  eapply raw_merge_wfval; [exact W3|apply wfval_nil|exact M1].
Qed.

Lemma verify_installer_dict_veq uni v v' b : wfval v -> veq v v' ->
  verify_installer_dict uni v b = verify_installer_dict uni v' b.
Proof.
  intros Hw H.
  assert (X : forall x y, veq x y -> verify_installer_dict uni x b = Ok tt -> verify_installer_dict uni y b = Ok tt).
  { intros x y Hxy E; apply verify_installer_dict_Ok in E; apply verify_installer_dict_Ok.
    eapply installer_dict_ok_veq; eassumption. }
  destruct (verify_installer_dict uni v b) as [[]|e] eqn:E1, (verify_installer_dict uni v' b) as [[]|e'] eqn:E2; auto.
  - rewrite (X _ _ H E1) in E2; discriminate.
  - apply veq_sym in H; [|exact Hw]; rewrite (X _ _ H E2) in E1; discriminate.
  - apply verify_installer_dict_Err in E1, E2; congruence.
Qed.

Lemma source_lookup_veq uni yaml s s' key ic :
  s_spec s = rules_spec uni yaml -> s_spec s' = rules_spec uni yaml ->
  wfval (s_data s) -> veq (s_data s) (s_data s') ->
  unamb_lookup (s_data s) key (ic_os ic) (ic_version ic) (ic_default ic) ->
  req (source_lookup uni s key ic) (source_lookup uni s' key ic).
Proof.
  intros Es Es' Hw H Hu; unfold source_lookup; rewrite Es, Es'; cbn [sp_lookup rules_spec].
  pose proof (raw_lookup_veq _ _ key _ _ _ Hw H Hu) as R.
  destruct (raw_lookup (s_data s) key (ic_os ic) (ic_version ic) (ic_default ic)) as [d|e] eqn:E,
    (raw_lookup (s_data s') key (ic_os ic) (ic_version ic) (ic_default ic)) as [d'|e']; cbn [req] in R; try contradiction; cbn [bind].
  - rewrite <- (verify_installer_dict_veq uni d d' false); [|eapply raw_lookup_wfval; eassumption|exact R].
    destruct (verify_installer_dict uni d false); [exact R|reflexivity].
  - exact R.
Qed.

Definition same_rules_source uni yaml key ic (s s' : source) : Prop :=
  s_spec s = rules_spec uni yaml /\ s_spec s' = rules_spec uni yaml /\
  wfval (s_data s) /\ veq (s_data s) (s_data s') /\
  unamb_lookup (s_data s) key (ic_os ic) (ic_version ic) (ic_default ic).

Lemma Forall2_rev {A B} (P : A -> B -> Prop) l l' : Forall2 P l l' -> Forall2 P (rev l) (rev l').
Proof. intros H; induction H; cbn [rev]; [constructor|]; apply Forall2_app; auto. Qed.

Lemma db_lookup_veq uni yaml l l' key ic : Forall2 (same_rules_source uni yaml key ic) l l' ->
  req_dict (db_lookup uni l key ic) (db_lookup uni l' key ic).
Proof.
  intros H; unfold db_lookup; apply Forall2_rev in H.
  assert (X : forall acc acc', pointwise acc acc' -> wf acc -> wf acc' ->
    req_dict (foldM (fun acc s => let* new := source_lookup uni s key ic in raw_merge new acc None) (rev l) acc)
             (foldM (fun acc s => let* new := source_lookup uni s key ic in raw_merge new acc None) (rev l') acc')).
  { induction H as [|s s' r r' (Es & Es' & Hw & Hv & Hu) H IH]; intros acc acc' Pa Wa Wa'; cbn [foldM].
    - cbn [req_dict]; auto.
    - pose proof (source_lookup_veq uni yaml s s' key ic Es Es' Hw Hv Hu) as R.
      destruct (source_lookup uni s key ic) as [d|e] eqn:E, (source_lookup uni s' key ic) as [d'|e'];
        cbn [req] in R; try contradiction; cbn [bind].
      + assert (Wd : wfval d).
        { unfold source_lookup in E; apply bind_Ok in E; destruct E as (d0 & E & E').
          apply bind_Ok in E'; destruct E' as (_ & _ & E'); injection E' as <-.
          rewrite Es in E; eapply raw_lookup_wfval; [exact Hw|exact E]. }
        pose proof (raw_merge_veq d d' acc acc' None Wd R Pa Wa Wa') as M.
        assert (U : forall d0, d = VDict d0 -> unamb None d0) by (intros d0 _ n D; discriminate).
        specialize (M U); destruct (raw_merge d acc None), (raw_merge d' acc' None); cbn [req_dict] in M; try contradiction; cbn [bind].
        * destruct M as (P1 & P2 & P3); apply IH; assumption.
        * exact M.
      + exact R. }
  apply X; [intros k; exact I|constructor|constructor].
Qed.
