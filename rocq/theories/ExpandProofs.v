(** Proofs about expansion (C13-C15). *)
From Verif Require Import Base Dict PyVal RulesDict Verify Expand ExpandSpec.

Lemma up_convert_listed v : listed v (up_convert v).
Proof. destruct v; simpl; constructor; congruence. Qed.

Lemma listed_up_convert v w : listed v w -> w = up_convert v.
Proof. intros [| |v' A B]; [reflexivity|reflexivity|]; destruct v'; simpl; congruence. Qed.

Lemma up_convert_idem v : up_convert (up_convert v) = up_convert v.
Proof. destruct v; reflexivity. Qed.

Lemma scalar_up v : scalar v <-> exists l, up_convert v = VList l.
Proof.
  unfold scalar; destruct v; simpl; split; eauto 6; try (intros [?|[[? ?]|[? ?]]]; congruence);
    intros [? ?]; congruence.
Qed.

Lemma up_convert_dict v d : up_convert v = VDict d <-> v = VDict d.
Proof. destruct v; simpl; split; congruence. Qed.

(** ** map_items *)
Lemma map_items_Ok f d d' :
  map_items f d = Ok d' <->
  Forall2 (fun p q => fst p = fst q /\ f (fst p) (snd p) = Ok (snd q)) d d'.
Proof.
  unfold map_items; rewrite mapM_Ok; split; intros F;
    induction F as [|[k x] [k' y] d d' Hp HF IH]; constructor; auto; simpl in *.
  - apply bind_Ok in Hp; destruct Hp as (y' & Hy & E); injection E as <- <-; auto.
  - destruct Hp as [<- ->]; reflexivity.
Qed.

Lemma map_items_total f d :
  (exists d', map_items f d = Ok d') <-> forall k x, In (k, x) d -> exists y, f k x = Ok y.
Proof.
  split.
  - intros (d' & E) k x Hin; apply map_items_Ok in E.
    induction E as [|p q d d' [Hk Hf] HF IH]; [destruct Hin|].
    destruct Hin as [->|Hin]; [eauto|auto].
  - induction d as [|[k x] d IH]; intros Hall; [exists []; reflexivity|].
    destruct (Hall k x (or_introl eq_refl)) as [y Hy].
    destruct IH as [d' Hd']; [intros k' x' Hin; apply Hall; right; exact Hin|].
    exists ((k, y) :: d'); unfold map_items in *; simpl; rewrite Hy; simpl; rewrite Hd'; reflexivity.
Qed.

Lemma map_items_In f d d' :
  map_items f d = Ok d' ->
  (forall k y, In (k, y) d' <-> exists x, In (k, x) d /\ f k x = Ok y) /\
  keys d' = keys d.
Proof.
  intros E; apply map_items_Ok in E; split.
  - intros k y; induction E as [|[k0 x0] [k1 y1] d d' [Hk Hf] HF IH]; simpl in *.
    + split; [tauto|intros (x & [] & _)].
    + subst k1; rewrite IH; split.
      * intros [E|(x & Hx & Hy)]; [injection E as <- <-; eauto|eauto].
      * intros (x & [E|Hx] & Hy); [injection E as <- <-; left; congruence|eauto].
  - induction E as [|p q d d' [Hk Hf] HF IH]; simpl; [reflexivity|]; congruence.
Qed.

Lemma map_items_Err f d e :
  map_items f d = Err e -> exists k x, In (k, x) d /\ f k x = Err e.
Proof.
  intros H; apply mapM_Err in H; destruct H as ([k x] & Hin & Hx); simpl in Hx.
  apply bind_Err in Hx; destruct Hx as [Hx|(y & _ & Hx)]; [eauto|discriminate].
Qed.

Lemma map_items_fix f d :
  (forall k x, In (k, x) d -> f k x = Ok x) -> map_items f d = Ok d.
Proof.
  intros Hall; apply map_items_Ok; induction d as [|[k x] d IH]; constructor; simpl.
  - split; [reflexivity|]; apply Hall; left; reflexivity.
  - apply IH; intros k' x' Hin; apply Hall; right; exact Hin.
Qed.

Lemma map_items_idem f d d' :
  (forall k x y, In (k, x) d -> f k x = Ok y -> f k y = Ok y) ->
  map_items f d = Ok d' -> map_items f d' = Ok d'.
Proof.
  intros Hf E; apply map_items_fix; intros k y Hin.
  destruct (map_items_In _ _ _ E) as [HI _]; apply HI in Hin; destruct Hin as (x & Hx & Hy); eauto.
Qed.

(** ** Rules *)
Lemma set_cons (k k' : pkey) (v v' : pyval) d :
  set k v ((k', v') :: d) = if eqb k k' then (k', v) :: d else (k', v') :: set k v d.
Proof. reflexivity. Qed.

Lemma del_cons (k k' : pkey) (v' : pyval) (d : pydict) :
  del k ((k', v') :: d) = if eqb k k' then del k d else (k', v') :: del k d.
Proof. unfold del; simpl; destruct (eqb k k'); reflexivity. Qed.

Lemma del_fresh (k : pkey) (d : pydict) : get k d = None -> del k d = d.
Proof.
  induction d as [|[k' v'] d IH]; [reflexivity|]; rewrite get_cons, del_cons.
  destruct (eqb k k'); [discriminate|]; intros E; rewrite IH; auto.
Qed.

Lemma eqb_dp : eqb k_depends k_packages = false. Proof. reflexivity. Qed.
Lemma eqb_pd : eqb k_packages k_depends = false. Proof. reflexivity. Qed.

Lemma expand_packages_cons_other k x d :
  k <> k_packages -> expand_packages ((k, x) :: d) = (k, x) :: expand_packages d.
Proof.
  intros Hn; unfold expand_packages; rewrite get_cons.
  destruct (eqb_spec k_packages k) as [E|_]; [congruence|].
  destruct (get k_packages d); [|reflexivity]; rewrite set_cons.
  destruct (eqb_spec k_packages k) as [E|_]; [congruence|reflexivity].
Qed.

Lemma expand_packages_cons_same x d :
  expand_packages ((k_packages, x) :: d) = (k_packages, up_convert x) :: d.
Proof. unfold expand_packages; rewrite get_cons, eqb_refl, set_cons, eqb_refl; reflexivity. Qed.

Lemma expand_depends_cons_other k x d :
  k <> k_depends -> expand_depends ((k, x) :: d) = (k, x) :: expand_depends d.
Proof.
  intros Hn; unfold expand_depends; rewrite get_cons.
  destruct (eqb_spec k_depends k) as [E|Hk]; [congruence|].
  destruct (get k_depends d); [|reflexivity].
  destruct (pyeq _ _); [rewrite del_cons|rewrite set_cons];
    destruct (eqb_spec k_depends k) as [E|_]; congruence.
Qed.

Lemma expand_depends_cons_same x d :
  get k_depends d = None ->
  expand_depends ((k_depends, x) :: d) =
  if pyeq (up_convert x) (VList []) then d else (k_depends, up_convert x) :: d.
Proof.
  intros Hd; unfold expand_depends; rewrite get_cons, eqb_refl.
  destruct (pyeq _ _); [rewrite del_cons|rewrite set_cons]; rewrite eqb_refl; [|reflexivity].
  apply del_fresh; assumption.
Qed.

Lemma expand_packages_fresh d : get k_packages d = None -> expand_packages d = d.
Proof. intros E; unfold expand_packages; rewrite E; reflexivity. Qed.
Lemma expand_depends_fresh d : get k_depends d = None -> expand_depends d = d.
Proof. intros E; unfold expand_depends; rewrite E; reflexivity. Qed.

Lemma get_expand_packages_depends d : get k_depends (expand_packages d) = get k_depends d.
Proof.
  unfold expand_packages; destruct (get k_packages d); [|reflexivity].
  apply get_set_other; discriminate.
Qed.

Lemma options_mean_expand d :
  wf d -> options_mean d (expand_depends (expand_packages d)).
Proof.
  induction d as [|[k x] d IH]; intros Hw; [constructor|].
  apply wf_cons in Hw; destruct Hw as [Hk Hw]; specialize (IH Hw).
  destruct (eqb_spec k k_packages) as [->|Hp].
  - rewrite expand_packages_cons_same, expand_depends_cons_other by discriminate.
    rewrite <- (expand_packages_fresh d Hk) at 2; constructor; [apply up_convert_listed|exact IH].
  - rewrite expand_packages_cons_other by assumption.
    destruct (eqb_spec k k_depends) as [->|Hd].
    + rewrite expand_depends_cons_same by (rewrite get_expand_packages_depends; exact Hk).
      rewrite expand_depends_fresh in IH by (rewrite get_expand_packages_depends; exact Hk).
      destruct (pyeq _ _) eqn:E.
      * apply pyeq_list_nil_r in E; apply om_no_depends; [|exact IH].
        rewrite <- E; apply up_convert_listed.
      * apply om_depends; [apply up_convert_listed| |exact IH].
        intros Hn; apply pyeq_list_nil_r in Hn; congruence.
    + rewrite expand_depends_cons_other by assumption; constructor; assumption.
Qed.

Lemma options_mean_det d d1 d2 : options_mean d d1 -> options_mean d d2 -> d1 = d2.
Proof.
  intros H1; revert d2; induction H1 as
    [|x y d d' Hl Hm IH|x d d' Hl Hm IH|x y d d' Hl Hn Hm IH|k x d d' Np Nd Hm IH];
    intros d2 H2; inversion H2; subst; try congruence;
    repeat match goal with H : listed _ _ |- _ => apply listed_up_convert in H end;
    subst;
    try (exfalso; match goal with H : ?a <> ?b |- _ => apply H; reflexivity end);
    first [congruence | f_equal; auto; fail | auto].
Qed.

Lemma rule_means_expand v r : wfval v -> (rule_means v r <-> expand_definition v = Ok r).
Proof.
  intros Hw; split.
  - intros H; destruct H as [v l Hs Hl|d d' Hm].
    + apply listed_up_convert in Hl; subst l; apply scalar_up in Hs; destruct Hs as [l Hl].
      unfold expand_definition; rewrite Hl; reflexivity.
    + unfold expand_definition; simpl; do 2 f_equal.
      eapply options_mean_det; [apply options_mean_expand|exact Hm].
      apply wfval_dict in Hw; apply Hw.
  - unfold expand_definition; destruct (up_convert v) as [| | | | |l|d] eqn:E; try discriminate.
    + intros Er; injection Er as <-.
      change (rule_means v (VDict [(S "packages", VList l)])); constructor.
      * apply scalar_up; eauto.
      * rewrite <- E; apply up_convert_listed.
    + apply (proj1 (up_convert_dict _ _)) in E; subst v; intros Er; injection Er as <-; constructor.
      apply options_mean_expand; apply wfval_dict in Hw; apply Hw.
Qed.

Lemma expand_definition_shape v : (exists r, expand_definition v = Ok r) <-> definition_shape v.
Proof.
  unfold definition_shape; rewrite scalar_up; unfold expand_definition.
  destruct (up_convert v) as [| | | | |l|d] eqn:E;
    try (split; [intros [? ?]; discriminate|
                 intros [[? ?]|[d ->]]; [discriminate|simpl in E; discriminate]]).
  - split; [eauto|]; intros _; eauto.
  - split; [|eauto]; intros _; right; exists d; apply (proj1 (up_convert_dict _ _)); assumption.
Qed.

Lemma expand_definition_Err v e : expand_definition v = Err e -> e = ValueError.
Proof. unfold expand_definition; destruct (up_convert v); congruence. Qed.

Lemma wf_expand_packages d : wf d -> wf (expand_packages d).
Proof. unfold expand_packages; destruct (get k_packages d); [apply wf_set|auto]. Qed.
Lemma wf_expand_depends d : wf d -> wf (expand_depends d).
Proof.
  unfold expand_depends; destruct (get k_depends d); [|auto].
  destruct (pyeq _ _); [apply wf_del|apply wf_set].
Qed.

Lemma options_mean_idem d d' : options_mean d d' -> options_mean d' d'.
Proof.
  assert (L : forall x y, listed x y -> listed y y).
  { intros x y H; apply listed_up_convert in H; subst y; destruct x; simpl; constructor; congruence. }
  induction 1; try (constructor; eauto; fail); auto.
Qed.

Lemma wfval_list_nil : wfval (VList []). Proof. exact I. Qed.

Lemma wfval_up_convert v : wfval v -> wfval (up_convert v).
Proof. destruct v; simpl; auto. Qed.

Lemma Forall_set_pk (P : pkey * pyval -> Prop) k x (d : pydict) :
  P (k, x) -> Forall P d -> Forall P (set k x d).
Proof.
  intros Hp Hd; rewrite Forall_forall in *; intros [k' x'] Hin.
  apply In_set in Hin; destruct Hin as [[-> ->]|Hin]; auto.
Qed.

Lemma wfval_expand_definition v r : wfval v -> expand_definition v = Ok r -> wfval r.
Proof.
  intros Hw E.
  assert (G : forall d, wfval (VDict d) -> wfval (VDict (expand_depends (expand_packages d)))).
  { clear; intros d Hw; apply wfval_dict in Hw; destruct Hw as [Hw Hf]; apply wfval_dict.
    split; [apply wf_expand_depends, wf_expand_packages, Hw|].
    assert (Hf1 : Forall (fun p => wfval (snd p)) (expand_packages d)).
    { unfold expand_packages; destruct (get k_packages d) as [x|] eqn:Ex; [|assumption].
      apply Forall_set_pk; [|assumption]; simpl; apply wfval_up_convert.
      apply get_In in Ex; rewrite Forall_forall in Hf; apply (Hf _ Ex). }
    unfold expand_depends; destruct (get k_depends (expand_packages d)) as [x|] eqn:Ex; [|assumption].
    destruct (pyeq _ _).
    - rewrite Forall_forall in *; intros p Hp; apply In_del in Hp; apply Hf1, Hp.
    - apply Forall_set_pk; [|assumption]; simpl; apply wfval_up_convert.
      apply get_In in Ex; rewrite Forall_forall in Hf1; apply (Hf1 _ Ex). }
  unfold expand_definition in E; pose proof (wfval_up_convert _ Hw) as Hu.
  destruct (up_convert v) as [| | | | |l|d]; try discriminate; injection E as <-; apply G; auto.
  apply wfval_dict; split; [repeat constructor; simpl; tauto|]; repeat constructor; exact Hu.
Qed.

Lemma expand_definition_idem v r : wfval v -> expand_definition v = Ok r -> expand_definition r = Ok r.
Proof.
  intros Hw E; pose proof (wfval_expand_definition _ _ Hw E) as Hr.
  apply rule_means_expand in E; [|assumption]; apply rule_means_expand; [assumption|].
  destruct E as [v l Hs Hl|d d' Hm]; apply rm_dict.
  - constructor; [|constructor]; apply listed_up_convert in Hl; subst l.
    pose proof (up_convert_listed (up_convert v)) as HL; rewrite up_convert_idem in HL; exact HL.
  - eapply options_mean_idem; eassumption.
Qed.

(** ** Installer level *)
Definition items_of (k : text) (v : pyval) : option pydict :=
  match up_convert v with
  | VList l => Some [(KStr k, VList l)]
  | VDict d => Some d
  | _ => None
  end.

Lemma expand_installer_unfold v :
  expand_installer_definition v =
  match items_of default_installer v with
  | Some d => let* d' := map_items (fun _ x => expand_definition x) d in Ok (VDict d')
  | None => Err ValueError
  end.
Proof. unfold expand_installer_definition, items_of; destruct (up_convert v); reflexivity. Qed.

Lemma items_of_cases k v d :
  items_of k v = Some d -> (scalar v /\ d = [(KStr k, up_convert v)]) \/ v = VDict d.
Proof.
  unfold items_of; destruct (up_convert v) as [| | | | |l|d'] eqn:E; try discriminate; intros H; injection H as <-.
  - left; split; [apply scalar_up; eauto|reflexivity].
  - right; apply (proj1 (up_convert_dict _ _)); assumption.
Qed.

Lemma items_of_None k v : items_of k v = None <-> ~ definition_shape v.
Proof.
  unfold definition_shape, items_of; rewrite scalar_up.
  destruct (up_convert v) as [| | | | |l|d] eqn:E;
    try (split; [intros _ [[? ?]|[d ->]]; [discriminate|simpl in E; discriminate]|reflexivity]).
  - split; [discriminate|]; intros H; elim H; eauto.
  - split; [discriminate|]; intros H; elim H; right; exists d; apply (proj1 (up_convert_dict _ _)); assumption.
Qed.

(** Expanding the definition of a scalar and of its list form is the same. *)
Lemma expand_definition_up v : expand_definition (up_convert v) = expand_definition v.
Proof. unfold expand_definition; rewrite up_convert_idem; reflexivity. Qed.
Lemma items_of_up k v : items_of k (up_convert v) = items_of k v.
Proof. unfold items_of; rewrite up_convert_idem; reflexivity. Qed.
Lemma expand_installer_up v : expand_installer_definition (up_convert v) = expand_installer_definition v.
Proof. rewrite !expand_installer_unfold, items_of_up; reflexivity. Qed.

Lemma wfval_items k v d : wfval v -> items_of k v = Some d -> wfval (VDict d).
Proof.
  intros Hw E; apply items_of_cases in E; destruct E as [[_ ->]| ->]; [|assumption].
  apply wfval_dict; split; [repeat constructor; simpl; tauto|]; repeat constructor.
  apply wfval_up_convert; assumption.
Qed.

Lemma wfval_In d k x : wfval (VDict d) -> In (k, x) d -> wfval x.
Proof.
  intros Hw Hin; apply wfval_dict in Hw; destruct Hw as [_ Hf].
  rewrite Forall_forall in Hf; apply (Hf _ Hin).
Qed.

Lemma map_items_wf f d d' :
  wfval (VDict d) -> (forall k x y, In (k, x) d -> f k x = Ok y -> wfval y) ->
  map_items f d = Ok d' -> wfval (VDict d').
Proof.
  intros Hw Hf E; destruct (map_items_In _ _ _ E) as [HI HK]; apply wfval_dict; split.
  - unfold wf; rewrite HK; apply wfval_dict in Hw; apply Hw.
  - apply Forall_forall; intros [k y] Hin; apply HI in Hin; destruct Hin as (x & Hx & Hy); eauto.
Qed.

Lemma expand_installer_Ok v v' :
  wfval v -> expand_installer_definition v = Ok v' ->
  exists d', v' = VDict d' /\ wfval v' /\
    (forall i r, In (i, r) d' <-> exists x, installer_means v i x /\ rule_means x r).
Proof.
  rewrite expand_installer_unfold; intros Hw E.
  destruct (items_of default_installer v) as [d|] eqn:Ed; [|discriminate].
  apply bind_Ok in E; destruct E as (d' & Em & E); injection E as <-.
  pose proof (wfval_items _ _ _ Hw Ed) as Hwd.
  exists d'; split; [reflexivity|]; split.
  { eapply map_items_wf; [exact Hwd| |exact Em]; cbn.
    intros k x y Hin Hy; eapply wfval_expand_definition; [|exact Hy]; eapply wfval_In; eassumption. }
  intros i r; destruct (map_items_In _ _ _ Em) as [HI _]; rewrite HI.
  apply items_of_cases in Ed; destruct Ed as [[Hs ->]| ->].
  - split.
    + intros (x & [E|[]] & Hr); injection E as <- <-; exists v; split; [constructor; assumption|].
      apply rule_means_expand; [assumption|]; rewrite <- Hr; symmetry; apply expand_definition_up.
    + intros (x & Hi & Hr); destruct Hi as [v Hs'|d i x Hin].
      * exists (up_convert v); split; [left; reflexivity|].
        rewrite expand_definition_up; apply rule_means_expand; assumption.
      * destruct Hs as [?|[[? ?]|[? ?]]]; discriminate.
  - split.
    + intros (x & Hin & Hr); exists x; split; [constructor; assumption|].
      apply rule_means_expand; [eapply wfval_In; eassumption|assumption].
    + intros (x & Hi & Hr); inversion Hi as [v Hs|d0 i0 x0 Hin]; subst.
      * destruct Hs as [?|[[? ?]|[? ?]]]; discriminate.
      * exists x; split; [assumption|].
        apply rule_means_expand; [eapply wfval_In; eassumption|assumption].
Qed.

Lemma expand_installer_shape v :
  (exists v', expand_installer_definition v = Ok v') <-> installers_shape v.
Proof.
  rewrite expand_installer_unfold; unfold installers_shape; split.
  - intros (v' & E); destruct (items_of default_installer v) as [d|] eqn:Ed; [|discriminate].
    apply items_of_cases in Ed; destruct Ed as [[Hs _]| ->]; [auto|right].
    apply bind_Ok in E; destruct E as (d' & Em & _); exists d; split; [reflexivity|].
    intros k x Hin; apply expand_definition_shape.
    eapply map_items_total in Hin; [|eauto]; exact Hin.
  - assert (G : forall d, (forall k x, In (k, x) d -> definition_shape x) ->
              exists v', (let* d' := map_items (fun _ x => expand_definition x) d in Ok (VDict d')) = Ok v').
    { intros d Hall; destruct (proj2 (map_items_total (fun _ x => expand_definition x) d)) as [d' ->];
        [|simpl; eauto]; intros k x Hin; apply expand_definition_shape; eauto. }
    intros [Hs|(d & -> & Hall)].
    + apply scalar_up in Hs; destruct Hs as [l Hl]; unfold items_of; rewrite Hl; apply G.
      intros k x [E|[]]; injection E as <- <-; left; right; right; eauto.
    + apply G; assumption.
Qed.

Lemma expand_installer_Err v e : expand_installer_definition v = Err e -> e = ValueError.
Proof.
  rewrite expand_installer_unfold; destruct (items_of _ v); [|congruence].
  rewrite bind_Err; intros [H|(? & _ & H)]; [|discriminate].
  apply map_items_Err in H; destruct H as (k & x & _ & H); eapply expand_definition_Err; eassumption.
Qed.

Lemma expand_installer_idem v v' :
  wfval v -> expand_installer_definition v = Ok v' -> expand_installer_definition v' = Ok v'.
Proof.
  rewrite !expand_installer_unfold; intros Hw E.
  destruct (items_of default_installer v) as [d|] eqn:Ed; [|discriminate].
  pose proof (wfval_items _ _ _ Hw Ed) as Hwd.
  apply bind_Ok in E; destruct E as (d' & Em & E); injection E as <-; simpl.
  rewrite (map_items_idem (fun _ x => expand_definition x) d d'); [reflexivity| |exact Em].
  cbn; intros k x y Hin Hy; eapply expand_definition_idem; [|exact Hy]; eapply wfval_In; eassumption.
Qed.

(** ** Version level *)
Definition special_items (os : pkey) (d : pydict) : option pydict :=
  if eqb os (KStr any_os) then
    if has (KStr any_version) d then
      if Nat.eqb (List.length d) 1 then Some d else None
    else Some [(KStr any_version, VDict d)]
  else Some d.

Definition version_items (os : pkey) (v : pyval) : option pydict :=
  match items_of any_version v with
  | Some d => special_items os d
  | None => None
  end.

Lemma expand_version_unfold os v :
  expand_os_version_definition os v =
  match version_items os v with
  | Some d => let* d' := map_items (fun _ x => expand_installer_definition x) d in Ok (VDict d')
  | None => Err ValueError
  end.
Proof.
  unfold expand_os_version_definition, version_items, items_of, special_items.
  destruct (up_convert v); try reflexivity;
    destruct (eqb os (KStr any_os)); try reflexivity; destruct (has _ _); try reflexivity;
    destruct (Nat.eqb _ _); reflexivity.
Qed.

Lemma scalar_not_dict d : ~ scalar (VDict d).
Proof. intros [?|[[? ?]|[? ?]]]; discriminate. Qed.

Lemma version_means_dict_inv os d ver x :
  version_means os (VDict d) ver x ->
  ((os <> S "any_os" \/ In (S "any_version") (map fst d)) /\ In (ver, x) d) \/
  (os = S "any_os" /\ ~ In (S "any_version") (map fst d) /\ ver = S "any_version" /\ x = VDict d).
Proof.
  intros H; inversion H as [v Hs|d0 ver0 x0 Hor Hin|d0 Ho Hn]; subst; auto 6.
  elim (scalar_not_dict _ Hs).
Qed.

Lemma version_means_scalar_inv os v ver x :
  scalar v -> version_means os v ver x -> ver = S "any_version" /\ x = v.
Proof.
  intros Hs H; inversion H; subst; auto; elim (scalar_not_dict _ Hs).
Qed.

Lemma version_items_In os v d :
  version_items os v = Some d ->
  forall ver, (exists x, In (ver, x) d) <-> (exists x, version_means os v ver x).
Proof.
  unfold version_items; destruct (items_of any_version v) as [d0|] eqn:E0; [|discriminate].
  apply items_of_cases in E0; destruct E0 as [[Hs ->]| ->]; intros E ver.
  - assert (d = [(KStr any_version, up_convert v)]).
    { unfold special_items in E; destruct (eqb os _); simpl in E; congruence. }
    subst d; split.
    + intros (x & [Ex|[]]); injection Ex as <- <-; exists v; constructor; assumption.
    + intros (x & Hv); apply version_means_scalar_inv in Hv; [|assumption].
      destruct Hv as [-> ->]; eexists; left; reflexivity.
  - unfold special_items in E; destruct (eqb_spec os (KStr any_os)) as [->|Hn].
    + destruct (has (KStr any_version) d0) eqn:Eh.
      * destruct (Nat.eqb _ _); [|discriminate]; injection E as <-.
        apply has_keys in Eh; split.
        -- intros (x & Hx); exists x; constructor; auto.
        -- intros (x & Hv); apply version_means_dict_inv in Hv.
           destruct Hv as [[_ Hin]|(_ & Hn & _)]; [eauto|elim Hn; exact Eh].
      * injection E as <-; apply has_false, get_None in Eh; split.
        -- intros (x & [Ex|[]]); injection Ex as <- <-; exists (VDict d0); constructor; [reflexivity|exact Eh].
        -- intros (x & Hv); apply version_means_dict_inv in Hv.
           destruct Hv as [[[H1|H1] _]|(_ & _ & -> & ->)];
             [elim H1; reflexivity|elim Eh; exact H1|eexists; left; reflexivity].
    + injection E as <-; split.
      * intros (x & Hx); exists x; constructor; auto.
      * intros (x & Hv); apply version_means_dict_inv in Hv.
        destruct Hv as [[_ Hin]|(Ho & _)]; [eauto|elim Hn; exact Ho].
Qed.

(** The items are the meant ones, up to the list form of a scalar. *)
Lemma version_items_In_expand os v d :
  version_items os v = Some d ->
  forall ver y, (exists x, In (ver, x) d /\ expand_installer_definition x = Ok y) <->
                (exists x, version_means os v ver x /\ expand_installer_definition x = Ok y).
Proof.
  unfold version_items; destruct (items_of any_version v) as [d0|] eqn:E0; [|discriminate].
  apply items_of_cases in E0; destruct E0 as [[Hs ->]| ->]; intros E ver y.
  - assert (d = [(KStr any_version, up_convert v)]).
    { unfold special_items in E; destruct (eqb os _); simpl in E; congruence. }
    subst d; split.
    + intros (x & [Ex|[]] & Hy); injection Ex as <- <-; exists v; split; [constructor; assumption|].
      rewrite <- expand_installer_up; assumption.
    + intros (x & Hv & Hy); apply version_means_scalar_inv in Hv; [|assumption].
      destruct Hv as [-> ->]; exists (up_convert v); split; [left; reflexivity|]; rewrite expand_installer_up; assumption.
  - unfold special_items in E; destruct (eqb_spec os (KStr any_os)) as [->|Hn].
    + destruct (has (KStr any_version) d0) eqn:Eh.
      * destruct (Nat.eqb _ _); [|discriminate]; injection E as <-.
        apply has_keys in Eh; split.
        -- intros (x & Hx & Hy); exists x; split; [constructor; auto|assumption].
        -- intros (x & Hv & Hy); apply version_means_dict_inv in Hv.
           destruct Hv as [[_ Hin]|(_ & Hn & _)]; [eauto|elim Hn; exact Eh].
      * injection E as <-; apply has_false, get_None in Eh; split.
        -- intros (x & [Ex|[]] & Hy); injection Ex as <- <-; exists (VDict d0).
           split; [constructor; [reflexivity|exact Eh]|assumption].
        -- intros (x & Hv & Hy); apply version_means_dict_inv in Hv.
           destruct Hv as [[[H1|H1] _]|(_ & _ & -> & ->)];
             [elim H1; reflexivity|elim Eh; exact H1|].
           eexists; split; [left; reflexivity|assumption].
    + injection E as <-; split.
      * intros (x & Hx & Hy); exists x; split; [constructor; auto|assumption].
      * intros (x & Hv & Hy); apply version_means_dict_inv in Hv.
        destruct Hv as [[_ Hin]|(Ho & _)]; [eauto|elim Hn; exact Ho].
Qed.

Lemma wfval_version_items os v d : wfval v -> version_items os v = Some d -> wfval (VDict d).
Proof.
  unfold version_items; intros Hw E; destruct (items_of any_version v) as [d0|] eqn:E0; [|discriminate].
  pose proof (wfval_items _ _ _ Hw E0) as Hwd.
  unfold special_items in E; destruct (eqb os _); [|injection E as <-; assumption].
  destruct (has _ d0); [destruct (Nat.eqb _ _); [injection E as <-; assumption|discriminate]|].
  injection E as <-; apply wfval_dict; split; [repeat constructor; simpl; tauto|].
  constructor; [exact Hwd|constructor].
Qed.

Lemma wfval_version_means os v ver x : wfval v -> version_means os v ver x -> wfval x.
Proof. intros Hw H; destruct H; auto; eapply wfval_In; eassumption. Qed.

Lemma expand_version_Ok os v v' :
  wfval v -> expand_os_version_definition os v = Ok v' ->
  exists d', v' = VDict d' /\ wfval v' /\
    (forall ver y, In (ver, y) d' <->
       exists x, version_means os v ver x /\ expand_installer_definition x = Ok y) /\
    (forall ver, In ver (map fst d') <-> exists x, version_means os v ver x).
Proof.
  rewrite expand_version_unfold; intros Hw E.
  destruct (version_items os v) as [d|] eqn:Ed; [|discriminate].
  pose proof (wfval_version_items _ _ _ Hw Ed) as Hwd.
  apply bind_Ok in E; destruct E as (d' & Em & E); injection E as <-.
  destruct (map_items_In _ _ _ Em) as [HI HK].
  exists d'; split; [reflexivity|]; split.
  { eapply map_items_wf; [exact Hwd| |exact Em]; cbn; intros k x y Hin Hy.
    apply expand_installer_Ok in Hy; [|eapply wfval_In; eassumption].
    destruct Hy as (d1 & -> & Hy & _); exact Hy. }
  split.
  - intros ver y; rewrite HI; apply version_items_In_expand; assumption.
  - intros ver; fold (keys d'); rewrite HK, <- (version_items_In _ _ _ Ed).
    rewrite <- get_Some_keys; split; intros [x Hx]; [exists x; apply get_In; assumption|].
    apply In_get in Hx; [eauto|]; apply wfval_dict in Hwd; apply Hwd.
Qed.

Lemma expand_version_shape os v :
  wfval v -> (exists v', expand_os_version_definition os v = Ok v') <-> versions_shape os v.
Proof.
  intros Hwv; rewrite expand_version_unfold; unfold versions_shape.
  assert (G : forall d, (exists v', (let* d' := map_items (fun _ x => expand_installer_definition x) d in
                                     Ok (VDict d')) = Ok v')
                        <-> forall k x, In (k, x) d -> installers_shape x).
  { intros d; split.
    - intros (v' & E); apply bind_Ok in E; destruct E as (d' & Em & _); intros k x Hin.
      apply expand_installer_shape; eapply map_items_total in Hin; [|eauto]; exact Hin.
    - intros Hall; destruct (proj2 (map_items_total (fun _ x => expand_installer_definition x) d)) as [d' ->];
        [|simpl; eauto]; intros k x Hin; apply expand_installer_shape; eauto. }
  unfold version_items; destruct (items_of any_version v) as [d|] eqn:Ed.
  - apply items_of_cases in Ed; destruct Ed as [[Hs ->]| ->].
    + split; [auto|]; intros _.
      assert (Es : special_items os [(KStr any_version, up_convert v)] = Some [(KStr any_version, up_convert v)]).
      { unfold special_items; destruct (eqb os _); reflexivity. }
      rewrite Es; apply G; intros k x [E|[]]; injection E as <- <-; left.
      apply scalar_up in Hs; destruct Hs as [l ->]; right; right; eauto.
    + unfold special_items; destruct (eqb_spec os (KStr any_os)) as [->|Hn].
      * destruct (has (KStr any_version) d) eqn:Eh.
        -- apply has_keys in Eh; split.
           ++ destruct (Nat.eqb_spec (List.length d) 1) as [El|]; [|intros [? ?]; discriminate].
              rewrite G; intros Hall; right; exists d; split; [reflexivity|].
              split; [intros Hc; elim Hc; reflexivity|]; split; [|intros _ Hx; elim Hx; exact Eh].
              intros _ _; destruct d as [|[k x] [|]]; try discriminate.
              destruct Eh as [Ek|[]]; simpl in Ek; subst k; exists x; split; [reflexivity|].
              eapply Hall; left; reflexivity.
           ++ intros [Hs|(d0 & E & _ & Hx & _)]; [elim (scalar_not_dict _ Hs)|].
              injection E as <-; destruct (Hx eq_refl Eh) as (x & -> & Hsx); simpl; apply G.
              intros k y [Ey|[]]; injection Ey as <- <-; exact Hsx.
        -- apply has_false, get_None in Eh; rewrite G; split.
           ++ intros Hall; right; exists d; split; [reflexivity|]; split; [intros Hc; elim Hc; reflexivity|].
              split; [intros _ Hx; elim Eh; exact Hx|].
              intros _ _; eapply Hall; left; reflexivity.
           ++ intros [Hs|(d0 & E & _ & _ & Hx)]; [elim (scalar_not_dict _ Hs)|].
              injection E as <-; intros k y [Ey|[]]; injection Ey as <- <-; apply Hx; [reflexivity|exact Eh].
      * rewrite G; split.
        -- intros Hall; right; exists d; split; [reflexivity|]; split; [intros _; exact Hall|].
           split; intros E; elim Hn; exact E.
        -- intros [Hs|(d0 & E & Hx & _)]; [elim (scalar_not_dict _ Hs)|]; injection E as <-; exact (Hx Hn).
  - apply items_of_None in Ed; split; [intros [? ?]; discriminate|].
    intros [Hs|(d & -> & _)]; elim Ed; [left; exact Hs|right; eauto].
Qed.

Lemma expand_version_Err os v e : expand_os_version_definition os v = Err e -> e = ValueError.
Proof.
  rewrite expand_version_unfold; destruct (version_items os v); [|congruence].
  rewrite bind_Err; intros [H|(? & _ & H)]; [|discriminate].
  apply map_items_Err in H; destruct H as (k & x & _ & H); eapply expand_installer_Err; eassumption.
Qed.

Lemma expand_version_idem os v v' :
  wfval v -> expand_os_version_definition os v = Ok v' -> expand_os_version_definition os v' = Ok v'.
Proof.
  rewrite !expand_version_unfold; intros Hw E.
  destruct (version_items os v) as [d|] eqn:Ed; [|discriminate].
  pose proof (wfval_version_items _ _ _ Hw Ed) as Hwd.
  apply bind_Ok in E; destruct E as (d' & Em & E); injection E as <-.
  assert (Ed' : version_items os (VDict d') = Some d').
  { destruct (map_items_In _ _ _ Em) as [_ HK].
    unfold version_items; simpl; unfold special_items.
    destruct (eqb os (KStr any_os)) eqn:Eos; [|reflexivity].
    assert (Hk : keys d = [KStr any_version]).
    { unfold version_items in Ed; destruct (items_of any_version v) as [d0|]; [|discriminate].
      unfold special_items in Ed; rewrite Eos in Ed.
      destruct (has (KStr any_version) d0) eqn:Eh; [|injection Ed as <-; reflexivity].
      destruct (Nat.eqb_spec (List.length d0) 1) as [El|]; [|discriminate]; injection Ed as <-.
      apply has_keys in Eh; destruct d0 as [|[k x] [|]]; try discriminate.
      destruct Eh as [Ek|[]]; simpl in *; subst k; reflexivity. }
    rewrite Hk in HK; destruct d' as [|[k x] [|]]; try discriminate.
    injection HK as ->; reflexivity. }
  rewrite Ed'.
  rewrite (map_items_idem (fun _ x => expand_installer_definition x) d d'); [reflexivity| |exact Em].
  cbn; intros k x y Hin Hy; eapply expand_installer_idem; [|exact Hy]; eapply wfval_In; eassumption.
Qed.

(** ** Os level *)
Lemma expand_os_Err v e : expand_os_definition v = Err e -> e = ValueError.
Proof.
  destruct v; simpl; try congruence.
  rewrite bind_Err; intros [H|(? & _ & H)]; [|discriminate].
  apply map_items_Err in H; destruct H as (k & x & _ & H); eapply expand_version_Err; eassumption.
Qed.

Lemma expand_os_shape v : wfval v -> (exists v', expand_os_definition v = Ok v') <-> oses_shape v.
Proof.
  intros Hw; unfold oses_shape; split.
  - intros (v' & E); destruct v as [| | | | | |d]; try discriminate; simpl in E.
    apply bind_Ok in E; destruct E as (d' & Em & _); exists d; split; [reflexivity|].
    intros k x Hin; apply expand_version_shape; [eapply wfval_In; eassumption|].
    eapply map_items_total in Hin; [|eauto]; exact Hin.
  - intros (d & -> & Hall); simpl.
    destruct (proj2 (map_items_total expand_os_version_definition d)) as [d' ->]; [|simpl; eauto].
    intros k x Hin; apply expand_version_shape; [eapply wfval_In; eassumption|eauto].
Qed.

Lemma expand_os_idem v v' : wfval v -> expand_os_definition v = Ok v' -> expand_os_definition v' = Ok v'.
Proof.
  intros Hw; destruct v as [| | | | | |d]; try discriminate; simpl; intros E.
  apply bind_Ok in E; destruct E as (d' & Em & E); injection E as <-; simpl.
  rewrite (map_items_idem _ d d'); [reflexivity| |exact Em].
  intros k x y Hin Hy; eapply expand_version_idem; [|exact Hy]; eapply wfval_In; eassumption.
Qed.

Lemma expand_os_Ok v v' :
  wfval v -> expand_os_definition v = Ok v' ->
  exists d d', v = VDict d /\ v' = VDict d' /\ wfval v' /\ map fst d' = map fst d /\
    (forall os y, In (os, y) d' <-> exists x, In (os, x) d /\ expand_os_version_definition os x = Ok y).
Proof.
  intros Hw; destruct v as [| | | | | |d]; try discriminate; simpl; intros E.
  apply bind_Ok in E; destruct E as (d' & Em & E); injection E as <-.
  destruct (map_items_In _ _ _ Em) as [HI HK].
  exists d, d'; repeat (split; [reflexivity|]); split; [|split; [exact HK|exact HI]].
  eapply map_items_wf; [exact Hw| |exact Em]; intros k x y Hin Hy.
  apply expand_version_Ok in Hy; [|eapply wfval_In; eassumption].
  destruct Hy as (d1 & -> & Hy & _); exact Hy.
Qed.

(** ** Whole file *)
Definition file_items (v : pyval) : option pydict :=
  match v with VNone => Some [] | VDict d => Some d | _ => None end.

Lemma expand_rules_unfold v :
  expand_rules v =
  match file_items v with
  | Some d => let* d' := map_items (fun _ x => wrap_err (expand_os_definition x)) d in Ok (VDict d')
  | None => Err ValueError
  end.
Proof. destruct v; reflexivity. Qed.

Lemma wrap_err_Ok x v : wrap_err x = Ok v <-> x = Ok v.
Proof. destruct x as [a|e]; simpl; [tauto|]; destruct e; split; discriminate. Qed.

Lemma expand_rules_shape v : wfval v -> (exists v', expand_rules v = Ok v') <-> file_shape v.
Proof.
  intros Hw; rewrite expand_rules_unfold; unfold file_shape; split.
  - intros (v' & E); destruct v as [| | | | | |d]; try discriminate; [auto|right]; simpl in E.
    apply bind_Ok in E; destruct E as (d' & Em & _); exists d; split; [reflexivity|].
    intros k x Hin; apply expand_os_shape; [eapply wfval_In; eassumption|].
    assert (exists y, wrap_err (expand_os_definition x) = Ok y) as [y Hy].
    { revert Hin; apply map_items_total with (f := fun _ x => wrap_err (expand_os_definition x)); eauto. }
    exists y; apply (proj1 (wrap_err_Ok _ _)); assumption.
  - intros [->|(d & -> & Hall)]; [eexists; reflexivity|]; simpl.
    destruct (proj2 (map_items_total (fun _ x => wrap_err (expand_os_definition x)) d)) as [d' ->]; [|simpl; eauto].
    intros k x Hin.
    assert (exists y, expand_os_definition x = Ok y) as [y Hy].
    { apply expand_os_shape; [eapply wfval_In; eassumption|eauto]. }
    exists y; apply (proj2 (wrap_err_Ok _ _)); assumption.
Qed.

Lemma expand_rules_error v e :
  expand_rules v = Err e ->
  e = if match v with VNone | VDict _ => true | _ => false end then TypeError else ValueError.
Proof.
  rewrite expand_rules_unfold; destruct v as [| | | | | |d]; simpl; try congruence.
  rewrite bind_Err; intros [H|(? & _ & H)]; [|discriminate].
  apply map_items_Err in H; destruct H as (k & x & _ & H); simpl in H.
  destruct (expand_os_definition x) as [y|e'] eqn:Ex; [discriminate|].
  apply expand_os_Err in Ex; subst e'; simpl in H; congruence.
Qed.

Lemma expand_rules_idem v v' : wfval v -> expand_rules v = Ok v' -> expand_rules v' = Ok v'.
Proof.
  rewrite !expand_rules_unfold; intros Hw E.
  destruct (file_items v) as [d|] eqn:Ed; [|discriminate].
  assert (Hwd : wfval (VDict d)).
  { destruct v; try discriminate; injection Ed as <-; [split; [constructor|exact I]|exact Hw]. }
  apply bind_Ok in E; destruct E as (d' & Em & E); injection E as <-; simpl.
  rewrite (map_items_idem (fun _ x => wrap_err (expand_os_definition x)) d d'); [reflexivity| |exact Em].
  cbn; intros k x y Hin Hy; apply (proj1 (wrap_err_Ok _ _)) in Hy; apply (proj2 (wrap_err_Ok _ _)).
  eapply expand_os_idem; [|exact Hy]; eapply wfval_In; eassumption.
Qed.

Lemma expand_rules_Ok v v' :
  wfval v -> expand_rules v = Ok v' ->
  exists d', v' = VDict d' /\ wfval v' /\
    match v with VDict d => map fst d' = map fst d | _ => d' = [] end /\
    (forall key y, In (key, y) d' <-> exists d x, v = VDict d /\ In (key, x) d /\ expand_os_definition x = Ok y).
Proof.
  rewrite expand_rules_unfold; intros Hw E.
  destruct (file_items v) as [d|] eqn:Ed; [|discriminate].
  apply bind_Ok in E; destruct E as (d' & Em & E); injection E as <-.
  destruct (map_items_In _ _ _ Em) as [HI HK]; exists d'; split; [reflexivity|].
  destruct v as [| | | | | |d0]; try discriminate; injection Ed as <-.
  - injection Em as <-; split; [split; [constructor|exact I]|]; split; [reflexivity|].
    intros key y; split; [intros []|].
    intros (? & ? & E & _); discriminate.
  - split; [|split; [exact HK|]].
    + eapply map_items_wf; [exact Hw| |exact Em]; cbn; intros k x y Hin Hy.
      apply (proj1 (wrap_err_Ok _ _)) in Hy; apply expand_os_Ok in Hy; [|eapply wfval_In; eassumption].
      destruct Hy as (d1 & d2 & _ & -> & Hy & _); exact Hy.
    + intros key y; rewrite HI; split.
      * intros (x & Hin & Hy); apply (proj1 (wrap_err_Ok _ _)) in Hy; eauto.
      * intros (d1 & x & E & Hin & Hy); injection E as <-; exists x; split; [assumption|].
        apply (proj2 (wrap_err_Ok _ _)); assumption.
Qed.

Lemma expand_version_meaning v v' :
  wfval v -> expand_rules v = Ok v' ->
  forall key os ver y,
    plain_version v' key os ver y <->
    exists x, file_version v key os ver x /\ expand_installer_definition x = Ok y.
Proof.
  intros Hw E; destruct (expand_rules_Ok _ _ Hw E) as (d' & -> & Hw' & _ & HI).
  intros key os ver y; split.
  - intros (d0 & od' & vd' & E0 & Hk & Ho & Hv); injection E0 as <-.
    apply HI in Hk; destruct Hk as (d & x & -> & Hin & Hx).
    pose proof (wfval_In _ _ _ Hw Hin) as Hwx.
    destruct (expand_os_Ok _ _ Hwx Hx) as (od & od1 & -> & E1 & _ & _ & HO); injection E1 as <-.
    apply HO in Ho; destruct Ho as (vv & Hino & Hvv).
    pose proof (wfval_In _ _ _ Hwx Hino) as Hwvv.
    destruct (expand_version_Ok _ _ _ Hwvv Hvv) as (vd1 & E2 & _ & HV & _); injection E2 as <-.
    apply HV in Hv; destruct Hv as (z & Hz & Hy).
    exists z; split; [|assumption]; exists vv; split; [|assumption]; exists d, od; auto.
  - intros (z & (vv & (d & od & -> & Hin & Hino) & Hz) & Hy).
    pose proof (wfval_In _ _ _ Hw Hin) as Hwx.
    pose proof (wfval_In _ _ _ Hwx Hino) as Hwvv.
    assert (Hok : exists y, In (key, y) d' /\ expand_os_definition (VDict od) = Ok y).
    { rewrite expand_rules_unfold in E; simpl in E; apply bind_Ok in E.
      destruct E as (d1 & Em & E1); injection E1 as <-.
      assert (exists y, wrap_err (expand_os_definition (VDict od)) = Ok y) as [y0 Hy0].
      { revert Hin; apply map_items_total with (f := fun _ x => wrap_err (expand_os_definition x)); eauto. }
      apply (proj1 (wrap_err_Ok _ _)) in Hy0; exists y0; split; [|assumption]; apply HI; eauto. }
    destruct Hok as (y0 & Hy0 & Hex).
    destruct (expand_os_Ok _ _ Hwx Hex) as (od0 & od' & E0 & -> & _ & HK & HO); injection E0 as <-.
    assert (Hok : exists y, expand_os_version_definition os vv = Ok y).
    { simpl in Hex; apply bind_Ok in Hex; destruct Hex as (od1 & Em & _).
      revert Hino; apply map_items_total; eauto. }
    destruct Hok as (y1 & Hy1).
    destruct (expand_version_Ok _ _ _ Hwvv Hy1) as (vd' & -> & _ & HV & _).
    exists d', od', vd'; split; [reflexivity|]; split; [assumption|]; split.
    + apply HO; eauto.
    + apply HV; eauto.
Qed.

Lemma file_version_wf v key os ver x : wfval v -> file_version v key os ver x -> wfval x.
Proof.
  intros Hw (y & (d & od & -> & Hin & Hino) & Hv).
  eapply wfval_version_means; [|exact Hv].
  eapply wfval_In; [|exact Hino]; eapply wfval_In; eassumption.
Qed.

Lemma expand_installer_total v v' key os ver x :
  wfval v -> expand_rules v = Ok v' -> file_version v key os ver x ->
  exists id, expand_installer_definition x = Ok (VDict id).
Proof.
  intros Hw E Hx; pose proof (file_version_wf _ _ _ _ _ Hw Hx) as Hwx.
  assert (Hs : file_shape v) by (apply expand_rules_shape; eauto).
  assert (Hi : installers_shape x).
  { destruct Hx as (y & (d & od & -> & Hin & Hino) & Hv).
    destruct Hs as [?|(d0 & E0 & Hs)]; [discriminate|]; injection E0 as <-.
    destruct (Hs _ _ Hin) as (od0 & E0 & Ho); injection E0 as <-.
    specialize (Ho _ _ Hino); destruct Hv as [v1 Hsc|d1 ver x Hor Hinv|d1 Heq Hnot].
    - left; exact Hsc.
    - destruct Ho as [Hsc|(d2 & E2 & H1 & H2 & H3)]; [elim (scalar_not_dict _ Hsc)|].
      injection E2 as <-; destruct (eqb_spec os (S "any_os")) as [->|Hn].
      + destruct Hor as [Hor|Hor]; [congruence|].
        destruct (H2 eq_refl Hor) as (z & -> & Hz); destruct Hinv as [Ez|[]]; congruence.
      + eapply H1; eassumption.
    - destruct Ho as [Hsc|(d2 & E2 & H1 & H2 & H3)]; [elim (scalar_not_dict _ Hsc)|].
      injection E2 as <-; auto. }
  apply expand_installer_shape in Hi; destruct Hi as (y & Hy).
  destruct (expand_installer_Ok _ _ Hwx Hy) as (id & -> & _); eauto.
Qed.

Lemma expand_meaning v v' :
  wfval v -> expand_rules v = Ok v' ->
  forall key os ver,
    ((exists y, plain_version v' key os ver y) <-> exists x, file_version v key os ver x) /\
    forall i r, plain_installer v' key os ver i r <->
                exists x, file_installer v key os ver i x /\ rule_means x r.
Proof.
  intros Hw E key os ver; pose proof (expand_version_meaning _ _ Hw E) as HM; split.
  - split.
    + intros (y & Hy); apply HM in Hy; destruct Hy as (x & Hx & _); eauto.
    + intros (x & Hx); destruct (expand_installer_total _ _ _ _ _ _ Hw E Hx) as (id & Hid).
      exists (VDict id); apply HM; eauto.
  - intros i r; split.
    + intros (id & Hv & Hi); apply HM in Hv; destruct Hv as (x & Hx & Hex).
      pose proof (file_version_wf _ _ _ _ _ Hw Hx) as Hwx.
      destruct (expand_installer_Ok _ _ Hwx Hex) as (id0 & E0 & _ & HI); injection E0 as <-.
      apply HI in Hi; destruct Hi as (z & Hz & Hr); exists z; split; [|assumption]; exists x; auto.
    + intros (z & (x & Hx & Hz) & Hr).
      destruct (expand_installer_total _ _ _ _ _ _ Hw E Hx) as (id & Hid).
      pose proof (file_version_wf _ _ _ _ _ Hw Hx) as Hwx.
      destruct (expand_installer_Ok _ _ Hwx Hid) as (id0 & E0 & _ & HI); injection E0 as <-.
      exists id; split; [apply HM; eauto|]; apply HI; eauto.
Qed.

Lemma expand_keys v v' :
  wfval v -> expand_rules v = Ok v' ->
  (forall key, file_has_key v' key <-> file_has_key v key) /\
  (forall key os, (exists x, file_has_os v' key os x) <-> (exists x, file_has_os v key os x)).
Proof.
  intros Hw E; destruct (expand_rules_Ok _ _ Hw E) as (d' & -> & Hw' & HK & HI); split.
  - intros key; split.
    + intros (d0 & x & E0 & Hin); injection E0 as <-; apply HI in Hin.
      destruct Hin as (d & y & -> & Hin & _); exists d, y; auto.
    + intros (d & x & -> & Hin); apply (in_map fst) in Hin; rewrite <- HK in Hin.
      apply in_map_iff in Hin; destruct Hin as ([k y] & Ek & Hin); simpl in Ek; subst k; exists d', y; auto.
  - intros key os; split.
    + intros (x & d0 & od' & E0 & Hin & Ho); injection E0 as <-; apply HI in Hin.
      destruct Hin as (d & y & -> & Hin & Hy).
      destruct (expand_os_Ok _ _ (wfval_In _ _ _ Hw Hin) Hy) as (od & od1 & -> & E1 & _ & _ & HO).
      injection E1 as <-; apply HO in Ho; destruct Ho as (z & Hz & _); exists z, d, od; auto.
    + intros (x & d & od & -> & Hin & Ho).
      assert (Hok : exists y, In (key, y) d' /\ expand_os_definition (VDict od) = Ok y).
      { rewrite expand_rules_unfold in E; simpl in E; apply bind_Ok in E.
        destruct E as (d1 & Em & E1); injection E1 as <-.
        assert (exists y, wrap_err (expand_os_definition (VDict od)) = Ok y) as [y0 Hy0].
        { revert Hin; apply map_items_total with (f := fun _ x => wrap_err (expand_os_definition x)); eauto. }
        apply (proj1 (wrap_err_Ok _ _)) in Hy0; exists y0; split; [|assumption]; apply HI; eauto. }
      destruct Hok as (y0 & Hy0 & Hex).
      destruct (expand_os_Ok _ _ (wfval_In _ _ _ Hw Hin) Hex) as (od0 & od' & E0 & -> & _ & HK' & _).
      injection E0 as <-; apply (in_map fst) in Ho; rewrite <- HK' in Ho.
      apply in_map_iff in Ho; destruct Ho as ([k y] & Ek & Ho); simpl in Ek; subst k; exists y, d', od'; auto.
Qed.
