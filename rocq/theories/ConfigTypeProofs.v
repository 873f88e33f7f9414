(** Proofs about configuration types (Config.v). *)
From Verif Require Import Base Dict PyVal Sources Util Paths Config ConfigSpec.

(** ** Generic facts about loops and dictionaries *)
Lemma foldM_inv {A S} (f : S -> A -> res S) (P : S -> Prop) l s s' :
  foldM f l s = Ok s' -> P s ->
  (forall x a b, In x l -> P a -> f a x = Ok b -> P b) -> P s'.
Proof.
  revert s; induction l as [|x l IH]; simpl; intros s E Hs Hstep; [congruence|].
  apply bind_Ok in E; destruct E as (s1 & E1 & E2).
  apply (IH s1 E2); [eapply Hstep; eauto|]; intros; eapply Hstep; eauto.
Qed.

Lemma foldM_Err {A S} (f : S -> A -> res S) (Q : exn -> Prop) l s e :
  foldM f l s = Err e -> (forall x a e, In x l -> f a x = Err e -> Q e) -> Q e.
Proof.
  revert s; induction l as [|x l IH]; simpl; intros s E Hq; [discriminate|].
  apply bind_Err in E; destruct E as [E|(s1 & _ & E)]; [eapply Hq; eauto|].
  apply (IH s1 E); intros; eapply Hq; eauto.
Qed.

Section Update.
  Context {K V : Type} `{EqB K}.
  Implicit Types d e : dict K V.

  Lemma wf_update d e : wf d -> wf (update d e).
  Proof.
    unfold update; revert d; induction e as [|p e IH]; simpl; intros d Hd; [assumption|].
    apply IH, wf_set; assumption.
  Qed.

  Lemma get_update k d e : wf e -> get k (update d e) = orelse (get k e) (get k d).
  Proof.
    unfold update; revert d; induction e as [|[k0 v0] e IH]; intros d He; [reflexivity|].
    apply wf_cons in He; destruct He as [Hk He]; cbn [fold_left fst snd].
    rewrite IH by assumption; rewrite get_cons, get_set.
    destruct (eqb_spec k k0) as [->|Hn]; [rewrite Hk; reflexivity|reflexivity].
  Qed.

  Lemma In_update p d e : In p (update d e) -> In p d \/ In p e.
  Proof.
    unfold update; revert d; induction e as [|[k0 v0] e IH]; cbn [fold_left fst snd]; intros d Hp;
      [left; assumption|].
    apply IH in Hp; destruct Hp as [Hp|Hp]; [|right; right; assumption].
    destruct p as [k v]; apply In_set in Hp; destruct Hp as [[-> ->]|Hp];
      [right; left; reflexivity|left; assumption].
  Qed.

  Lemma update_app d e e' : update d (e ++ e') = update (update d e) e'.
  Proof. unfold update; apply fold_left_app. Qed.

  (** Setting fresh, distinct keys appends. *)
  Lemma update_fresh d e : wf (d ++ e) -> update d e = d ++ e.
  Proof.
    unfold update; revert d; induction e as [|[k0 v0] e IH]; intros d Hd;
      [symmetry; apply app_nil_r|].
    cbn [fold_left fst snd].
    assert (Hk : get k0 d = None).
    { apply get_None; unfold wf, keys in Hd; rewrite map_app in Hd; cbn [map fst] in Hd.
      apply NoDup_remove_2 in Hd; intros Hin; apply Hd, in_or_app; left; exact Hin. }
    assert (Hs : set k0 v0 d = d ++ [(k0, v0)]).
    { transitivity (set k0 v0 (d ++ [])); [rewrite app_nil_r; reflexivity|].
      rewrite set_app_fresh by assumption; reflexivity. }
    rewrite Hs, IH; [rewrite <- app_assoc; reflexivity|].
    rewrite <- app_assoc; exact Hd.
  Qed.

  Lemma update_nil_l e : wf e -> update [] e = e.
  Proof. intros He; apply (update_fresh [] e); exact He. Qed.

  Lemma keys_update d e : wf e ->
    keys (update d e) = keys d ++ filter (fun k => negb (has k d)) (keys e).
  Proof.
    unfold update; revert d; induction e as [|[k0 v0] e IH]; intros d He;
      [symmetry; apply app_nil_r|].
    apply wf_cons in He; destruct He as [Hk He].
    cbn [fold_left fst snd]; change (keys ((k0, v0) :: e)) with (k0 :: keys e); cbn [filter].
    rewrite IH by assumption; rewrite keys_set.
    assert (Hf : filter (fun k => negb (has k (set k0 v0 d))) (keys e)
                 = filter (fun k => negb (has k d)) (keys e)).
    { apply get_None in Hk; clear IH He; revert Hk; generalize (keys e) as l.
      induction l as [|k l IH]; intros Hk; [reflexivity|]; cbn [filter].
      rewrite IH by (intros Hin; apply Hk; right; assumption).
      unfold has at 1 3; rewrite get_set.
      destruct (eqb_spec k k0) as [->|Hn]; [exfalso; apply Hk; left; reflexivity|reflexivity]. }
    rewrite Hf; destruct (has k0 d); cbn [negb]; [reflexivity|].
    rewrite <- app_assoc; reflexivity.
  Qed.

  Lemma dict_ext d e : wf d -> wf e -> keys d = keys e -> (forall k, get k d = get k e) -> d = e.
  Proof.
    revert e; induction d as [|[k v] d IH]; intros [|[k' v'] e] Hd He Hk Hg;
      try discriminate; [reflexivity|].
    cbn [keys map fst] in Hk; injection Hk as <- Hk.
    apply wf_cons in Hd; destruct Hd as [Hkd Hd]; apply wf_cons in He; destruct He as [Hke He].
    pose proof (Hg k) as Hv; rewrite !get_cons, eqb_refl in Hv; injection Hv as <-.
    f_equal; apply IH; [assumption|assumption|exact Hk|].
    intros k1; pose proof (Hg k1) as H1; rewrite !get_cons in H1.
    destruct (eqb_spec k1 k) as [E1|_]; [rewrite E1; congruence|exact H1].
  Qed.

  Lemma has_update k d e : wf e -> has k (update d e) = has k e || has k d.
  Proof.
    intros He; unfold has; rewrite get_update by assumption.
    destruct (get k e); reflexivity.
  Qed.

  Lemma filter_filter {A} (f g : A -> bool) l :
    filter f (filter g l) = filter (fun x => g x && f x) l.
  Proof.
    induction l as [|x l IH]; [reflexivity|]; cbn [filter].
    destruct (g x); cbn [filter andb]; [destruct (f x)|]; rewrite IH; reflexivity.
  Qed.

  Lemma update_assoc (c b a : dict K V) : wf c -> wf b -> wf a ->
    update (update c b) a = update c (update b a).
  Proof.
    intros Hc Hb Ha; apply dict_ext.
    - apply wf_update, wf_update; assumption.
    - apply wf_update; assumption.
    - rewrite keys_update by assumption; rewrite keys_update by assumption.
      rewrite (keys_update c) by (apply wf_update; assumption).
      rewrite (keys_update b) by assumption.
      rewrite filter_app, filter_filter, app_assoc; f_equal.
      apply filter_ext; intros k; rewrite has_update by assumption.
      rewrite negb_orb; reflexivity.
    - intros k; rewrite !get_update by (try assumption; apply wf_update; assumption).
      apply orelse_assoc.
  Qed.
End Update.

(** ** Types *)
Lemma is_unset_none t v :
  match t with TMerging _ _ => False | _ => True end -> (is_unset t v = true <-> v = VNone).
Proof.
  intros Ht; unfold is_unset.
  replace (unset t) with VNone by (destruct t; simpl in *; tauto).
  destruct v; simpl; split; congruence.
Qed.

Lemma is_unset_merging k e v : is_unset (TMerging k e) v = true <-> v = VDict [].
Proof.
  unfold is_unset; destruct v as [|b|z|s|s|l|d]; simpl; try (split; congruence).
  destruct d as [|[k0 x] d]; simpl; split; congruence.
Qed.

Lemma verify_key_spec kt k : verify_key kt k = Ok tt <-> key_has_type kt k.
Proof.
  destruct kt, k; simpl; split; intros Hk; try congruence; auto; try (right; eauto; fail);
    destruct Hk as [Hk|[s Hk]]; congruence.
Qed.

Lemma verify_key_cases kt k : verify_key kt k = Ok tt \/ verify_key kt k = Err ConfigValueError.
Proof. destruct kt, k; simpl; auto. Qed.

(** Every verification succeeds with the value itself or raises ConfigValueError. *)
Lemma verify_type_cases t v : verify_type t v = Ok v \/ verify_type t v = Err ConfigValueError.
Proof.
  revert v; induction t as [| | |e IH|k e IH|k e IH|]; intros v; cbn [verify_type]; auto;
    destruct (is_unset _ v); auto.
  - destruct v; auto.
  - destruct v; auto.
  - destruct v as [| | | | |l|]; auto.
    destruct (forM_ _ l) as [[]|er] eqn:E; simpl; [left; reflexivity|].
    apply forM_Err in E; destruct E as (x & _ & Ex).
    destruct (IH x) as [Hx|Hx]; rewrite Hx in Ex; simpl in Ex; [discriminate|].
    injection Ex as <-; auto.
  - destruct v as [| | | | | |d]; auto.
    destruct (forM_ _ d) as [[]|er] eqn:E; simpl; [left; reflexivity|].
    apply forM_Err in E; destruct E as (x & _ & Ex).
    destruct (verify_key_cases k (fst x)) as [Hk|Hk]; rewrite Hk in Ex; simpl in Ex;
      [|injection Ex as <-; auto].
    destruct (IH (snd x)) as [Hx|Hx]; rewrite Hx in Ex; simpl in Ex; [discriminate|].
    injection Ex as <-; auto.
  - destruct v as [| | | | | |d]; auto.
    destruct (forM_ _ d) as [[]|er] eqn:E; simpl; [left; reflexivity|].
    apply forM_Err in E; destruct E as (x & _ & Ex).
    destruct (verify_key_cases k (fst x)) as [Hk|Hk]; rewrite Hk in Ex; simpl in Ex;
      [|injection Ex as <-; auto].
    destruct (IH (snd x)) as [Hx|Hx]; rewrite Hx in Ex; simpl in Ex; [discriminate|].
    injection Ex as <-; auto.
  - destruct v; auto.
Qed.

Lemma bind_unit_tt {A} (x : res A) : (let* _ := x in Ok tt) = Ok tt <-> exists a, x = Ok a.
Proof. destruct x; simpl; split; eauto; try discriminate; intros [a Ha]; discriminate. Qed.

Lemma verify_entries k e (d : pydict) :
  (forall v, verify_type e v = Ok v <-> has_type e v) ->
  (forM_ (fun p : pkey * pyval => let* _ := verify_key k (fst p) in
                let* _ := verify_type e (snd p) in Ok tt) d = Ok tt
   <-> Forall (fun p => key_has_type k (fst p) /\ has_type e (snd p)) d).
Proof.
  intros IH; rewrite forM_Ok, Forall_forall; split; intros Hall p Hp.
  - specialize (Hall p Hp).
    destruct (verify_key_cases k (fst p)) as [Hk|Hk]; rewrite Hk in Hall; simpl in Hall; [|discriminate].
    split; [apply verify_key_spec; assumption|].
    apply (proj1 (bind_unit_tt _)) in Hall; destruct Hall as [a Ha].
    apply IH; destruct (verify_type_cases e (snd p)); congruence.
  - destruct (Hall p Hp) as [Hk Hv]; apply verify_key_spec in Hk; rewrite Hk; simpl.
    apply IH in Hv; rewrite Hv; reflexivity.
Qed.

Lemma verify_type_spec t v : verify_type t v = Ok v <-> has_type t v.
Proof.
  revert v; induction t as [| | |e IH|k e IH|k e IH|]; intros v; cbn [verify_type has_type].
  - tauto.
  - destruct (is_unset TString v) eqn:E.
    + apply is_unset_none in E; [|exact I]; subst; split; auto.
    + assert (Hn : v <> VNone) by (intros ->; discriminate).
      destruct v; split; try congruence; eauto; intros [Hv|[s Hv]]; congruence.
  - destruct (is_unset TBoolean v) eqn:E.
    + apply is_unset_none in E; [|exact I]; subst; split; auto.
    + assert (Hn : v <> VNone) by (intros ->; discriminate).
      destruct v; split; try congruence; eauto; intros [Hv|[s Hv]]; congruence.
  - destruct (is_unset (TList e) v) eqn:E.
    + apply is_unset_none in E; [|exact I]; subst; split; auto.
    + assert (Hn : v <> VNone) by (intros ->; discriminate).
      destruct v as [| | | | |l|]; try (split; [congruence|intros [Hv|(l0 & Hv & _)]; congruence]).
      transitivity (Forall (has_type e) l).
      2: { split; [intros Hl; right; eauto|intros [Hv|(l' & Hv & Hl)]; [congruence|injection Hv as <-; exact Hl]]. }
      rewrite Forall_forall; split.
      * intros Ev x Hx.
        destruct (forM_ _ l) as [[]|] eqn:El; [|discriminate].
        apply (proj1 (forM_Ok _ _)) with (x := x) in El; [|exact Hx].
        apply (proj1 (bind_unit_tt _)) in El; destruct El as [a Ha].
        apply IH; destruct (verify_type_cases e x); congruence.
      * intros Hall.
        assert (El : forM_ (fun x => let* _ := verify_type e x in Ok tt) l = Ok tt).
        { apply (proj2 (forM_Ok _ _)); intros x Hx; specialize (Hall x Hx); apply IH in Hall; rewrite Hall; reflexivity. }
        rewrite El; reflexivity.
  - destruct (is_unset (TDict k e) v) eqn:E.
    + apply is_unset_none in E; [|exact I]; subst; split; auto.
    + assert (Hn : v <> VNone) by (intros ->; discriminate).
      destruct v as [| | | | | |d]; try (split; [congruence|intros [Hv|(l0 & Hv & _)]; congruence]).
      transitivity (Forall (fun p => key_has_type k (fst p) /\ has_type e (snd p)) d).
      2: { split; [intros Hl; right; eauto|intros [Hv|(l' & Hv & Hl)]; [congruence|injection Hv as <-; exact Hl]]. }
      rewrite <- (verify_entries k e d IH).
      destruct (forM_ _ d) as [[]|]; simpl; split; congruence.
  - destruct (is_unset (TMerging k e) v) eqn:E.
    + apply is_unset_merging in E; subst; split; [intros _; exists []; split; [reflexivity|constructor]|reflexivity].
    + destruct v as [| | | | | |d]; try (split; [congruence|intros (l0 & Hv & _); congruence]).
      transitivity (Forall (fun p => key_has_type k (fst p) /\ has_type e (snd p)) d).
      2: { split; [intros Hl; eauto|intros (l' & Hv & Hl); injection Hv as <-; exact Hl]. }
      rewrite <- (verify_entries k e d IH).
      destruct (forM_ _ d) as [[]|]; simpl; split; congruence.
  - destruct (is_unset TPath v) eqn:E.
    + apply is_unset_none in E; [|exact I]; subst; split; auto.
    + assert (Hn : v <> VNone) by (intros ->; discriminate).
      destruct v; split; try congruence; eauto; intros [Hv|[s Hv]]; congruence.
Qed.

Lemma verify_Ok_eq t v w : verify_type t v = Ok w -> w = v /\ has_type t v.
Proof.
  intros E; destruct (verify_type_cases t v) as [Hv|Hv]; rewrite Hv in E; [|discriminate].
  injection E as <-; split; [reflexivity|apply verify_type_spec; assumption].
Qed.

Lemma unset_has_type t : has_type t (unset t).
Proof. destruct t; simpl; auto; exists []; split; [reflexivity|constructor]. Qed.

Section FromYaml.
  Variable env : penv.

  (** The loop over the entries of a dict value. *)
  Definition entry_step (k : ktype) (e : ctype) (acc : pydict) (p : pkey * pyval) : res pydict :=
    let* x := from_yaml env e (snd p) in
    let* k' := key_from_yaml env k (fst p) in
    Ok (set k' x acc).

  Lemma key_from_yaml_typed kt k k' : key_from_yaml env kt k = Ok k' -> key_has_type kt k'.
  Proof.
    destruct kt, k; simpl; intros E; try discriminate; auto; injection E as <-; simpl; eauto.
  Qed.

  Lemma key_from_yaml_err kt k e : key_from_yaml env kt k = Err e -> e = ConfigValueError.
  Proof. destruct kt, k; simpl; intros E; congruence. Qed.

  Lemma from_yaml_none t : from_yaml env t VNone = Ok (unset t).
  Proof. destruct t; reflexivity. Qed.

  Lemma from_yaml_err t v e : from_yaml env t v = Err e -> e = ConfigValueError.
  Proof.
    revert v e; induction t as [| | |t IH|k t IH|k t IH|]; intros v er E; cbn [from_yaml] in E.
    1-3: destruct v; try discriminate E;
      match type of E with verify_type ?t ?x = _ => destruct (verify_type_cases t x); congruence end.
    - destruct v as [| | | | |l|]; try congruence.
      apply bind_Err in E; destruct E as [E|(l' & _ & E)].
      + apply mapM_Err in E; destruct E as (x & _ & E); eauto.
      + match type of E with verify_type ?t ?x = _ => destruct (verify_type_cases t x); congruence end.
    - destruct v as [| | | | | |d]; try congruence.
      apply bind_Err in E; destruct E as [E|(l' & _ & E)].
      + apply (foldM_Err _ (fun e => e = ConfigValueError)) in E; [assumption|].
        intros x a e _ Ee; apply bind_Err in Ee; destruct Ee as [Ee|(y & _ & Ee)]; [eauto|].
        apply bind_Err in Ee; destruct Ee as [Ee|(y' & _ & Ee)]; [|discriminate].
        eapply key_from_yaml_err; eauto.
      + match type of E with verify_type ?t ?x = _ => destruct (verify_type_cases t x); congruence end.
    - destruct v as [| | | | | |d]; try congruence.
      apply bind_Err in E; destruct E as [E|(l' & _ & E)].
      + apply (foldM_Err _ (fun e => e = ConfigValueError)) in E; [assumption|].
        intros x a e _ Ee; apply bind_Err in Ee; destruct Ee as [Ee|(y & _ & Ee)]; [eauto|].
        apply bind_Err in Ee; destruct Ee as [Ee|(y' & _ & Ee)]; [|discriminate].
        eapply key_from_yaml_err; eauto.
      + match type of E with verify_type ?t ?x = _ => destruct (verify_type_cases t x); congruence end.
    - destruct v; try discriminate E; cbn in E; congruence.
  Qed.

  (** Parsed values have their type. *)
  Lemma from_yaml_typed t v w : from_yaml env t v = Ok w -> has_type t w.
  Proof.
    assert (Hv : forall t x w, verify_type t x = Ok w -> has_type t w)
      by (intros t0 x w0 E; apply verify_Ok_eq in E; destruct E as [-> H]; exact H).
    destruct t as [| | |t|k t|k t|]; cbn [from_yaml]; intros E.
    1-3: destruct v; try (eapply Hv; exact E); injection E as <-; apply unset_has_type.
    - destruct v; try discriminate; [injection E as <-; apply unset_has_type|].
      apply bind_Ok in E; destruct E as (l' & _ & E); eapply Hv; exact E.
    - destruct v; try discriminate; [injection E as <-; apply unset_has_type|].
      apply bind_Ok in E; destruct E as (l' & _ & E); eapply Hv; exact E.
    - destruct v; try discriminate; [injection E as <-; apply unset_has_type|].
      apply bind_Ok in E; destruct E as (l' & _ & E); eapply Hv; exact E.
    - destruct v; try discriminate; cbn in E; injection E as <-; simpl; eauto.
  Qed.

  Lemma entries_result k e d acc d' :
    foldM (entry_step k e) d acc = Ok d' ->
    forall p, In p d' -> In p acc \/
      exists q, In q d /\ from_yaml env e (snd q) = Ok (snd p) /\ key_from_yaml env k (fst q) = Ok (fst p).
  Proof.
    revert acc; induction d as [|q d IH]; simpl; intros acc E p Hp; [left; congruence|].
    apply bind_Ok in E; destruct E as (acc1 & E1 & E2).
    destruct (IH _ E2 p Hp) as [Hin|(q' & Hq & H1 & H2)]; [|right; exists q'; auto].
    unfold entry_step in E1; apply bind_Ok in E1; destruct E1 as (x & Ex & E1).
    apply bind_Ok in E1; destruct E1 as (k' & Ek & E1); injection E1 as <-.
    destruct p as [kp vp]; apply In_set in Hin; destruct Hin as [[-> ->]|Hin]; [|left; assumption].
    right; exists q; auto.
  Qed.

  Lemma entries_wf k e d acc d' : foldM (entry_step k e) d acc = Ok d' -> wf acc -> wf d'.
  Proof.
    intros E Ha; apply (foldM_inv _ (fun a => wf a) _ _ _ E Ha).
    intros x a b _ Hw Eb; unfold entry_step in Eb.
    apply bind_Ok in Eb; destruct Eb as (y & _ & Eb); apply bind_Ok in Eb; destruct Eb as (k' & _ & Eb).
    injection Eb as <-; apply wf_set; assumption.
  Qed.

  Lemma entries_id k e d acc :
    wf (acc ++ d) ->
    (forall p, In p d -> from_yaml env e (snd p) = Ok (snd p) /\ key_from_yaml env k (fst p) = Ok (fst p)) ->
    foldM (entry_step k e) d acc = Ok (acc ++ d).
  Proof.
    revert acc; induction d as [|[k0 v0] d IH]; intros acc Hw Hall; simpl; [rewrite app_nil_r; reflexivity|].
    destruct (Hall (k0, v0) (or_introl eq_refl)) as [E1 E2]; cbn [fst snd] in E1, E2.
    unfold entry_step; cbn [fst snd]; rewrite E1, E2; cbn [bind].
    assert (Hs : set k0 v0 acc = acc ++ [(k0, v0)]).
    { assert (Hw1 : wf (acc ++ [(k0, v0)])).
      { unfold wf, keys in *; rewrite map_app in *; cbn [map fst] in *.
        apply NoDup_remove in Hw as Hw'; destruct Hw' as [Hw1 Hw2].
        apply (Permutation_NoDup (l := k0 :: map fst acc)).
        - apply Permutation_cons_append.
        - constructor; [intros Hin; apply Hw2, in_or_app; left; exact Hin|].
          clear - Hw1; induction (map fst acc) as [|x l IH]; [constructor|].
          inversion Hw1; subst; constructor; [intros Hin; apply H1, in_or_app; left; exact Hin|auto]. }
      rewrite <- (update_fresh acc [(k0, v0)] Hw1); reflexivity. }
    change (foldM (entry_step k e) d (set k0 v0 acc) = Ok (acc ++ (k0, v0) :: d)).
    rewrite Hs, IH; [rewrite <- app_assoc; reflexivity| |].
    - rewrite <- app_assoc; exact Hw.
    - intros p Hp; apply Hall; right; assumption.
  Qed.

  Lemma key_from_yaml_id kt k k' :
    env_ok env -> key_from_yaml env kt k = Ok k' -> key_from_yaml env kt k' = Ok k'.
  Proof.
    intros He; destruct kt, k; simpl; intros E; try discriminate; injection E as <-; simpl; auto.
    rewrite expand_input_path_id; [reflexivity|]; apply expand_input_path_normal; assumption.
  Qed.

  (** Parsing is idempotent. *)
  Lemma from_yaml_id t v w : env_ok env -> from_yaml env t v = Ok w -> from_yaml env t w = Ok w.
  Proof.
    intros He; revert v w; induction t as [| | |t IH|k t IH|k t IH|]; intros v w E;
      pose proof (from_yaml_typed _ _ _ E) as Hw; cbn [from_yaml] in E |- *.
    1-3: apply verify_type_spec in Hw; destruct w; try exact Hw; reflexivity.
    - destruct v; try discriminate; [injection E as <-; reflexivity|].
      apply bind_Ok in E; destruct E as (l' & El & E); apply verify_Ok_eq in E; destruct E as [-> _].
      assert (Hid : mapM (from_yaml env t) l' = Ok l').
      { apply mapM_Ok in El; apply mapM_Ok; clear Hw; induction El as [|x y l l' Exy Hl IHl];
          constructor; eauto. }
      rewrite Hid; cbn [bind]; apply verify_type_spec; exact Hw.
    - destruct v; try discriminate; [injection E as <-; reflexivity|].
      apply bind_Ok in E; destruct E as (d' & Ed & E); apply verify_Ok_eq in E; destruct E as [-> _].
      fold (entry_step k t) in *; rewrite (entries_id k t d' []); cbn [app bind].
      + apply verify_type_spec; exact Hw.
      + apply (entries_wf _ _ _ _ _ Ed), wf_nil.
      + intros p Hp; destruct (entries_result _ _ _ _ _ Ed p Hp) as [[]|(q & _ & E1 & E2)].
        split; [eapply IH; exact E1|eapply key_from_yaml_id; [exact He|exact E2]].
    - destruct v; try discriminate; [injection E as <-; reflexivity|].
      apply bind_Ok in E; destruct E as (d' & Ed & E); apply verify_Ok_eq in E; destruct E as [-> _].
      fold (entry_step k t) in *; rewrite (entries_id k t d' []); cbn [app bind].
      + apply verify_type_spec; exact Hw.
      + apply (entries_wf _ _ _ _ _ Ed), wf_nil.
      + intros p Hp; destruct (entries_result _ _ _ _ _ Ed p Hp) as [[]|(q & _ & E1 & E2)].
        split; [eapply IH; exact E1|eapply key_from_yaml_id; [exact He|exact E2]].
    - destruct v; try discriminate; cbn in E; injection E as <-; cbn; [reflexivity|].
      rewrite expand_input_path_id; [reflexivity|]; apply expand_input_path_normal; assumption.
  Qed.
End FromYaml.
