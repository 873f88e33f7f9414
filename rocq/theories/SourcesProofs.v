(** Proofs about sources and the database. *)
From Verif Require Import Base Dict PyVal RulesDict RulesSpec RulesLookupProofs Verify VerifySpec VerifyProofs
  VerifiedLookup Expand Sources SourcesSpec.

(** ** Lookup and keys *)
Lemma raw_merge_verified uni v acc b :
  verify_installer_dict uni v false = Ok tt ->
  exists d, v = VDict d /\
    raw_merge (VDict d) acc b = Ok (fold_left (fun c p => set (fst p) (snd p) c) d acc).
Proof.
  intros H; destruct v as [| | | | | |d]; try discriminate; exists d; split; [reflexivity|].
  simpl in H; revert acc; induction d as [|[k x] d IH]; intros acc; simpl; [reflexivity|].
  simpl in H; apply bind_Ok in H; destruct H as ([] & H1 & H2).
  cbn [fst snd] in H1; apply bind_Ok in H1; destruct H1 as ([] & H1 & H3).
  assert (E : raw_replace k b = Ok k).
  { destruct k as [t| | |]; try reflexivity; simpl; unfold replace_default_installer.
    destruct (eqb_spec t default_installer) as [->|Hn]; [|reflexivity].
    rewrite eqb_refl in H1; discriminate. }
  rewrite E; simpl; apply IH; exact H2.
Qed.

Lemma fold_set_get {K V} `{EqB K} (d acc : dict K V) i :
  wf d -> get i (fold_left (fun c p => set (fst p) (snd p) c) d acc) = orelse (get i d) (get i acc).
Proof.
  revert acc; induction d as [|[k x] d IH]; intros acc Hw; simpl; [reflexivity|].
  apply wf_cons in Hw; destruct Hw as [Hk Hw]; rewrite IH by exact Hw; rewrite get_set, get_cons.
  destruct (eqb_spec i k) as [->|Hn]; [rewrite Hk; reflexivity|reflexivity].
Qed.

Section DB.
  Variable uni : N -> bool.
  Notation slook := (source_lookup uni).

  Lemma source_lookup_dict s key ic v : slook s key ic = Ok v ->
    exists d, v = VDict d /\ forall acc, raw_merge v acc None =
      Ok (fold_left (fun c p => set (fst p) (snd p) c) d acc).
  Proof.
    intros H; unfold source_lookup in H; apply bind_Ok in H; destruct H as (d & H1 & H).
    apply bind_Ok in H; destruct H as ([] & H2 & H); injection H as <-.
    destruct d as [| | | | | |d]; try discriminate; exists d; split; [reflexivity|]; intros acc.
    destruct (raw_merge_verified uni (VDict d) acc None H2) as (d' & E & H); injection E as <-; exact H.
  Qed.

  Lemma first_some_app {A} (l1 l2 : list (option A)) :
    first_some (l1 ++ l2) = orelse (first_some l1) (first_some l2).
  Proof. induction l1 as [|[a|] l1 IH]; simpl; auto. Qed.

  Lemma db_lookup_fold l key ic acc d :
    (forall s o, In s l -> slook s key ic = Ok (VDict o) -> wf o) ->
    foldM (fun acc s => let* new := slook s key ic in raw_merge new acc None) (rev l) acc = Ok d ->
    exists outs, Forall2 (fun s o => slook s key ic = Ok (VDict o)) l outs /\
      forall i, get i d = orelse (first_some (map (get i) outs)) (get i acc).
  Proof.
    revert d acc; induction l as [|s l IH]; intros d acc Hw E.
    - simpl in E; injection E as <-; exists []; split; [constructor|reflexivity].
    - simpl in E; rewrite foldM_app in E; apply bind_Ok in E; destruct E as (d1 & E1 & E2).
      destruct (IH d1 acc) as (outs & HF & Hg); [intros; eapply Hw; [right; eassumption|eassumption]|exact E1|].
      simpl in E2; apply bind_Ok in E2; destruct E2 as (d2 & E2 & E3); injection E3 as ->.
      apply bind_Ok in E2; destruct E2 as (v & Es & Em).
      destruct (source_lookup_dict _ _ _ _ Es) as (o & -> & Hm); rewrite Hm in Em; injection Em as <-.
      exists (o :: outs); split; [constructor; assumption|]; intros i.
      rewrite fold_set_get by (eapply Hw; [left; reflexivity|exact Es]); rewrite Hg; simpl.
      destruct (get i o); reflexivity.
  Qed.

  Lemma db_lookup_total l key ic acc :
    (forall s, In s l -> exists v, slook s key ic = Ok v) ->
    exists d, foldM (fun acc s => let* new := slook s key ic in raw_merge new acc None) (rev l) acc = Ok d.
  Proof.
    revert acc; induction l as [|s l IH]; intros acc Ha; [simpl; eauto|].
    simpl; rewrite foldM_app; destruct (IH acc) as [d ->]; [intros; apply Ha; right; assumption|].
    destruct (Ha s (or_introl eq_refl)) as [v Ev]; simpl; rewrite Ev; simpl.
    destruct (source_lookup_dict _ _ _ _ Ev) as (o & -> & Hm); rewrite Hm; simpl; eauto.
  Qed.

  Lemma db_lookup_Err l key ic e :
    db_lookup uni l key ic = Err e -> exists l1 s l2, l = l1 ++ s :: l2 /\ slook s key ic = Err e /\
      forall s', In s' l2 -> exists v, slook s' key ic = Ok v.
  Proof.
    unfold db_lookup; generalize (@nil (pkey * pyval)) as acc; induction l as [|s l IH]; intros acc E;
      [discriminate|].
    simpl in E; rewrite foldM_app in E; apply bind_Err in E; destruct E as [E|(d & E1 & E2)].
    - destruct (IH _ E) as (l1 & s' & l2 & -> & H1 & H2); exists (s :: l1), s', l2; auto.
    - simpl in E2; apply bind_Err in E2; destruct E2 as [E2|(? & _ & E2)]; [|discriminate].
      apply bind_Err in E2; destruct E2 as [E2|(v & Ev & E2)].
      + exists [], s, l; split; [reflexivity|]; split; [exact E2|].
        clear - E1; revert acc d E1; induction l as [|x l IH]; intros acc d E1 s' Hin; [destruct Hin|].
        simpl in E1; rewrite foldM_app in E1; apply bind_Ok in E1; destruct E1 as (d1 & E1 & E2).
        destruct Hin as [<-|Hin]; [|eapply IH; eassumption].
        simpl in E2; apply bind_Ok in E2; destruct E2 as (d2 & E2 & _); apply bind_Ok in E2.
        destruct E2 as (v & Ev & _); eauto.
      + destruct (source_lookup_dict _ _ _ _ Ev) as (o & -> & Hm); rewrite Hm in E2; discriminate.
  Qed.
End DB.

Lemma in_set_add {A} `{EqB A} (l : list A) x y : In y (set_add l x) <-> In y l \/ y = x.
Proof.
  unfold set_add; destruct (mem x l) eqn:E.
  - apply mem_In in E; split; [auto|intros [Hy| ->]; assumption].
  - rewrite in_app_iff; simpl; split; intros [Hy|Hy]; auto; destruct Hy as [->|[]]; auto.
Qed.

Lemma nodup_set_add {A} `{EqB A} (l : list A) x : NoDup l -> NoDup (set_add l x).
Proof.
  unfold set_add; intros Hl; destruct (mem x l) eqn:E; [exact Hl|].
  apply mem_not_In in E; apply (Permutation_NoDup (l := x :: l)).
  - apply Permutation_cons_append.
  - constructor; assumption.
Qed.

Lemma in_fold_add {A} `{EqB A} (ks acc : list A) y :
  In y (fold_left set_add ks acc) <-> In y acc \/ In y ks.
Proof.
  revert acc; induction ks as [|k ks IH]; intros acc; simpl; [tauto|].
  rewrite IH, in_set_add; split; intros [Hy|Hy]; auto; destruct Hy; auto.
Qed.

Lemma nodup_fold_add {A} `{EqB A} (ks acc : list A) : NoDup acc -> NoDup (fold_left set_add ks acc).
Proof. revert acc; induction ks as [|k ks IH]; intros acc Ha; simpl; auto using nodup_set_add. Qed.

Lemma db_keys_Ok l ic ks : db_keys l ic = Ok ks ->
  NoDup ks /\ (forall s, In s l -> exists ks', source_keys s ic = Ok ks') /\
  forall k, In k ks <-> exists s ks', In s l /\ source_keys s ic = Ok ks' /\ In k ks'.
Proof.
  unfold db_keys.
  assert (G : forall l acc ks, foldM (fun acc s => let* ks := source_keys s ic in Ok (fold_left set_add ks acc)) l acc = Ok ks ->
    NoDup acc -> NoDup ks /\ (forall s, In s l -> exists ks', source_keys s ic = Ok ks') /\
    forall k, In k ks <-> In k acc \/ exists s ks', In s l /\ source_keys s ic = Ok ks' /\ In k ks').
  { clear; induction l as [|s l IH]; intros acc ks E Ha; simpl in E.
    - injection E as <-; split; [exact Ha|]; split; [intros ? []|].
      intros k; split; [auto|intros [Hk|(? & ? & [] & _)]; exact Hk].
    - apply bind_Ok in E; destruct E as (acc' & E1 & E2); apply bind_Ok in E1.
      destruct E1 as (ks' & Ek & E1); injection E1 as <-.
      destruct (IH _ _ E2 (nodup_fold_add _ _ Ha)) as (H1 & H2 & H3).
      split; [exact H1|]; split.
      + intros s' [<-|Hin]; eauto.
      + intros k; rewrite H3, in_fold_add; split.
        * intros [[Hk|Hk]|(s' & ks'' & Hs & Hx & Hk)]; auto; right; [exists s, ks'|exists s', ks''];
            simpl; auto.
        * intros [Hk|(s' & ks'' & [<-|Hs] & Hx & Hk)]; auto; [|right; eauto].
          left; right; congruence. }
  intros E; destruct (G l [] ks E (NoDup_nil _)) as (H1 & H2 & H3).
  split; [exact H1|]; split; [exact H2|].
  intros k; rewrite H3; simpl; tauto.
Qed.

Lemma db_keys_total l ic : (forall s, In s l -> exists ks', source_keys s ic = Ok ks') ->
  exists ks, db_keys l ic = Ok ks.
Proof.
  unfold db_keys; generalize (@nil pkey) as acc; induction l as [|s l IH]; intros acc Ha; simpl; [eauto|].
  destruct (Ha s (or_introl eq_refl)) as [ks' ->]; simpl; apply IH; intros; apply Ha; right; assumption.
Qed.

(** Raw key listing of typed data. *)
Lemma text_in_inj {V} (f : V -> pyval) k (d : dict text V) : text_in k (inj_dict f d) = Ok (has k d).
Proof.
  unfold text_in, inj_dict; f_equal; unfold has; rewrite get_inj; destruct (get k d); reflexivity.
Qed.

Lemma raw_has_rule_inj (od : os_dict pyval) os version :
  raw_has_rule_for_os (inj_od od) os version = Ok (has_rule_for_os od os version).
Proof.
  unfold raw_has_rule_for_os, has_rule_for_os, inj_od; rewrite !text_in_inj; cbn [bind].
  destruct (has any_os od); [reflexivity|].
  cbn [bind]; unfold has at 1.
  destruct (get os od) as [vd|] eqn:E; [|reflexivity].
  unfold inj_dict; rewrite get_inj, E; cbn [option_map]; unfold inj_vd; rewrite !text_in_inj; cbn [bind].
  destruct (has version vd); reflexivity.
Qed.

Lemma raw_keys_inj (r : rules_dict pyval) ic :
  raw_keys (inj_rules r) ic = Ok (map KStr (spec_keys r (ic_os ic) (ic_version ic))).
Proof.
  unfold raw_keys, inj_rules, inj_dict, spec_keys, keys.
  assert (G : forall acc, foldM (fun acc p => let* b := raw_has_rule_for_os (snd p) (ic_os ic) (ic_version ic) in
                        Ok (if b then acc ++ [fst p] else acc))
      (map (fun p : text * os_dict pyval => (KStr (fst p), inj_od (snd p))) r) acc =
      Ok (acc ++ map KStr (map fst (filter (fun p => has_rule_for_os (snd p) (ic_os ic) (ic_version ic)) r)))).
  { induction r as [|[k od] r IH]; intros acc; simpl; [rewrite app_nil_r; reflexivity|].
    rewrite raw_has_rule_inj; simpl; rewrite IH.
    destruct (has_rule_for_os od _ _); simpl; [rewrite <- app_assoc|]; reflexivity. }
  rewrite G; reflexivity.
Qed.
