(** Proofs about rewriting a rules file in compact notation (C81, C83). *)
From Verif Require Import Base Dict PyVal RulesDict RulesSpec Verify VerifySpec VerifyProofs VerifiedLookup
  Expand ExpandSpec ExpandProofs Compact CompactSpec CompactProofs Sources SourcesSpec CacheProofs Order Commands.

(** ** The typed view *)
Lemma out_inj_dict {V} (f : V -> pyval) g (d : dict text V) :
  (forall k x, In (k, x) d -> g (f x) = Some x) -> out_dict g (inj_dict f d) = Some d.
Proof.
  unfold inj_dict, out_dict; induction d as [|[k x] d IH]; intros H; cbn [map opt_map fst snd]; [reflexivity|].
  rewrite (H k x (or_introl eq_refl)), IH; [reflexivity|]; intros k' x' Hin; apply (H k'); right; exact Hin.
Qed.

Lemma out_inj_rules r : out_rules (inj_rules r) = Some r.
Proof.
  unfold out_rules, inj_rules; apply out_inj_dict; intros _ od _.
  unfold inj_od; apply out_inj_dict; intros _ vd _.
  unfold inj_vd; apply out_inj_dict; intros _ id _.
  unfold inj_id; apply out_inj_dict; reflexivity.
Qed.

(** ** pyeq and dict order *)
Lemma pyeq_veq_r a : forall b b', pyeq a b = true -> veq b b' -> wfval b -> pyeq a b' = true.
Proof.
  induction a as [|x|x|x|x|xs IH|d IH] using pyval_ind'; intros b b' E H Hw.
  1-5: destruct b; try discriminate E; apply veq_cases in H; subst b'; exact E.
  - destruct b as [| | | | |ys|]; try discriminate E; destruct (veq_cases _ _ H) as (ys' & -> & F); clear H.
    apply (proj1 (wfval_list _)) in Hw; revert ys ys' E F Hw; induction IH as [|x xs Hx Hxs IHl]; intros ys ys' E F Hw.
    + destruct ys; [|discriminate]; inversion F; reflexivity.
    + destruct ys as [|y ys]; [discriminate|]; inversion F as [|? y' ? ys2 Hy F']; subst.
      inversion Hw as [|? ? Hwy Hwys]; subst; cbn [pyeq] in E; apply andb_true_iff in E; destruct E as [E1 E2].
      cbn [pyeq]; apply andb_true_iff; split; [eapply Hx; eassumption|]; exact (IHl ys ys2 E2 F' Hwys).
  - destruct b as [| | | | | |e]; try discriminate E; destruct (veq_cases _ _ H) as (e' & ->).
    apply (proj1 (pyeq_dict _ _)) in E; destruct E as [El Eg].
    pose proof (veq_wfval _ _ Hw H) as Hw'; apply (proj1 (wfval_dict _)) in Hw, Hw'.
    destruct Hw as [We Fe], Hw' as [We' _].
    apply (proj2 (pyeq_dict _ _)); split.
    + rewrite El; inversion H as [| |? e0 ? P F]; subst; [contradiction|].
      rewrite (Permutation_length P); clear - F; induction F; cbn; congruence.
    + intros k x Hin; destruct (Eg k x Hin) as (y & Ey & Hy).
      apply (proj1 (veq_ext _ _ We We')) in H; specialize (H k); rewrite Ey in H.
      destruct (get k e') as [y'|]; [|contradiction]; exists y'; split; [reflexivity|].
      rewrite Forall_forall in IH, Fe; apply (IH (k, x) Hin y y' Hy H); apply get_In in Ey; apply (Fe _ Ey).
Qed.

Lemma same_rule_veq a b b' : same_rule a b -> veq b b' -> wfval b -> same_rule a b'.
Proof.
  intros [->|E] H Hw; right; [apply veq_pyeq; assumption|eapply pyeq_veq_r; eassumption].
Qed.

(** ** Compacted values are well formed *)
Lemma wfval_inj {V} (f : V -> pyval) (d : dict text V) :
  wf d -> (forall k x, In (k, x) d -> wfval (f x)) -> wfval (inj_dict f d).
Proof. intros H1 H2; apply wfval_inj_dict; split; assumption. Qed.

Lemma wfval_compact_rule r : wfval r -> wfval (compact_installer_rule r).
Proof.
  intros H; destruct r as [| | | | | |d]; try exact H; cbn [compact_installer_rule].
  destruct (get k_packages d) as [x|] eqn:E; [|exact H]; destruct (Nat.eqb _ 1); [|exact H].
  apply (proj1 (wfval_dict _)) in H; destruct H as [_ H]; rewrite Forall_forall in H; apply get_In in E; apply (H _ E).
Qed.

Lemma wfval_compact_id id def c : wf id -> (forall k x, In (k, x) id -> wfval x) ->
  compact_installer_dict id def = Ok c -> wfval c.
Proof.
  intros Hw Hv E; apply compact_id_spec in E; destruct E as [_ ->]; cbv zeta.
  assert (G : wfval (inj_id (map_vals compact_installer_rule (rename def id)))).
  { apply wfval_inj; [apply wf_map_vals, wf_rename; exact Hw|]; intros k x Hin; unfold map_vals in Hin.
    apply in_map_iff in Hin; destruct Hin as ([k' x'] & Eq & Hin); injection Eq as <- <-.
    apply wfval_compact_rule; apply rename_In in Hin; destruct Hin as (k2 & Hin); eapply Hv; exact Hin. }
  destruct (get (keyof def) (rename def id)) as [r|] eqn:Er; [|exact G].
  destruct (_ && _); [|exact G]; apply wfval_compact_rule.
  apply get_In, rename_In in Er; destruct Er as (k2 & Hin); eapply Hv; exact Hin.
Qed.

Lemma wfval_compact_vd vd def c : wf vd ->
  (forall v id, In (v, id) vd -> wf id /\ forall k x, In (k, x) id -> wfval x) ->
  compact_version_dict vd def = Ok c -> wfval c.
Proof.
  intros Hw Hv E; unfold compact_version_dict in E.
  assert (G : forall anyc acc d, foldM (compact_version_step def anyc) vd acc = Ok d ->
     wf acc -> (forall k x, In (k, x) acc -> wfval x) -> wf d /\ forall k x, In (k, x) d -> wfval x).
  { clear E Hw; intros anyc acc d; revert acc; induction vd as [|[v id] vd IH]; intros acc E Ha Hx; cbn [foldM] in E.
    - injection E as <-; split; assumption.
    - apply bind_Ok in E; destruct E as (acc' & E1 & E2).
      assert (A : wf acc' /\ forall k x, In (k, x) acc' -> wfval x).
      { unfold compact_version_step in E1; cbn [fst snd] in E1.
        destruct (eqb v any_version); [injection E1 as <-; split; assumption|].
        apply bind_Ok in E1; destruct E1 as (c' & Ec & E1).
        assert (Wc : wfval c') by (destruct (Hv v id (or_introl eq_refl)); eapply wfval_compact_id; eassumption).
        assert (S' : wf (set v c' acc) /\ forall k x, In (k, x) (set v c' acc) -> wfval x).
        { split; [apply wf_set; exact Ha|]; intros k x Hin; apply In_set in Hin; destruct Hin as [[_ ->]|Hin]; [exact Wc|eauto]. }
        destruct anyc as [a|]; [destruct (pyeq c' a)|]; injection E1 as <-; try exact S'; split; assumption. }
      destruct A as [A1 A2]; apply (IH (fun v' id' Hin => Hv v' id' (or_intror Hin)) acc' E2 A1 A2). }
  destruct (get any_version vd) as [aid|] eqn:Ea.
  - apply bind_Ok in E; destruct E as (a & Eca & E).
    assert (Wa : wfval a).
    { apply get_In in Ea; destruct (Hv _ _ Ea); eapply wfval_compact_id; eassumption. }
    destruct (_ && _); [injection E as <-; exact Wa|].
    apply bind_Ok in E; destruct E as (d & Ef & E); injection E as <-.
    apply G in Ef; [|repeat constructor; intros []|intros k x [Eq|[]]; injection Eq as _ <-; exact Wa].
    destruct Ef; apply wfval_inj; assumption.
  - apply bind_Ok in E; destruct E as (d & Ef & E); injection E as <-.
    apply G in Ef; [|apply wf_nil|intros k x []]; destruct Ef; apply wfval_inj; assumption.
Qed.

Lemma mapM_keys {A B} (f : text * A -> res (text * B)) d e :
  (forall p q, f p = Ok q -> fst q = fst p) -> mapM f d = Ok e -> keys e = keys d.
Proof.
  intros Hf E; apply mapM_Ok in E; unfold keys; induction E as [|p q d e Hp F IH]; cbn [map]; [reflexivity|].
  rewrite (Hf p q Hp), IH; reflexivity.
Qed.

Lemma wfval_inj_rules_inv r : wfval (inj_rules r) ->
  wf r /\ forall k od, In (k, od) r -> wf od /\ forall os vd, In (os, vd) od -> wf vd /\
    forall v id, In (v, id) vd -> wf id /\ forall i x, In (i, x) id -> wfval x.
Proof.
  intros H; apply wfval_inj_dict in H; destruct H as [H1 H2]; split; [exact H1|].
  intros k od Hin; specialize (H2 _ _ Hin); apply wfval_inj_dict in H2; destruct H2 as [H3 H4].
  split; [exact H3|]; intros os vd Hin'; specialize (H4 _ _ Hin'); apply wfval_inj_dict in H4.
  destruct H4 as [H5 H6]; split; [exact H5|]; intros ver id Hin''.
  specialize (H6 _ _ Hin''); apply wfval_inj_dict in H6; exact H6.
Qed.

Lemma wfval_compact r defs c : wfval (inj_rules r) -> compact_rules r defs = Ok c -> wfval c.
Proof.
  intros Hw E; apply wfval_inj_rules_inv in Hw; destruct Hw as [Hr Ho].
  unfold compact_rules in E; apply bind_Ok in E; destruct E as (d & Em & E); injection E as <-.
  assert (K : keys d = keys r).
  { apply (mapM_keys _ _ _) in Em; [exact Em|]; intros p q Hq; apply bind_Ok in Hq; destruct Hq as (c0 & _ & Hq); injection Hq as <-; reflexivity. }
  apply wfval_inj; [unfold wf; rewrite K; exact Hr|]; clear K Hr; intros k c0 Hin.
  apply mapM_Ok in Em; destruct (Forall2_In_r _ _ _ _ Em Hin) as ([k0 od] & Hin0 & Hq); cbn [fst snd] in Hq.
  apply bind_Ok in Hq; destruct Hq as (c1 & Hc & Hq); injection Hq as <- <-.
  destruct (Ho _ _ Hin0) as [Wod Hvd]; clear Em Ho Hin Hin0 d.
  unfold compact_os_dict in Hc; apply bind_Ok in Hc; destruct Hc as (d & Em & E); injection E as <-.
  assert (K : keys d = keys od).
  { apply (mapM_keys _ _ _) in Em; [exact Em|]; intros p q Hq; unfold compact_os_item in Hq.
    destruct (eqb (fst p) any_os); [apply bind_Ok in Hq; destruct Hq as (i & _ & Hq)|];
      apply bind_Ok in Hq; destruct Hq as (c0 & _ & Hq); injection Hq as <-; reflexivity. }
  apply wfval_inj; [unfold wf; rewrite K; exact Wod|]; clear K Wod; intros k c0 Hin.
  apply mapM_Ok in Em; destruct (Forall2_In_r _ _ _ _ Em Hin) as ([k1 vd] & Hin0 & Hq).
  destruct (Hvd _ _ Hin0) as [Wvd Hid]; unfold compact_os_item in Hq; cbn [fst snd] in Hq.
  destruct (eqb k1 any_os).
  - apply bind_Ok in Hq; destruct Hq as (i & Hi & Hq); apply bind_Ok in Hq; destruct Hq as (c1 & Hc & Hq); injection Hq as <- <-.
    unfold getitem in Hi; destruct (get any_version vd) as [i'|] eqn:Ei; [injection Hi as ->|discriminate].
    apply get_In in Ei; destruct (Hid _ _ Ei); eapply wfval_compact_id; eassumption.
  - apply bind_Ok in Hq; destruct Hq as (c1 & Hc & Hq); injection Hq as <- <-; eapply wfval_compact_vd; eassumption.
Qed.

(** ** Re-expanded files are unambiguous and verify *)
Lemma gid_keys def id k x : wf id -> not_both def id -> In (k, x) (gid def id) ->
  (k = default_installer /\ (usable def = true -> gid def id = [(k, x)] /\ ~ In default_installer (keys (rename def id)))) \/
  In (k, x) (rename def id).
Proof.
  intros Hw Hnb Hin; unfold gid in Hin |- *.
  destruct (get (keyof def) (rename def id)) as [r|] eqn:Er; [|right; exact Hin].
  destruct (_ && _); [|right; exact Hin].
  destruct Hin as [Eq|[]]; injection Eq as <- <-; left; split; [reflexivity|].
  intros Hu; split; [reflexivity|apply rename_no_default; assumption].
Qed.

Lemma gid_not_both def id : wf id -> not_both def id -> not_both def (gid def id).
Proof.
  intros Hw Hnb n En Hn Hd Hin.
  assert (Hu : usable def = true) by (subst def; destruct n; [congruence|reflexivity]).
  pose proof (rename_no_default def id Hu Hnb) as Hr.
  unfold gid in *; destruct (get (keyof def) (rename def id)) as [r|] eqn:Er; [|contradiction].
  destruct (_ && _); [|contradiction].
  destruct Hin as [Hin|[]]; subst n; apply Hr.
  apply get_In, In_keys in Er; subst def; exact Er.
Qed.

Lemma raw_entry_inj g key os v d : raw_entry (inj_rules g) key os v d ->
  exists od vd id, In (key, od) g /\ In (os, vd) od /\ In (v, id) vd /\
    d = map (fun p : text * pyval => (KStr (fst p), snd p)) id.
Proof.
  intros (r & od & vd & E & H1 & H2 & H3); injection E as <-.
  apply in_map_iff in H1; destruct H1 as ([k1 od'] & Eq & H1); injection Eq as <- <-.
  apply in_map_iff in H2; destruct H2 as ([k2 vd'] & Eq & H2); injection Eq as <- <-.
  apply in_map_iff in H3; destruct H3 as ([k3 id'] & Eq & H3); injection Eq as <- <-.
  exists od', vd', id'; repeat (split; [assumption|]); reflexivity.
Qed.

Lemma In_gvd def vd v id' : In (v, id') (gvd def vd) -> exists id, In (v, id) vd /\ id' = gid def id.
Proof.
  unfold gvd; intros H; destruct (get any_version vd) as [aid|] eqn:Ea.
  - destruct H as [Eq|H]; [injection Eq as <- <-; exists aid; split; [apply get_In; exact Ea|reflexivity]|].
    apply in_map_iff in H; destruct H as ([v0 id0] & Eq & H); injection Eq as <- <-.
    apply filter_In in H; destruct H as [H _]; eauto.
  - apply in_map_iff in H; destruct H as ([v0 id0] & Eq & H); injection Eq as <- <-.
    apply filter_In in H; destruct H as [H _]; eauto.
Qed.

(** An entry of the re-expanded file: for any_os the original one, for another os a
    re-expanded original one. *)
Lemma In_grules defs r key od' os vd' v id' :
  In (key, od') (grules defs r) -> In (os, vd') od' -> In (v, id') vd' ->
  exists od vd, In (key, od) r /\ In (os, vd) od /\
    ((os = any_os /\ v = any_version /\ (id' = [] \/ In (v, id') vd)) \/
     (os <> any_os /\ exists id, In (v, id) vd /\ id' = gid (configured_default defs os) id)).
Proof.
  intros H1 H2 H3; unfold grules in H1; apply in_map_iff in H1; destruct H1 as ([k od] & Eq & H1).
  cbn [fst snd] in Eq; injection Eq as -> <-; unfold god in H2; apply in_map_iff in H2.
  destruct H2 as ([o vd] & Eq & H2); cbn [fst] in Eq; injection Eq as -> <-.
  exists od, vd; split; [exact H1|]; split; [exact H2|]; unfold god_item in H3; cbn [fst snd] in H3.
  destruct (eqb_spec os any_os) as [Ho|Ho].
  - left; split; [exact Ho|]; destruct H3 as [Eq|[]]; injection Eq as <- <-; split; [reflexivity|].
    unfold getd; destruct (get any_version vd) as [x|] eqn:E; [right; apply get_In; exact E|left; reflexivity].
  - right; split; [exact Ho|apply In_gvd; exact H3].
Qed.

Section Grules.
  Variable uni : N -> bool.
  Notation acc := (accepted_identifier uni).
  Variable defs : dict text (option text).
  Hypothesis Hdefs : forall os n, get os defs = Some (Some n) -> legal_identifier uni n /\ ~ In n reserved.

  Lemma configured_legal os n : configured_default defs os = Some n -> legal_identifier uni n /\ ~ In n reserved.
  Proof.
    unfold configured_default; destruct (get os defs) as [x|] eqn:E; [|discriminate]; intros ->; eapply Hdefs; exact E.
  Qed.

  Lemma legal_nonempty n : legal_identifier uni n -> n <> [].
  Proof. intros [->|[H _]]; [discriminate|exact H]. Qed.

  Lemma grules_unamb r key os v :
    good_rules r -> wf_rules r ->
    (forall key od os vd, In (key, od) r -> In (os, vd) od -> os <> any_os ->
       compact_ok (configured_default defs os) vd) ->
    os <> any_os -> unamb_lookup (inj_rules (grules defs r)) key os v (configured_default defs os).
  Proof.
    intros Hg Hwr Hok Hos d H n En Hnd Hd Hn.
    assert (A : forall os' v', (os' = any_os \/ os' = os) -> raw_entry (inj_rules (grules defs r)) key os' v' d -> False).
    { intros os' v' Ho He; apply raw_entry_inj in He; destruct He as (od' & vd' & id' & H1 & H2 & H3 & ->).
      destruct (In_grules _ _ _ _ _ _ _ _ H1 H2 H3) as (od & vd & G1 & G2 & [(-> & -> & [->|G3])|(Hn' & id & G3 & ->)]).
      - destruct Hd.
      - rewrite map_map in Hd; cbn [fst] in Hd; apply in_map_iff in Hd; destruct Hd as ([i x] & Eq & Hd); injection Eq as ->.
        destruct (proj2 Hg _ _ G1) as [_ G]; destruct (G _ _ G2) as [_ Gno]; destruct (Gno eq_refl _ _ G3) as [Gd _].
        apply Gd; eapply In_keys; exact Hd.
      - destruct Ho as [-> | ->]; [congruence|].
        pose proof (compact_not_both _ _ _ (Hok _ _ _ _ G1 G2 Hn' _ _ G3)) as Hnb.
        assert (Wid : wf id).
        { destruct (proj2 Hg _ _ G1) as [_ G]; destruct (G _ _ G2) as [[_ Gv] _]; destruct (Gv _ _ G3) as [Gw _]; exact Gw. }
        assert (K : forall k, In (KStr k) (map fst (map (fun p : text * pyval => (KStr (fst p), snd p)) (gid (configured_default defs os) id))) ->
                    In k (keys (gid (configured_default defs os) id))).
        { intros k Hk; rewrite map_map in Hk; apply in_map_iff in Hk; destruct Hk as ([i x] & Eq & Hk); injection Eq as ->.
          eapply In_keys; exact Hk. }
        apply (gid_not_both _ _ Wid Hnb n En); [|apply K; exact Hd|apply K; exact Hn].
        apply legal_nonempty; eapply configured_legal; exact En. }
    destruct H as [H|[H|H]]; (eapply A; [|exact H]); auto.
  Qed.

  Lemma In_inj {V} (f : V -> pyval) (d : dict text V) k x : In (k, x) (map (fun p => (KStr (fst p), f (snd p))) d) ->
    exists k' y, k = KStr k' /\ x = f y /\ In (k', y) d.
  Proof. intros H; apply in_map_iff in H; destruct H as ([k' y] & Eq & H); injection Eq as <- <-; eauto. Qed.

  Lemma inj_In {V} (f : V -> pyval) (d : dict text V) k y : In (k, y) d ->
    In (KStr k, f y) (map (fun p => (KStr (fst p), f (snd p))) d).
  Proof. intros H; apply in_map_iff; exists (k, y); split; [reflexivity|exact H]. Qed.

  Lemma rename_entry def id k x : In (k, x) (rename def id) ->
    In (k, x) id \/ exists n, def = Some n /\ k = n /\ In (default_installer, x) id.
  Proof.
    unfold rename; destruct def as [[|c n]|]; auto.
    destruct (get default_installer id) as [r0|] eqn:E; [|auto].
    intros H; apply In_del in H; destruct H as [H _]; apply In_set in H.
    destruct H as [[-> ->]|H]; [right; exists (c :: n); split; [reflexivity|]; split; [reflexivity|apply get_In; exact E]|auto].
  Qed.

  Lemma gid_entry def id k x : In (k, x) (gid def id) ->
    (k = default_installer /\ exists k', In (k', x) (rename def id)) \/ In (k, x) (rename def id).
  Proof.
    unfold gid; intros H; destruct (get (keyof def) (rename def id)) as [r|] eqn:E; [|auto].
    destruct (_ && _); [|auto]; destruct H as [Eq|[]]; injection Eq as <- <-; left; split; [reflexivity|].
    exists (keyof def); apply get_In; exact E.
  Qed.

  Lemma grules_ok r : rules_file_ok acc (inj_rules r) -> rules_file_ok acc (inj_rules (grules defs r)).
  Proof.
    intros (d & E & H); injection E as <-; eexists; split; [reflexivity|]; intros k x Hin.
    apply In_inj in Hin; destruct Hin as (key & od' & -> & -> & Hin).
    assert (Hod : exists od, In (key, od) r /\ od' = god defs od).
    { unfold grules in Hin; apply in_map_iff in Hin; destruct Hin as ([k0 od] & Eq & Hin).
      cbn [fst snd] in Eq; injection Eq as <- <-; eauto. }
    destruct Hod as (od & Hr & ->); destruct (H _ _ (inj_In inj_od r key od Hr)) as [Hk Ho]; split; [exact Hk|].
    clear H Hin Hk; destruct Ho as (d & E & Ho); injection E as <-; eexists; split; [reflexivity|]; intros k x Hin.
    apply In_inj in Hin; destruct Hin as (os & vd' & -> & -> & Hin).
    unfold god in Hin; apply in_map_iff in Hin; destruct Hin as ([o vd] & Eq & Hin); cbn [fst] in Eq; injection Eq as -> <-.
    destruct (Ho _ _ (inj_In inj_vd od os vd Hin)) as (Hk & dflt' & Hv & Hd).
    split; [exact Hk|]; exists dflt'; split; [|exact Hd].
    destruct Hv as (d & E & Hv); injection E as <-; unfold god_item; cbn [fst snd].
    eexists; split; [reflexivity|]; intros k x Hin'; apply In_inj in Hin'; destruct Hin' as (v & id' & -> & -> & Hin').
    destruct (eqb_spec os any_os) as [Hos|Hos].
    - destruct Hin' as [Eq|[]]; injection Eq as <- <-.
      unfold getd; destruct (get any_version vd) as [id|] eqn:Ea.
      + apply get_In in Ea; apply (Hv _ _ (inj_In inj_id vd _ _ Ea)).
      + split; [|eexists; split; [reflexivity|]; intros k x []].
        exists any_version; split; [reflexivity|]; split; [|intros _; left; reflexivity].
        left; right; split; [discriminate|]; unfold any_version.
        repeat (apply Forall_cons; [left; unfold word_char; vm_compute; repeat (first [left; split; discriminate|right; left; split; discriminate|right; right; left; split; discriminate|right; right; right; left; reflexivity])|]); apply Forall_nil.
    - apply In_gvd in Hin'; destruct Hin' as (id & Hid & ->).
      destruct (Hv _ _ (inj_In inj_id vd _ _ Hid)) as [Hkv Hi]; split; [exact Hkv|].
      destruct Hi as (d & E & Hi); injection E as <-; eexists; split; [reflexivity|]; intros k x Hin'.
      apply In_inj in Hin'; destruct Hin' as (i & rule & -> & -> & Hin').
      assert (Dt : dflt' = true) by (apply Hd; split; [reflexivity|intros Eq; injection Eq as Eq; exact (Hos Eq)]).
      assert (Hren : forall i, In (i, rule) (rename (configured_default defs os) id) ->
                name_ok acc [u "default_installer"] (KStr i) /\ rule_ok acc rule).
      { intros j Hj; apply rename_entry in Hj; destruct Hj as [Hj|(n & En & -> & Hj)].
        - destruct (Hi _ _ (inj_In (fun x => x) id _ _ Hj)) as (A & _ & B); split; assumption.
        - destruct (Hi _ _ (inj_In (fun x => x) id _ _ Hj)) as (_ & _ & B); split; [|exact B].
          destruct (configured_legal _ _ En) as [L1 L2]; exists n; split; [reflexivity|]; split; [left; exact L1|intros C; contradiction]. }
      apply gid_entry in Hin'; destruct Hin' as [[-> (k' & Hk')]|Hin'].
      + destruct (Hren _ Hk') as [_ B]; split; [|split; [intros _; exact Dt|exact B]].
        exists default_installer; split; [reflexivity|]; split; [|intros _; left; reflexivity].
        left; right; split; [discriminate|]; unfold default_installer.
        repeat (apply Forall_cons; [left; unfold word_char; vm_compute; repeat (first [left; split; discriminate|right; left; split; discriminate|right; right; left; split; discriminate|right; right; right; left; reflexivity])|]); apply Forall_nil.
      + destruct (Hren _ Hin') as [A B]; split; [exact A|]; split; [intros _; exact Dt|exact B].
  Qed.
End Grules.

(** ** Compacting twice *)
Lemma rename_gid def id : wf id -> not_both def id -> rename def (gid def id) = rename def id.
Proof.
  intros Hw Hnb; destruct (usable def) eqn:Hu.
  2:{ rewrite gid_unusable by exact Hu; reflexivity. }
  pose proof (rename_no_default def id Hu Hnb) as Hr.
  assert (A : rename def (rename def id) = rename def id).
  { destruct def as [[|c n]|]; try discriminate; apply get_None in Hr; unfold rename at 1.
    rewrite Hr; reflexivity. }
  unfold gid; destruct (get (keyof def) (rename def id)) as [r|] eqn:Er; [|exact A].
  destruct (Nat.eqb_spec (List.length (rename def id)) 1) as [El|El]; cbn [andb]; [|exact A].
  destruct (is_dict (compact_installer_rule r)); cbn [negb]; [exact A|].
  pose proof (singleton_get _ _ _ Er El) as ER; rewrite ER in Hr |- *.
  destruct def as [[|c n]|]; try discriminate; cbn [keyof] in *; unfold rename.
  rewrite get_cons, eqb_refl.
  assert (Hn : eqb (c :: n) default_installer = false).
  { destruct (eqb_spec (c :: n) default_installer) as [E|E]; [|reflexivity]; elim Hr; left; exact E. }
  rewrite set_fresh by (rewrite get_cons, Hn; apply get_nil); cbn [app].
  unfold del; cbn [filter fst]; rewrite eqb_refl; cbn [negb].
  assert (Hn' : eqb default_installer (c :: n) = false).
  { destruct (eqb_spec default_installer (c :: n)) as [E|E]; [|reflexivity]; elim Hr; left; symmetry; exact E. }
  rewrite ?Hn, ?Hn'; reflexivity.
Qed.

Lemma gid_idem def id : wf id -> not_both def id -> gid def (gid def id) = gid def id.
Proof. intros Hw Hnb; unfold gid at 1; rewrite rename_gid by assumption; reflexivity. Qed.

Lemma compact_id_gid def id : wf id -> not_both def id ->
  compact_installer_dict (gid def id) def = compact_installer_dict id def.
Proof.
  intros Hw Hnb; destruct (compact_id_ok id def Hnb) as (c & Ec).
  destruct (compact_id_ok (gid def id) def (gid_not_both _ _ Hw Hnb)) as (c' & Ec').
  rewrite Ec, Ec'; apply compact_id_spec in Ec, Ec'; destruct Ec as [_ ->], Ec' as [_ ->].
  rewrite rename_gid by assumption; reflexivity.
Qed.

Lemma cval_gid def id : wf id -> not_both def id -> cval def (gid def id) = cval def id.
Proof. intros Hw Hnb; unfold cval; rewrite compact_id_gid by assumption; reflexivity. Qed.

Lemma compact_fold_ok def anyc vd acc :
  (forall v id, In (v, id) vd -> compact_installer_dict id def = Ok (cval def id)) ->
  exists d, foldM (compact_version_step def anyc) vd acc = Ok d.
Proof.
  revert acc; induction vd as [|[v id] vd IH]; intros acc H; cbn [foldM]; [eauto|].
  unfold compact_version_step; cbn [fst snd]; destruct (eqb v any_version); cbn [bind].
  - apply IH; intros v' id' Hin; apply (H v'); right; exact Hin.
  - rewrite (H v id (or_introl eq_refl)); cbn [bind].
    destruct anyc as [a|]; [destruct (pyeq (cval def id) a)|]; cbn [bind];
      apply IH; intros v' id' Hin; apply (H v'); right; exact Hin.
Qed.

(** Entries kept once are kept again. *)
Lemma filter_keep_again def anyc vd :
  (forall v id, In (v, id) vd -> wf id /\ not_both def id) ->
  filter (keep def anyc) (map (fun p => (fst p, gid def (snd p))) (filter (keep def anyc) vd)) =
  map (fun p => (fst p, gid def (snd p))) (filter (keep def anyc) vd).
Proof.
  induction vd as [|[v id] vd IH]; intros H; cbn [filter map]; [reflexivity|].
  assert (H' : forall v' id', In (v', id') vd -> wf id' /\ not_both def id') by (intros v' id' Hin; apply (H v'); right; exact Hin).
  destruct (H v id (or_introl eq_refl)) as [Hw Hnb].
  destruct (keep def anyc (v, id)) eqn:Ek; [|apply IH; exact H'].
  cbn [map filter fst snd].
  assert (Ek' : keep def anyc (v, gid def id) = true).
  { revert Ek; unfold keep; cbn [fst snd]; rewrite cval_gid by assumption; trivial. }
  rewrite Ek', IH by exact H'; reflexivity.
Qed.

Lemma map_gid_idem def l :
  (forall v id, In (v, id) l -> wf id /\ not_both def id) ->
  map (fun p => (fst p, gid def (snd p))) (map (fun p : text * installer_dict pyval => (fst p, gid def (snd p))) l) =
  map (fun p : text * installer_dict pyval => (fst p, gid def (snd p))) l.
Proof.
  intros H; rewrite map_map; apply map_ext_in; intros [v id] Hin; cbn [fst snd].
  destruct (H v id Hin); rewrite gid_idem by assumption; reflexivity.
Qed.

Lemma filter_keep_any def anyc id vd :
  filter (keep def anyc) ((any_version, id) :: vd) = filter (keep def anyc) vd.
Proof. cbn [filter]; unfold keep at 1; cbn [fst]; rewrite eqb_refl; reflexivity. Qed.

Section Twice.
  Variable def : option text.
  Variable vd : version_dict pyval.
  Hypothesis Hw : wf vd.
  Hypothesis Hi : forall v id, In (v, id) vd -> wf id /\ not_both def id.

  Lemma kept_ok anyc v id : In (v, id) (filter (keep def anyc) vd) -> wf id /\ not_both def id.
  Proof. intros H; apply filter_In in H; destruct H as [H _]; apply (Hi v); exact H. Qed.

  Lemma get_any_gvd : get any_version (gvd def vd) = match get any_version vd with Some aid => Some (gid def aid) | None => None end.
  Proof.
    unfold gvd; destruct (get any_version vd) as [aid|] eqn:Ea; [rewrite get_cons, eqb_refl; reflexivity|].
    apply get_None; intros Hin; apply get_Some_keys in Hin; destruct Hin as (x & Hx); apply get_In in Hx.
    apply in_map_iff in Hx; destruct Hx as ([v id] & Eq & Hx); injection Eq as -> _.
    apply filter_In in Hx; destruct Hx as [Hx _]; apply get_None in Ea; apply Ea; eapply In_keys; exact Hx.
  Qed.

  Lemma gvd_idem : gvd def (gvd def vd) = gvd def vd.
  Proof.
    unfold gvd at 1; rewrite get_any_gvd; unfold gvd; destruct (get any_version vd) as [aid|] eqn:Ea.
    - apply get_In in Ea; destruct (Hi _ _ Ea) as [W N]; rewrite cval_gid, gid_idem by assumption.
      rewrite filter_keep_any, filter_keep_again, map_gid_idem; [reflexivity| |exact Hi].
      intros v id; apply kept_ok.
    - rewrite filter_keep_again, map_gid_idem; [reflexivity| |exact Hi]; intros v id; apply kept_ok.
  Qed.

  Lemma wf_gvd : wf (gvd def vd).
  Proof.
    assert (A : forall anyc, wf (map (fun p : text * installer_dict pyval => (fst p, gid def (snd p))) (filter (keep def anyc) vd)) /\
              ~ In any_version (keys (map (fun p : text * installer_dict pyval => (fst p, gid def (snd p))) (filter (keep def anyc) vd)))).
    { intros anyc; split.
      - unfold wf, keys; rewrite map_map; cbn [fst]; clear Hi; induction vd as [|[v id] l IH]; cbn [filter map]; [constructor|].
        unfold wf in Hw; cbn [keys map fst] in Hw; inversion Hw as [|? ? H1 H2]; subst.
        destruct (keep def anyc (v, id)); [|apply IH; exact H2]; cbn [map fst]; constructor; [|apply IH; exact H2].
        intros Hin; apply H1; apply in_map_iff in Hin; destruct Hin as ([v' id'] & Eq & Hin); cbn [fst] in Eq; subst v'.
        apply filter_In in Hin; destruct Hin as [Hin _]; apply in_map_iff; exists (v, id'); split; [reflexivity|exact Hin].
      - unfold keys; rewrite map_map; intros Hin; apply in_map_iff in Hin; destruct Hin as ([v' id'] & Eq & Hin); cbn [fst] in Eq; subst v'.
        apply filter_In in Hin; destruct Hin as [_ Hk]; unfold keep in Hk; cbn [fst] in Hk; rewrite eqb_refl in Hk; discriminate. }
    unfold gvd; destruct (get any_version vd) as [aid|]; [|apply A].
    unfold wf, keys; cbn [map fst]; constructor; [apply (proj2 (A _))|apply (proj1 (A _))].
  Qed.

  Lemma gvd_entries v id : In (v, id) (gvd def vd) -> compact_installer_dict id def = Ok (cval def id) /\ wf id /\ not_both def id.
  Proof.
    intros H; apply In_gvd in H; destruct H as (id0 & H & ->); destruct (Hi _ _ H) as [W N].
    destruct (compact_id_ok _ _ (gid_not_both _ _ W N)) as (c & Ec); split; [rewrite Ec; f_equal; symmetry; apply cval_Ok; exact Ec|].
    split; [|apply gid_not_both; assumption].
    unfold gid; destruct (get (keyof def) (rename def id0)); [destruct (_ && _)|]; try (apply wf_rename; exact W).
    repeat constructor; intros [].
  Qed.

  (** What a second compaction changes: a lone any_version list is unwrapped. *)
  Lemma compact_vd_again c : (forall v id, In (v, id) vd -> good_id id) ->
    compact_version_dict vd def = Ok c ->
    exists c', compact_version_dict (gvd def vd) def = Ok c' /\
      (c' = c \/ exists l, c = VDict [(KStr any_version, VList l)] /\ c' = VList l).
  Proof.
    intros Hg E; unfold compact_version_dict in E |- *; rewrite get_any_gvd.
    destruct (get any_version vd) as [aid|] eqn:Ea.
    - pose proof (get_In _ _ _ Ea) as Hina; destruct (Hi _ _ Hina) as [W N].
      apply bind_Ok in E; destruct E as (a & Eca & E); rewrite compact_id_gid by assumption; rewrite Eca; cbn [bind].
      pose proof (cval_Ok _ _ _ Eca) as Hca.
      destruct (Nat.eqb_spec (List.length vd) 1) as [El|El].
      + destruct vd as [|[v0 id0] [|]] eqn:Evd; try discriminate El.
        assert (Hv0 : v0 = any_version /\ id0 = aid).
        { rewrite get_cons, get_nil in Ea; destruct (eqb_spec any_version v0); [|discriminate]; split; congruence. }
        destruct Hv0 as [-> ->].
        assert (G : gvd def [(any_version, aid)] = [(any_version, gid def aid)]).
        { unfold gvd; rewrite get_cons, eqb_refl; cbn [filter]; unfold keep; cbn [fst]; rewrite eqb_refl; reflexivity. }
        rewrite G; cbn [List.length Nat.eqb andb] in E |- *.
        destruct (negb (is_dict a)); [eauto|].
        apply bind_Ok in E; destruct E as (d & Ef & E); injection E as <-; cbn [foldM] in Ef |- *.
        unfold compact_version_step in Ef |- *; cbn [fst] in Ef |- *; rewrite eqb_refl in Ef |- *; cbn [bind] in Ef |- *.
        injection Ef as <-; eexists; split; [reflexivity|left; reflexivity].
      + cbn [andb] in E; apply bind_Ok in E; destruct E as (d & Ef & E); injection E as <-.
        apply compact_fold in Ef; [|assumption|].
        2:{ intros v Hv Hn; rewrite get_cons, get_nil; destruct (eqb_spec v any_version); congruence. }
        destruct Ef as [-> Hall].
        destruct (compact_fold_ok def (Some a) (gvd def vd) [(any_version, a)]) as (d' & Ef').
        { intros v id Hin; apply gvd_entries in Hin; apply Hin. }
        rewrite Ef'; apply compact_fold in Ef'; [|apply wf_gvd|].
        2:{ intros v Hv Hn; rewrite get_cons, get_nil; destruct (eqb_spec v any_version); congruence. }
        destruct Ef' as [-> _]; cbn [bind].
        assert (G : filter (keep def (Some a)) (gvd def vd) = map (fun p => (fst p, gid def (snd p))) (filter (keep def (Some a)) vd)).
        { unfold gvd; rewrite Ea, Hca, filter_keep_any; apply filter_keep_again; exact Hi. }
        rewrite G, map_map; cbn [fst snd].
        assert (Eq : map (fun p => (fst p, cval def (gid def (snd p)))) (filter (keep def (Some a)) vd) =
                     map (fun p => (fst p, cval def (snd p))) (filter (keep def (Some a)) vd)).
        { apply map_ext_in; intros [v id] Hin; cbn [fst snd]; destruct (kept_ok _ _ _ Hin); rewrite cval_gid by assumption; reflexivity. }
        rewrite Eq; destruct (Nat.eqb (List.length (gvd def vd)) 1) eqn:El'; cbn [andb]; [|eauto].
        destruct (is_dict a) eqn:Ed; cbn [negb]; [eauto|].
        exists a; split; [reflexivity|]; right.
        destruct (compact_id_scalar _ _ _ (Hg _ _ Hina) Eca) as [(_ & l & -> & _)|[-> _]]; [|discriminate Ed].
        exists l; split; [|reflexivity].
        apply Nat.eqb_eq in El'; unfold gvd in El'; rewrite Ea, Hca in El'; cbn [List.length] in El'; rewrite map_length in El'.
        destruct (filter (keep def (Some (VList l))) vd); [reflexivity|discriminate].
    - apply bind_Ok in E; destruct E as (d & Ef & E); injection E as <-.
      apply compact_fold in Ef; [|assumption|intros; apply get_nil]; destruct Ef as [-> Hall].
      destruct (compact_fold_ok def None (gvd def vd) []) as (d' & Ef').
      { intros v id Hin; apply gvd_entries in Hin; apply Hin. }
      rewrite Ef'; apply compact_fold in Ef'; [|apply wf_gvd|intros; apply get_nil].
      destruct Ef' as [-> _]; cbn [bind].
      assert (G : filter (keep def None) (gvd def vd) = map (fun p => (fst p, gid def (snd p))) (filter (keep def None) vd)).
      { unfold gvd; rewrite Ea; apply filter_keep_again; exact Hi. }
      rewrite G, map_map; cbn [fst snd].
      assert (Eq : map (fun p => (fst p, cval def (gid def (snd p)))) (filter (keep def None) vd) =
                   map (fun p => (fst p, cval def (snd p))) (filter (keep def None) vd)).
      { apply map_ext_in; intros [v id] Hin; cbn [fst snd]; destruct (kept_ok _ _ _ Hin); rewrite cval_gid by assumption; reflexivity. }
      rewrite Eq; eauto.
  Qed.
End Twice.
