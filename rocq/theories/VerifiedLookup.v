(** Lookup on verified values (C11), and the typed view of verified values. *)
From Verif Require Import Base Dict PyVal RulesDict RulesSpec RulesLookupProofs Verify VerifySpec VerifyProofs.

Definition res_map {A B} (f : A -> B) (x : res A) : res B :=
  match x with Ok a => Ok (f a) | Err e => Err e end.

Section VL.
  Variable uni_word : N -> bool.
  Notation acc := (accepted_identifier uni_word).

  Lemma accepted_nonempty s : acc s -> s <> [].
  Proof.
    intros [[->|[Hn _]]|(s0 & Hn & _ & ->)]; [discriminate|assumption|].
    destruct s0; [congruence|discriminate].
  Qed.

  (** Level-wise access never fails on well-formed values. *)
  Lemma raw_get_ok (P : pyval -> Prop) k v d :
    v = VDict d -> (forall k x, In (k, x) d -> P x) -> P (VDict []) ->
    exists x, raw_get k v = Ok x /\ P x.
  Proof.
    intros -> Hall Hnil; simpl; eexists; split; [reflexivity|].
    destruct (get (KStr k) d) as [x|] eqn:E; [|assumption].
    apply get_In in E; eauto.
  Qed.

  Lemma installer_dict_ok_nil b : installer_dict_ok acc b (VDict []).
  Proof. exists []; split; [reflexivity|intros ? ? []]. Qed.
  Lemma version_dict_ok_nil b : version_dict_ok acc b (VDict []).
  Proof. exists []; split; [reflexivity|intros ? ? []]. Qed.
  Lemma os_dict_ok_nil b : os_dict_ok acc b (VDict []).
  Proof. exists []; split; [reflexivity|intros ? ? []]. Qed.

  Lemma installer_dict_ok_weaken b v : installer_dict_ok acc b v -> installer_dict_ok acc true v.
  Proof.
    intros (d & -> & Hall); exists d; split; [reflexivity|]; intros k x Hin.
    destruct (Hall k x Hin) as (A & _ & B); auto.
  Qed.

  Definition item_ok (p : pkey * pyval) : Prop :=
    name_ok acc [u "default_installer"] (fst p) /\ fst p <> KStr default_installer /\ rule_ok acc (snd p).

  Lemma Forall_set (P : pkey * pyval -> Prop) k x d :
    P (k, x) -> Forall P d -> Forall P (set k x d).
  Proof.
    intros Hp Hd; rewrite Forall_forall in *; intros [k' x'] Hin.
    apply In_set in Hin; destruct Hin as [[-> ->]|Hin]; auto.
  Qed.

  Lemma raw_merge_ok n v c :
    acc n -> ~ In n reserved ->
    installer_dict_ok acc true v -> Forall item_ok c ->
    exists c', raw_merge v c (Some n) = Ok c' /\ Forall item_ok c'.
  Proof.
    intros Hn Hr (d & -> & Hall); simpl; revert c.
    induction d as [|[k x] d IH]; intros c Hc; simpl; [eauto|].
    destruct (Hall k x (or_introl eq_refl)) as ((s & -> & Hs & Hres) & _ & Hx).
    assert (Hrep : exists s', replace_default_installer s (Some n) = Ok s' /\ acc s' /\
                              s' <> default_installer /\ (In s' reserved -> In s' [u "default_installer"])).
    { unfold replace_default_installer; destruct (eqb_spec s default_installer) as [->|Hne].
      - destruct n as [|c0 n]; [elim (accepted_nonempty _ Hn eq_refl)|].
        exists (c0 :: n); repeat split; auto; [|tauto].
        intros E; apply Hr; rewrite E; right; right; left; reflexivity.
      - exists s; auto. }
    destruct Hrep as (s' & Es & Hs' & Hne & Hr'); simpl; rewrite Es; simpl.
    apply IH; [intros k' x' Hin; apply Hall; right; exact Hin|].
    apply Forall_set; [|assumption]; split; [exists s'; auto|]; split; [|assumption].
    simpl; congruence.
  Qed.

  Lemma items_ok_verified c : Forall item_ok c -> verify_installer_dict uni_word (VDict c) false = Ok tt.
  Proof.
    intros Hc; apply verify_installer_dict_Ok; exists c; split; [reflexivity|].
    rewrite Forall_forall in Hc; intros k x Hin; destruct (Hc _ Hin) as (A & B & C); simpl in *.
    repeat split; auto; intros E; congruence.
  Qed.

  Lemma verified_lookup v key os version n b :
    verify_rules_dict uni_word v b = Ok tt ->
    acc n -> ~ In n reserved ->
    exists d, raw_lookup v key os version (Some n) = Ok d /\
              verify_installer_dict uni_word d false = Ok tt.
  Proof.
    intros Hv Hn Hr; apply verify_rules_dict_Ok in Hv; destruct Hv as (d & Ed & Hd).
    unfold raw_lookup.
    destruct (raw_get_ok (os_dict_ok acc true) key v d Ed) as (od & -> & Hod);
      [intros k x Hin; apply (Hd k x Hin)|apply os_dict_ok_nil|]; simpl.
    destruct Hod as (odd & -> & Hod).
    assert (Hvd : forall o, exists x, raw_get o (VDict odd) = Ok x /\ exists b, version_dict_ok acc b x).
    { intros o; eapply raw_get_ok; [reflexivity| |exists true; apply version_dict_ok_nil].
      intros k x Hin; destruct (Hod k x Hin) as (_ & b' & Hb & _); eauto. }
    assert (Hid : forall x ver, (exists b, version_dict_ok acc b x) ->
                  exists y, raw_get ver x = Ok y /\ installer_dict_ok acc true y).
    { intros x ver (b' & xd & -> & Hx).
      eapply raw_get_ok; [reflexivity| |apply installer_dict_ok_nil].
      intros k y Hin; eapply installer_dict_ok_weaken; apply (Hx k y Hin). }
    destruct (Hvd os) as (vd & -> & Hvd1); destruct (Hvd any_os) as (ao & -> & Hvd2); cbn [bind].
    destruct (Hid ao any_version Hvd2) as (y1 & -> & Hy1).
    destruct (Hid vd any_version Hvd1) as (y2 & -> & Hy2).
    destruct (Hid vd version Hvd1) as (y3 & -> & Hy3); cbn [bind].
    destruct (raw_merge_ok n y1 [] Hn Hr Hy1 (Forall_nil _)) as (c1 & -> & Hc1); cbn [bind].
    destruct (raw_merge_ok n y2 c1 Hn Hr Hy2 Hc1) as (c2 & -> & Hc2); cbn [bind].
    destruct (raw_merge_ok n y3 c2 Hn Hr Hy3 Hc2) as (c3 & -> & Hc3); cbn [bind].
    exists (VDict c3); split; [reflexivity|]; apply items_ok_verified; assumption.
  Qed.

  (** ** Typed view *)

  Lemma inj_dict_build {V} (f : V -> pyval) (Q : V -> Prop) (d : pydict) :
    (forall k x, In (k, x) d -> (exists s, k = KStr s) /\ exists w, x = f w /\ Q w) ->
    exists e : dict text V, VDict d = inj_dict f e /\ (forall k w, In (k, w) e -> Q w).
  Proof.
    induction d as [|[k x] d IH]; intros Hall.
    - exists []; split; [reflexivity|intros ? ? []].
    - destruct (Hall k x (or_introl eq_refl)) as ((s & ->) & w & -> & Hw).
      destruct IH as (e & Ee & He); [intros k' x' Hin; apply Hall; right; exact Hin|].
      exists ((s, w) :: e); split.
      + unfold inj_dict in *; simpl; injection Ee as Ee; rewrite <- Ee; reflexivity.
      + intros k' w' [E|Hin]; [congruence|eauto].
  Qed.

  Lemma wf_inj {V} (f : V -> pyval) (e : dict text V) :
    wf (map (fun p => (KStr (fst p), f (snd p))) e) <-> wf e.
  Proof.
    unfold wf, keys; rewrite map_map; cbn [fst].
    rewrite <- (map_map fst KStr); split.
    - apply NoDup_map_inv.
    - apply FinFun.Injective_map_NoDup; intros x y E; congruence.
  Qed.

  Lemma get_inj {V} (f : V -> pyval) k (e : dict text V) :
    get (KStr k) (map (fun p => (KStr (fst p), f (snd p))) e) = option_map f (get k e).
  Proof.
    induction e as [|[k0 v0] e IH]; [reflexivity|]; simpl; rewrite !get_cons.
    change (eqb (KStr k) (KStr k0)) with (eqb k k0); destruct (eqb k k0); auto.
  Qed.

  Lemma set_inj {V} (f : V -> pyval) k v (e : dict text V) :
    set (KStr k) (f v) (map (fun p => (KStr (fst p), f (snd p))) e) =
    map (fun p => (KStr (fst p), f (snd p))) (set k v e).
  Proof.
    induction e as [|[k0 v0] e IH]; [reflexivity|].
    cbn [map fst snd set]; unfold set; fold (set (K:=pkey) (V:=pyval)); fold (set (K:=text) (V:=V)).
    change (eqb (KStr k) (KStr k0)) with (eqb k k0); destruct (eqb k k0); [reflexivity|].
    cbn [map fst snd]; rewrite <- IH; reflexivity.
  Qed.

  Lemma raw_get_inj {V} (f : list V -> pyval) k (e : dict text (list V)) :
    f [] = VDict [] -> raw_get k (inj_dict f e) = Ok (f (getd k e)).
  Proof.
    intros Hnil; unfold inj_dict; simpl; rewrite get_inj; unfold getd.
    destruct (get k e); simpl; congruence.
  Qed.

  Lemma raw_merge_inj (new c : installer_dict pyval) def :
    raw_merge (inj_id new) (map (fun p => (KStr (fst p), snd p)) c) def =
    res_map (map (fun p => (KStr (fst p), snd p))) (merge_installer_dict new c def).
  Proof.
    unfold inj_id, inj_dict, merge_installer_dict; simpl; revert c.
    induction new as [|[k x] new IH]; intros c; [reflexivity|]; simpl.
    destruct (replace_default_installer k def) as [n|e]; simpl; [|reflexivity].
    rewrite (set_inj (fun x => x) n x c); apply IH.
  Qed.

  Lemma raw_lookup_inj (r : rules_dict pyval) key os version def :
    raw_lookup (inj_rules r) key os version def = res_map inj_id (lookup_rules r key os version def).
  Proof.
    unfold raw_lookup, lookup_rules, inj_rules.
    rewrite (raw_get_inj inj_od) by reflexivity; cbn [bind]; unfold inj_od.
    rewrite !(raw_get_inj inj_vd) by reflexivity; cbn [bind]; unfold inj_vd.
    rewrite !(raw_get_inj inj_id) by reflexivity; cbn [bind].
    change (@nil (pkey * pyval)) with (map (fun p : text * pyval => (KStr (fst p), snd p)) []).
    rewrite raw_merge_inj.
    destruct (merge_installer_dict _ [] def) as [c1|e]; cbn [bind res_map]; [|reflexivity].
    rewrite raw_merge_inj.
    destruct (merge_installer_dict _ c1 def) as [c2|e]; cbn [bind res_map]; [|reflexivity].
    rewrite raw_merge_inj.
    destruct (merge_installer_dict _ c2 def) as [c3|e]; reflexivity.
  Qed.

  Lemma wfval_inj_dict {V} (f : V -> pyval) (e : dict text V) :
    wfval (inj_dict f e) <-> wf e /\ forall k w, In (k, w) e -> wfval (f w).
  Proof.
    unfold inj_dict; rewrite wfval_dict, wf_inj, Forall_forall; split; intros [A B]; split; auto.
    - intros k w Hin; apply (B (KStr k, f w)); apply in_map_iff; exists (k, w); auto.
    - intros p Hin; apply in_map_iff in Hin; destruct Hin as ([k w] & <- & Hin); simpl; eauto.
  Qed.

  Lemma name_ok_str allow k : name_ok acc allow k -> exists s, k = KStr s.
  Proof. intros (s & -> & _); eauto. Qed.

  Lemma verified_typed v b :
    wfval v -> verify_rules_dict uni_word v b = Ok tt ->
    exists r : rules_dict pyval, v = inj_rules r /\ wf_rules r.
  Proof.
    intros Hw Hv; apply verify_rules_dict_Ok in Hv; destruct Hv as (d & -> & Hd).
    destruct (inj_dict_build inj_od (fun _ => True) d) as (r & Er & _).
    { intros k x Hin; destruct (Hd k x Hin) as [Hk (d1 & -> & Hd1)].
      split; [eapply name_ok_str; eassumption|].
      destruct (inj_dict_build inj_vd (fun _ => True) d1) as (w & Ew & _);
        [|exists w; split; [exact Ew|exact I]].
      clear k Hin Hk; intros k x Hin; destruct (Hd1 k x Hin) as [Hk (b' & (d2 & -> & Hd2) & _)].
      split; [eapply name_ok_str; eassumption|].
      destruct (inj_dict_build inj_id (fun _ => True) d2) as (w & Ew & _);
        [|exists w; split; [exact Ew|exact I]].
      clear k Hin Hk; intros k x Hin; destruct (Hd2 k x Hin) as [Hk (d3 & -> & Hd3)].
      split; [eapply name_ok_str; eassumption|].
      destruct (inj_dict_build (fun x : pyval => x) (fun _ => True) d3) as (w & Ew & _);
        [|exists w; split; [exact Ew|exact I]].
      clear k Hin Hk; intros k x Hin; destruct (Hd3 k x Hin) as (Hk & _ & _).
      split; [eapply name_ok_str; eassumption|eauto]. }
    rewrite Er in Hw |- *; exists r; split; [reflexivity|].
    apply wfval_inj_dict in Hw; destruct Hw as [Hwr Hw]; split; [assumption|].
    intros k od Hin; specialize (Hw k od Hin); apply wfval_inj_dict in Hw.
    destruct Hw as [Hwo Hw']; split; [assumption|].
    intros os vd Hin'; specialize (Hw' os vd Hin'); apply wfval_inj_dict in Hw'.
    destruct Hw' as [Hwv Hw'']; split; [assumption|].
    intros ver id Hin''; specialize (Hw'' ver id Hin''); apply wfval_inj_dict in Hw''; tauto.
  Qed.
End VL.
