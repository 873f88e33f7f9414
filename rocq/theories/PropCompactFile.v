(** C81: rewriting a rules file with [_compact_rules_file --write]; C83: is the compact
    notation canonical. *)
From Verif Require Import Base Dict PyVal RulesDict RulesSpec Verify VerifySpec VerifyProofs VerifiedLookup
  Expand ExpandSpec ExpandProofs Compact CompactSpec CompactProofs Sources SourcesSpec CacheProofs Order Commands
  CompactFileProofs PropPipeline OsSupport PropOs PropCompact Codec.

Lemma same_outcome_trans x y z :
  same_outcome x y -> same_outcome y z ->
  (forall i a b c, (forall d, x = Ok (VDict d) -> get i d = Some a) ->
     (forall d, y = Ok (VDict d) -> get i d = Some b) -> (forall d, z = Ok (VDict d) -> get i d = Some c) ->
     same_rule a b -> same_rule b c -> same_rule a c) -> same_outcome x z.
Proof.
  intros H1 H2 Ht.
  destruct x as [[ | | | | | |dx]|ex], y as [[ | | | | | |dy]|ey]; try contradiction;
    destruct z as [[ | | | | | |dz]|ez]; try contradiction; cbn [same_outcome] in *.
  - destruct H1 as [A1 B1], H2 as [A2 B2]; split.
    + intros i a Ha; destruct (A1 i a Ha) as (b & Hb & Rab), (A2 i b Hb) as (c & Hc & Rbc).
      exists c; split; [exact Hc|]; apply (Ht i a b c); try assumption; intros d E; injection E as <-; assumption.
    + intros i c Hc; destruct (B2 i c Hc) as (b & Hb & Rbc), (B1 i b Hb) as (a & Ha & Rab).
      exists a; split; [exact Ha|]; apply (Ht i a b c); try assumption; intros d E; injection E as <-; assumption.
  - congruence.
Qed.

(** Everything that can be looked up in a rules file: the outcome for a key, os and
    version, with the default installer [defs] names for the os. *)
Definition means_the_same (defs : dict text (option text)) (v w : pyval) : Prop :=
  forall key os version, os <> any_os ->
    same_outcome (raw_lookup v key os version (configured_default defs os))
                 (raw_lookup w key os version (configured_default defs os)).

Section C81.
  Variable uni : N -> bool.
  Variable yaml : text -> res pyval.
  Variable dump : pyval -> text.
  Variable defs : dict text (option text).

  Lemma raw_lookup_dict v key os ver def o : raw_lookup v key os ver def = Ok o -> exists d, o = VDict d.
  Proof.
    unfold raw_lookup; intros Eo; repeat (apply bind_Ok in Eo; destruct Eo as (? & _ & Eo)); injection Eo as <-; eauto.
  Qed.

  (** The steps of the command that matter to the data. *)
  Lemma compacted_steps content c : compacted_file uni yaml defs content = Ok c ->
    exists t v w r, content = Some t /\ yaml t = Ok v /\ expand_rules v = Ok w /\
      verify_rules_dict uni w true = Ok tt /\ out_rules w = Some r /\ compact_rules r defs = Ok c.
  Proof.
    unfold compacted_file; intros E; destruct content as [t|]; [|discriminate]; cbn [bind] in E.
    apply bind_Ok in E; destruct E as (v & Ev & E); apply bind_Ok in E; destruct E as (w & Ew & E).
    apply bind_Ok in E; destruct E as ([] & Hv & E); destruct (out_rules w) as [r|] eqn:Er; [|discriminate].
    exists t, v, w, r; auto 10.
  Qed.

  (** The compacted data, read again in any dict order, means the same. *)
  Lemma compacted_meaning v w r c c' :
    (forall os n, get os defs = Some (Some n) -> legal_identifier uni n /\ ~ In n reserved) ->
    wfval v -> expand_rules v = Ok w -> verify_rules_dict uni w true = Ok tt ->
    out_rules w = Some r -> compact_rules r defs = Ok c -> veq c c' ->
    exists w', expand_rules c' = Ok w' /\ verify_rules_dict uni w' true = Ok tt /\ means_the_same defs w w'.
  Proof.
    intros Hd Hw Ex Hv Hr Hc Hveq.
    pose proof (wfval_expand_rules _ _ Hw Ex) as Ww.
    destruct (verified_typed uni w true Ww Hv) as (r0 & -> & _); rewrite out_inj_rules in Hr; injection Hr as ->.
    pose proof (wf_rules_inj r Ww) as Hwr.
    pose proof (expanded_rules_fixed uni r Ww (expand_rules_idem _ _ Hw Ex) Hv Hwr) as Hg.
    destruct (compact_rules_expand _ _ _ Hg Hc) as [Hx Hok].
    pose proof (wfval_compact _ _ _ Ww Hc) as Wc.
    assert (Hv2 : verify_rules_dict uni (inj_rules (grules defs r)) true = Ok tt).
    { apply verify_rules_dict_Ok; apply grules_ok; [exact Hd|]; exact (proj1 (verify_rules_dict_Ok _ _ _) Hv). }
    destruct (compact_preserves uni v _ r defs c Hw Ex Hv eq_refl Hc) as (v2 & Hx2 & Hs).
    rewrite Hx in Hx2; injection Hx2 as <-.
    pose proof (expand_rules_veq c c' Wc Hveq) as R; rewrite Hx in R.
    destruct (expand_rules c') as [w'|] eqn:E'; [|contradiction]; cbn [req] in R.
    pose proof (wfval_expand_rules _ _ Wc Hx) as Wg.
    exists w'; split; [reflexivity|]; split; [exact (verify_rules_veq uni _ w' true R Hv2)|].
    intros key os ver Hos; specialize (Hs key os ver Hos).
    pose proof (grules_unamb uni defs Hd r key os ver Hg Hwr Hok Hos) as Hu.
    destruct (C03_file_order_independent uni c c' (inj_rules (grules defs r)) key os ver (configured_default defs os)
                Wc Hveq Hx Hv2 Hu) as (w2 & E2 & _ & _ & Hs2).
    rewrite E' in E2; injection E2 as <-.
    pose proof (raw_lookup_veq _ w' key os ver (configured_default defs os) Wg R Hu) as L.
    destruct (raw_lookup (inj_rules (grules defs r)) key os ver (configured_default defs os)) as [o|e] eqn:Eo.
    2:{ destruct (raw_lookup w' key os ver (configured_default defs os)) as [o'|e'] eqn:Eo'; cbn [req] in L; [contradiction|].
        subst e'; exact Hs. }
    destruct (raw_lookup_dict _ _ _ _ _ _ Eo) as (d & ->).
    pose proof (raw_lookup_wfval _ _ _ _ _ _ Wg Eo) as Wd.
    destruct (raw_lookup w' key os ver (configured_default defs os)) as [o'|e'] eqn:Eo'; cbn [req] in L; [|contradiction].
    destruct (raw_lookup_dict _ _ _ _ _ _ Eo') as (d' & ->).
    pose proof (veq_wfval _ _ Wd L) as Wd'; apply (proj1 (wfval_dict _)) in Wd, Wd'; destruct Wd as [W1 F1], Wd' as [W2 _].
    apply (proj1 (veq_ext _ _ W1 W2)) in L; rewrite Forall_forall in F1.
    destruct (raw_lookup (inj_rules r) key os ver (configured_default defs os)) as [o|e]; [|contradiction].
    destruct o as [ | | | | | |d0]; try contradiction; cbn [same_outcome] in Hs |- *; destruct Hs as [A B]; split.
    - intros i a Ha; destruct (A i a Ha) as (b & Hb & Rab); specialize (L i); rewrite Hb in L.
      destruct (get i d') as [b'|]; [|contradiction]; exists b'; split; [reflexivity|].
      apply (same_rule_veq a b b' Rab L); apply get_In in Hb; apply (F1 _ Hb).
    - intros i b' Hb'; specialize (L i); rewrite Hb' in L; destruct (get i d) as [b|] eqn:Hb; [|contradiction].
      destruct (B i b Hb) as (a & Ha & Rab); exists a; split; [exact Ha|].
      apply (same_rule_veq a b b' Rab L); apply get_In in Hb; apply (F1 _ Hb).
  Qed.

  (** C81.  If [_compact_rules_file --write] succeeds, the file can be read again, is
      still a valid rules file, means the same, and no other file is touched. *)
  Theorem C81_rewrite_preserves : forall path f f' out t v,
    (* the default installers of the supported operating systems have proper names *)
    (forall os n, get os defs = Some (Some n) -> legal_identifier uni n /\ ~ In n reserved) ->
    (* the YAML library reads back what it dumps here, up to the order of dicts *)
    (forall c, compacted_file uni yaml defs (get path f) = Ok c -> exists c', yaml (dump c) = Ok c' /\ veq c c') ->
    get path f = Some t -> yaml t = Ok v -> wfval v ->
    compact_rules_file uni yaml dump defs true WriteOk path f = (f', (out, Ok tt)) ->
    exists t' v' w w',
      get path f' = Some t' /\ yaml t' = Ok v' /\
      expand_rules v = Ok w /\ verify_rules_dict uni w true = Ok tt /\
      expand_rules v' = Ok w' /\ verify_rules_dict uni w' true = Ok tt /\
      means_the_same defs w w' /\
      (forall q, q <> path -> get q f' = get q f) /\ out = [].
  Proof.
    intros path f f' out t v Hd Hrt Ht Hy Hw E; unfold compact_rules_file in E.
    destruct (compacted_file uni yaml defs (get path f)) as [c|e] eqn:Ec; [|destruct e; discriminate].
    injection E as <- <-; destruct (Hrt c eq_refl) as (c' & Hc' & Hveq).
    apply compacted_steps in Ec; destruct Ec as (t0 & v0 & w & r & Et & Ey & Ex & Hv & Hr & Hc).
    rewrite Ht in Et; injection Et as <-; rewrite Hy in Ey; injection Ey as <-.
    destruct (compacted_meaning v w r c c' Hd Hw Ex Hv Hr Hc Hveq) as (w' & E' & V' & M).
    exists (dump c), c', w, w'; rewrite get_set_same; repeat (split; [first [reflexivity|assumption]|]).
    split; [|reflexivity]; intros q Hq; apply get_set_other; exact Hq.
  Qed.

  (** Without [--write], and whenever reading, expanding, verifying or compacting fails
      or the file cannot be opened for writing, no file is changed. *)
  Theorem C81_otherwise_untouched : forall write wo path f f' run,
    compact_rules_file uni yaml dump defs write wo path f = (f', run) ->
    (write = false \/ (exists e, compacted_file uni yaml defs (get path f) = Err e) \/ exists e, wo = OpenFails e) ->
    f' = f /\
    (forall c, compacted_file uni yaml defs (get path f) = Ok c -> write = false -> run = ([Line (dump c)], Ok tt)) /\
    (forall e, compacted_file uni yaml defs (get path f) = Err e -> exists e', snd run = Err e').
  Proof.
    intros write wo path f f' run E H; unfold compact_rules_file in E.
    destruct (compacted_file uni yaml defs (get path f)) as [c|e] eqn:Ec.
    - destruct H as [H|[(e & H)|(e & H)]]; [subst write; injection E as <- <-| discriminate|].
      + split; [reflexivity|]; split; [intros c' Ec' _; injection Ec' as <-; reflexivity|discriminate].
      + subst wo; destruct write; injection E as <- <-; (split; [reflexivity|]; split; [|discriminate]).
        * discriminate.
        * intros c' Ec' _; injection Ec' as <-; reflexivity.
    - assert (X : f' = f /\ exists e', snd run = Err e') by (destruct e; injection E as <- <-; (split; [reflexivity|eexists; reflexivity])).
      destruct X as [-> X]; split; [reflexivity|]; split; [discriminate|intros _ _; exact X].
  Qed.
End C81.

(** *** C83: is compact notation canonical, i.e. does compacting what was compacted
    change nothing?

    [pass v]: what the command makes of a file with content [v]. *)
Definition pass (uni : N -> bool) (defs : dict text (option text)) (v : pyval) : res pyval :=
  compacted_file uni (fun _ => Ok v) defs (Some []).

(** Not always: dropping version entries equal to any_version's may leave an
    any_version entry alone, which only the next pass shortens. *)
Theorem C83_not_canonical_refuted :
  exists uni defs v c c1, wfval v /\
    pass uni defs v = Ok c /\ pass uni defs c = Ok c1 /\ c1 <> c.
Proof.
  exists (fun _ => false), [(u "ubuntu", Some (u "apt"))],
    (VDict [(S "boost", VDict [(S "ubuntu",
       VDict [(S "any_version", VList [VStr (u "x")]); (S "trusty", VList [VStr (u "x")])])])]),
    (VDict [(S "boost", VDict [(S "ubuntu", VDict [(S "any_version", VList [VStr (u "x")])])])]),
    (VDict [(S "boost", VDict [(S "ubuntu", VList [VStr (u "x")])])]).
  split.
  - repeat (cbn; split); try exact I;
    (repeat constructor; cbn; intros H; repeat (destruct H as [H|H]; [discriminate H|]); exact H).
  - repeat (split; [vm_compute; reflexivity|]); discriminate.
Qed.

(** [c1] is [c] with some os entries `{any_version: list}` replaced by `list`. *)
Definition unwrapped (c c1 : pyval) : Prop :=
  c1 = c \/ exists l, c = VDict [(KStr any_version, VList l)] /\ c1 = VList l.
Definition pointwise2 (P : pyval -> pyval -> Prop) (c c1 : pyval) : Prop :=
  exists d d1, c = VDict d /\ c1 = VDict d1 /\
    Forall2 (fun p q : pkey * pyval => fst p = fst q /\ P (snd p) (snd q)) d d1.

Lemma mapM_Forall2 {A B} (f : A -> res B) l l' : Forall2 (fun x y => f x = Ok y) l l' -> mapM f l = Ok l'.
Proof. intros F; induction F as [|x y l l' H F IH]; cbn [mapM]; [reflexivity|]; rewrite H, IH; reflexivity. Qed.

Lemma compact_od_again defs od c : good_od od -> compact_os_dict od defs = Ok c ->
  exists c', compact_os_dict (god defs od) defs = Ok c' /\ pointwise2 unwrapped c c'.
Proof.
  intros [Hw Hg] E; unfold compact_os_dict in E; apply bind_Ok in E; destruct E as (d & Em & E); injection E as <-.
  apply mapM_Ok in Em.
  assert (A : exists d', Forall2 (fun p y => compact_os_item defs (fst p, god_item defs p) = Ok y) od d' /\
              Forall2 (fun p q : text * pyval => fst p = fst q /\ unwrapped (snd p) (snd q)) d d').
  { clear Hw; induction Em as [|[os vd] [os' c] od d Hp F IH]; [exists []; split; constructor|].
    destruct IH as (d' & F1 & F2); [intros o v Hin; apply (Hg o v); right; exact Hin|].
    destruct (Hg os vd (or_introl eq_refl)) as [[Wv Gv] _].
    assert (B : exists c', compact_os_item defs (os, god_item defs (os, vd)) = Ok (os', c') /\ unwrapped c c').
    { unfold compact_os_item, god_item in *; cbn [fst snd] in *; destruct (eqb os any_os).
      - apply bind_Ok in Hp; destruct Hp as (id & Hid & Hp); unfold getitem in Hid.
        destruct (get any_version vd) as [id'|] eqn:Ea; [injection Hid as ->|discriminate].
        unfold getitem, getd; rewrite get_cons, eqb_refl, Ea; cbn [bind]; exists c; split; [exact Hp|left; reflexivity].
      - apply bind_Ok in Hp; destruct Hp as (c0 & Hc & Hp); injection Hp as <- <-.
        change (match get os defs with Some d => d | None => None end) with (configured_default defs os) in Hc |- *.
        assert (Hok : forall v id, In (v, id) vd -> wf id /\ not_both (configured_default defs os) id).
        { destruct (eqb_spec os any_os) as [Eo|Eo].
          - destruct (compact_vd_expand (u "x") vd _ c0 ltac:(discriminate) (conj Wv Gv) Hc) as [Ho _].
            intros v id Hin; split; [apply (Gv _ _ Hin)|eapply compact_not_both; eapply Ho; exact Hin].
          - destruct (compact_vd_expand os vd _ c0 Eo (conj Wv Gv) Hc) as [Ho _].
            intros v id Hin; split; [apply (Gv _ _ Hin)|eapply compact_not_both; eapply Ho; exact Hin]. }
        destruct (compact_vd_again (configured_default defs os) vd Wv Hok c0 Gv Hc) as (c' & Hc' & U).
        rewrite Hc'; cbn [bind]; exists c'; split; [reflexivity|exact U]. }
    destruct B as (c' & Hc' & U); exists ((os', c') :: d'); split; constructor; try assumption.
    cbn [fst snd]; split; [reflexivity|exact U]. }
  destruct A as (d' & F1 & F2).
  unfold compact_os_dict.
  assert (M : mapM (compact_os_item defs) (god defs od) = Ok d').
  { apply mapM_Forall2; unfold god; clear - F1; induction F1 as [|[os vd] q od d' H F IH]; cbn [map]; constructor; [exact H|exact IH]. }
  rewrite M; cbn [bind]; eexists; split; [reflexivity|].
  unfold pointwise2, inj_dict; eexists _, _; split; [reflexivity|]; split; [reflexivity|].
  clear - F2; induction F2 as [|p q d d' [H1 H2] F IH]; cbn [map]; constructor; [|exact IH].
  cbn [fst snd]; split; [congruence|exact H2].
Qed.

Lemma compact_rules_again defs r c : good_rules r -> compact_rules r defs = Ok c ->
  exists c', compact_rules (grules defs r) defs = Ok c' /\ pointwise2 (pointwise2 unwrapped) c c'.
Proof.
  intros [Hw Hg] E; unfold compact_rules in E; apply bind_Ok in E; destruct E as (d & Em & E); injection E as <-.
  apply mapM_Ok in Em; clear Hw.
  assert (A : exists d', Forall2 (fun p y => (let* c := compact_os_dict (god defs (snd p)) defs in Ok (fst p, c)) = Ok y) r d' /\
              Forall2 (fun p q : text * pyval => fst p = fst q /\ pointwise2 unwrapped (snd p) (snd q)) d d').
  { induction Em as [|[key od] [k c] r d Hp F IH]; [exists []; split; constructor|].
    destruct IH as (d' & F1 & F2); [intros o v Hin; apply (Hg o v); right; exact Hin|].
    cbn [fst snd] in Hp; apply bind_Ok in Hp; destruct Hp as (c0 & Hc & Hp); injection Hp as <- <-.
    destruct (compact_od_again defs od c0 (Hg key od (or_introl eq_refl)) Hc) as (c' & Hc' & U).
    exists ((key, c') :: d'); split; constructor; try assumption; cbn [fst snd].
    - rewrite Hc'; reflexivity.
    - split; [reflexivity|exact U]. }
  destruct A as (d' & F1 & F2); unfold compact_rules.
  assert (M : mapM (fun p => let* c := compact_os_dict (snd p) defs in Ok (fst p, c)) (grules defs r) = Ok d').
  { apply mapM_Forall2; unfold grules; clear - F1; induction F1 as [|[key od] q r d' H F IH]; cbn [map]; constructor; [exact H|exact IH]. }
  rewrite M; cbn [bind]; eexists; split; [reflexivity|].
  unfold pointwise2 at 1, inj_dict; eexists _, _; split; [reflexivity|]; split; [reflexivity|].
  clear - F2; induction F2 as [|p q d d' [H1 H2] F IH]; cbn [map]; constructor; [|exact IH].
  cbn [fst snd]; split; [congruence|exact H2].
Qed.

Lemma grules_idem defs r : good_rules r ->
  (forall key od os vd, In (key, od) r -> In (os, vd) od -> os <> any_os -> compact_ok (configured_default defs os) vd) ->
  grules defs (grules defs r) = grules defs r.
Proof.
  intros [_ Hg] Hok; unfold grules; rewrite map_map; apply map_ext_in; intros [key od] Hin; cbn [fst snd]; f_equal.
  unfold god; rewrite map_map; apply map_ext_in; intros [os vd] Hin'; cbn [fst snd]; f_equal.
  unfold god_item; cbn [fst snd]; destruct (eqb_spec os any_os) as [Eo|Eo].
  - unfold getd; rewrite get_cons, eqb_refl; reflexivity.
  - destruct (Hg _ _ Hin) as [_ G]; destruct (G _ _ Hin') as [[_ Gv] _].
    apply gvd_idem; intros v id Hid; split; [apply (Gv _ _ Hid)|eapply compact_not_both; eapply Hok; eassumption].
Qed.

(** What holds: the second pass succeeds, changes nothing but such lone any_version
    entries, and a third pass changes nothing any more. *)
Theorem C83_two_passes_partial : forall uni defs v c,
  (forall os n, get os defs = Some (Some n) -> legal_identifier uni n /\ ~ In n reserved) ->
  wfval v -> pass uni defs v = Ok c ->
  exists c1, pass uni defs c = Ok c1 /\ pointwise2 (pointwise2 unwrapped) c c1 /\ pass uni defs c1 = Ok c1.
Proof.
  intros uni defs v c Hd Hw E; unfold pass in E; apply compacted_steps in E.
  destruct E as (t0 & v0 & w & r & _ & Ey & Ex & Hv & Hr & Hc); injection Ey as <-.
  pose proof (wfval_expand_rules _ _ Hw Ex) as Ww.
  destruct (verified_typed uni w true Ww Hv) as (r0 & -> & _); rewrite out_inj_rules in Hr; injection Hr as ->.
  pose proof (expanded_rules_fixed uni r Ww (expand_rules_idem _ _ Hw Ex) Hv (wf_rules_inj r Ww)) as Hg.
  destruct (compact_rules_expand _ _ _ Hg Hc) as [Hx Hok].
  pose proof (wfval_compact _ _ _ Ww Hc) as Wc.
  pose proof (wfval_expand_rules _ _ Wc Hx) as Wg.
  assert (Hv2 : verify_rules_dict uni (inj_rules (grules defs r)) true = Ok tt).
  { apply verify_rules_dict_Ok; apply grules_ok; [exact Hd|]; exact (proj1 (verify_rules_dict_Ok _ _ _) Hv). }
  pose proof (expanded_rules_fixed uni _ Wg (expand_rules_idem _ _ Wc Hx) Hv2 (wf_rules_inj _ Wg)) as Hg2.
  destruct (compact_rules_again defs r c Hg Hc) as (c1 & Hc1 & U).
  destruct (compact_rules_expand _ _ _ Hg2 Hc1) as [Hx1 _]; rewrite (grules_idem defs r Hg Hok) in Hx1.
  exists c1; unfold pass, compacted_file; cbn [bind].
  rewrite Hx; cbn [bind]; rewrite Hv2; cbn [bind]; rewrite out_inj_rules; split; [exact Hc1|]; split; [exact U|].
  rewrite Hx1; cbn [bind]; rewrite Hv2; cbn [bind]; rewrite out_inj_rules; exact Hc1.
Qed.

(** The naming hypothesis of C81 and C83 holds for the bundled operating systems. *)
Theorem C81_bundled_defaults_named : forall uni os n,
  get os (get_default_installer_names bundled_plugins) = Some (Some n) -> legal_identifier uni n /\ ~ In n reserved.
Proof.
  intros uni os n H; apply get_In in H; vm_compute in H.
  repeat (destruct H as [H|H]; [injection H as _ <-; split;
    [right; split; [discriminate|repeat (apply Forall_cons; [left; unfold word_char; vm_compute; right; right; left; split; discriminate|]); apply Forall_nil]
    |vm_compute; intros X; repeat (destruct X as [X|X]; [discriminate X|]); exact X]|]).
  contradiction.
Qed.

(** A rewrite that dies while writing leaves neither the old nor the new rules. *)
Theorem C81_crash_refuted :
  exists uni yaml dump defs n path f f' out e t,
    (forall c, wfval c -> exists c', yaml (dump c) = Ok c' /\ veq c c') /\
    get path f = Some t /\ (exists v, yaml t = Ok v /\ wfval v) /\
    compact_rules_file uni yaml dump defs true (WriteFails n e) path f = (f', (out, Err e)) /\
    exists t' e', get path f' = Some t' /\ yaml t' = Err e'.
Proof.
  exists (fun _ => false), Codec.dec_all, Codec.enc, defs16, 3, (u "/r"), [(u "/r", Codec.enc ex16)].
  eexists _, _, IOError, _; split; [intros c Hc; exists c; split; [apply Codec.dec_all_enc|apply veq_refl; exact Hc]|].
  split; [rewrite get_cons, eqb_refl; reflexivity|]; split.
  - exists ex16; split; [apply Codec.dec_all_enc|exact (proj1 C16_nonvacuous)].
  - split; [vm_compute; reflexivity|]; eexists _, _; split; vm_compute; reflexivity.
Qed.

(** The hypotheses of C81 are met by a run that does change the file. *)
Example C81_nonvacuous :
  exists f' out, get (u "/r") [(u "/r", Codec.enc ex16)] = Some (Codec.enc ex16) /\ wfval ex16 /\
    compact_rules_file (fun _ => false) Codec.dec_all Codec.enc (get_default_installer_names bundled_plugins)
      true WriteOk (u "/r") [(u "/r", Codec.enc ex16)] = (f', (out, Ok tt)) /\
    f' = [(u "/r", Codec.enc (VDict [(S "boost", VDict [
       (S "any_os", VDict [(S "pip", VList [VStr (u "boost-py")])]);
       (S "ubuntu", VDict [(S "any_version", VList [VStr (u "libboost")]);
                           (S "xenial", VDict [(S "apt", VDict [(S "packages", VList [VStr (u "a")]);
                                                                (S "opt", VInt 3)])])])])]))].
Proof.
  eexists _, _; split; [rewrite get_cons, eqb_refl; reflexivity|]; split; [exact (proj1 C16_nonvacuous)|].
  split; [vm_compute; reflexivity|reflexivity].
Qed.

Print Assumptions C81_rewrite_preserves.
Print Assumptions C81_otherwise_untouched.
Print Assumptions C81_bundled_defaults_named.
Print Assumptions C81_crash_refuted.
Print Assumptions C83_not_canonical_refuted.
Print Assumptions C83_two_passes_partial.
