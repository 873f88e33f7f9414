(** Facts about [strip], [split] and [parse_os_override]. *)
From Verif Require Import Base Dict PyVal Sources Util Paths Config ConfigProofs XylemConfig.

(** No white space at either end. *)
Definition trimmed (t : text) : Prop :=
  (forall c r, t = c :: r -> is_space c = false) /\ (forall c r, t = r ++ [c] -> is_space c = false).

Lemma lstrip_id t : (forall c r, t = c :: r -> is_space c = false) -> lstrip t = t.
Proof. intros H; destruct t as [|c r]; [reflexivity|]; simpl; rewrite (H c r eq_refl); reflexivity. Qed.

Lemma lstrip_head t c r : lstrip t = c :: r -> is_space c = false.
Proof.
  induction t as [|x t IH]; simpl; [discriminate|].
  destruct (is_space x) eqn:E; [assumption|]; intros Eq; injection Eq as -> _; assumption.
Qed.

Lemma lstrip_suffix t : exists p, t = p ++ lstrip t.
Proof.
  induction t as [|x t [p IH]]; simpl; [exists []; reflexivity|].
  destruct (is_space x); [exists (x :: p); simpl; congruence|exists []; reflexivity].
Qed.

Lemma strip_trimmed t : trimmed (strip t).
Proof.
  unfold strip; split; intros c r E.
  - (* the head of [rev (lstrip (rev (lstrip t)))] is the head of [lstrip t] *)
    destruct (lstrip_suffix (rev (lstrip t))) as [p Hp].
    apply (f_equal (@rev N)) in Hp; rewrite rev_involutive, rev_app_distr, E in Hp.
    eapply lstrip_head; exact Hp.
  - apply (f_equal (@rev N)) in E; rewrite rev_involutive, rev_app_distr in E; simpl in E.
    eapply lstrip_head; exact E.
Qed.

Lemma strip_id t : trimmed t -> strip t = t.
Proof.
  intros [H1 H2]; unfold strip; rewrite (lstrip_id t) by assumption.
  rewrite lstrip_id; [apply rev_involutive|]; intros c r E; apply (H2 c (rev r)).
  rewrite <- (rev_involutive t), E; reflexivity.
Qed.

Lemma strip_incl c t : In c (strip t) -> In c t.
Proof.
  assert (H : forall t, In c (lstrip t) -> In c t).
  { intros t0 Hin; destruct (lstrip_suffix t0) as [p Hp]; rewrite Hp; apply in_or_app; right; assumption. }
  unfold strip; rewrite <- in_rev; intros Hin; apply H in Hin; rewrite <- in_rev in Hin; auto.
Qed.

(** Joining trimmed parts around a separator that is not white space. *)
Lemma trimmed_sep a c b :
  (forall x r, a = x :: r -> is_space x = false) -> (forall x r, b = r ++ [x] -> is_space x = false) ->
  is_space c = false -> trimmed (a ++ c :: b).
Proof.
  intros Ha Hb Hc; split; intros x r E.
  - destruct a as [|y a]; simpl in E; injection E as <- _; [assumption|]; apply (Ha y a eq_refl).
  - destruct (exists_last (l := c :: b)) as (b' & y & Eb); [congruence|].
    rewrite Eb, app_assoc in E; apply app_inj_tail in E; destruct E as [_ <-].
    destruct b' as [|z b']; simpl in Eb; injection Eb as -> Eb; [subst; assumption|].
    apply (Hb y b' Eb).
Qed.

(** The text of an override. *)
Definition format_override (name : text) (version : option text) (features : option (list text)) : text :=
  name ++ match version with Some v => colon :: v | None => [] end
       ++ match features with Some fs => ampersand :: join [comma] fs | None => [] end.

(** Overrides that have a text form: no separators inside the parts, parts trimmed; the
    feature list consisting of one empty feature cannot be written. *)
Record override_ok (name : text) (version : option text) (features : option (list text)) : Prop := {
  ov_name : trimmed name /\ ~ In colon name /\ ~ In ampersand name;
  ov_version : forall v, version = Some v -> trimmed v /\ ~ In ampersand v;
  ov_features : forall fs, features = Some fs ->
    fs <> [[]] /\ Forall (fun f => trimmed f /\ ~ In comma f) fs
}.

Lemma trimmed_join fs : Forall trimmed fs -> trimmed (join [comma] fs).
Proof.
  induction fs as [|f fs IH]; intros H; [split; intros c r E; [discriminate|destruct r; discriminate]|].
  inversion H as [|? ? Hf Hfs]; subst; simpl; destruct fs as [|f' fs]; [assumption|].
  specialize (IH Hfs); cbn [app]; apply trimmed_sep; [apply Hf|apply IH|reflexivity].
Qed.

Lemma join_nonempty fs : fs <> [] -> fs <> [[]] -> join [comma] fs <> [].
Proof.
  destruct fs as [|f [|f' fs]]; simpl; intros H1 H2; [congruence| |].
  - intros ->; congruence.
  - destruct f; discriminate.
Qed.

Lemma parse_format name version features :
  override_ok name version features ->
  parse_os_override (format_override name version features) = (name, version, features).
Proof.
  intros [(Ht & Hc & Ha) Hv Hf].
  (* the part before the features *)
  set (t := name ++ match version with Some v => colon :: v | None => [] end).
  assert (Hta : ~ In ampersand t).
  { unfold t; intros Hin; apply in_app_or in Hin; destruct Hin as [Hin|Hin]; [tauto|].
    destruct version as [v|]; [|destruct Hin]; destruct Hin as [Hin|Hin]; [discriminate|].
    destruct (Hv v eq_refl); tauto. }
  assert (Htt : trimmed t).
  { unfold t; destruct version as [v|]; [|rewrite app_nil_r; assumption].
    apply trimmed_sep; [apply Ht| |reflexivity]; destruct (Hv v eq_refl) as [Hvt _]; apply Hvt. }
  assert (Hparse : match split_once colon t with
    | Some (a, b) => (strip a, Some (strip b))
    | None => (strip t, None)
    end = (name, version)).
  { unfold t; destruct version as [v|].
    - rewrite split_once_app by assumption; rewrite !strip_id; auto; apply (Hv v eq_refl).
    - rewrite app_nil_r, (proj2 (split_once_None _ _) Hc), strip_id by assumption; reflexivity. }
  assert (Hfmt : format_override name version features =
                 t ++ match features with Some fs => ampersand :: join [comma] fs | None => [] end)
    by (unfold format_override, t; rewrite app_assoc; reflexivity).
  unfold parse_os_override; rewrite Hfmt; destruct features as [fs|].
  - destruct (Hf fs eq_refl) as [Hne Hfs].
    rewrite split_once_app by assumption; rewrite (strip_id t Htt), Hparse.
    assert (Hj : trimmed (join [comma] fs))
      by (apply trimmed_join; eapply Forall_impl; [|exact Hfs]; intros a [Ha' _]; exact Ha').
    rewrite (strip_id _ Hj).
    destruct (eqb_spec fs []) as [->|Hnil]; [reflexivity|].
    pose proof (join_nonempty fs Hnil Hne) as Hjn.
    destruct (join [comma] fs) as [|x r] eqn:Ej; [congruence|]; rewrite <- Ej.
    rewrite split_on_join; [|assumption|eapply Forall_impl; [|exact Hfs]; intros a [_ Ha']; exact Ha'].
    do 2 f_equal; clear - Hfs; induction Hfs as [|f fs [Hf _] _ IH]; simpl; [reflexivity|].
    rewrite strip_id by assumption; f_equal; assumption.
  - rewrite app_nil_r, (proj2 (split_once_None _ _) Hta), Hparse; reflexivity.
Qed.

Lemma map_strip_ne fs f : f <> [] -> trimmed f -> fs = map strip (split_on comma f) -> fs <> [[]].
Proof.
  intros Hn Ht -> E.
  destruct (split_on comma f) as [|p [|q l]] eqn:Es; try discriminate.
  assert (Hc : ~ In comma f).
  { clear - Es; revert p Es; induction f as [|x f IH]; intros p Es; [simpl; tauto|].
    simpl in Es; destruct (eqb_spec x comma) as [->|Hx].
    - destruct (split_on comma f) as [|? ?] eqn:Ef; [|discriminate].
      destruct f; simpl in Ef; [discriminate|]; destruct (eqb _ _); [discriminate|].
      destruct (split_on comma f); discriminate.
    - destruct (split_on comma f) as [|p' [|? ?]] eqn:Ef; try discriminate.
      + destruct f; simpl in Ef; [discriminate|]; destruct (eqb _ _); [discriminate|].
        destruct (split_on comma f); discriminate.
      + intros [Hin|Hin]; [congruence|]; apply (IH p' eq_refl Hin). }
  rewrite split_on_none in Es by assumption; injection Es as <-.
  simpl in E; rewrite strip_id in E by assumption; congruence.
Qed.

(** Every result has a text form. *)
Lemma parse_ok s name version features :
  parse_os_override s = (name, version, features) -> override_ok name version features.
Proof.
  unfold parse_os_override.
  assert (Hnv : forall t, ~ In ampersand t ->
    forall n v, match split_once colon t with
    | Some (a, b) => (strip a, Some (strip b))
    | None => (strip t, None)
    end = (n, v) ->
    (trimmed n /\ ~ In colon n /\ ~ In ampersand n) /\
    (forall w, v = Some w -> trimmed w /\ ~ In ampersand w)).
  { intros t Ht n v; destruct (split_once colon t) as [[a b]|] eqn:E; intros Eq; injection Eq as <- <-.
    - apply split_once_Some in E; destruct E as [-> Ha]; split; [split; [apply strip_trimmed|split]|].
      + intros Hin; apply strip_incl in Hin; tauto.
      + intros Hin; apply strip_incl in Hin; apply Ht, in_or_app; left; assumption.
      + intros w Ew; injection Ew as <-; split; [apply strip_trimmed|].
        intros Hin; apply strip_incl in Hin; apply Ht, in_or_app; right; right; assumption.
    - apply split_once_None in E; split; [split; [apply strip_trimmed|split]|congruence].
      + intros Hin; apply strip_incl in Hin; tauto.
      + intros Hin; apply strip_incl in Hin; tauto. }
  destruct (split_once ampersand s) as [[a b]|] eqn:E.
  - apply split_once_Some in E; destruct E as [_ Ha].
    specialize (Hnv (strip a)).
    destruct (match split_once colon (strip a) with
              | Some (a, b) => (strip a, Some (strip b)) | None => (strip (strip a), None) end) as [n v].
    intros Eq; injection Eq as <- <- <-.
    destruct (Hnv ltac:(intros Hin; apply strip_incl in Hin; tauto) n v eq_refl) as [Hn Hv].
    constructor; [assumption|assumption|].
    intros fs Efs; injection Efs as <-; destruct (strip b) as [|x r] eqn:Eb; [split; [congruence|constructor]|].
    split.
    + apply (map_strip_ne _ (x :: r)); [congruence| |reflexivity]; rewrite <- Eb; apply strip_trimmed.
    + apply Forall_forall; intros f Hf; apply in_map_iff in Hf; destruct Hf as (p & <- & Hp).
      split; [apply strip_trimmed|]; intros Hin; apply strip_incl in Hin.
      apply (split_on_no_sep comma (x :: r)) in Hp; tauto.
  - apply split_once_None in E; specialize (Hnv s E).
    destruct (match split_once colon s with
              | Some (a, b) => (strip a, Some (strip b)) | None => (strip s, None) end) as [n v].
    intros Eq; injection Eq as <- <- <-; destruct (Hnv n v eq_refl) as [Hn Hv].
    constructor; [assumption|assumption|congruence].
Qed.
