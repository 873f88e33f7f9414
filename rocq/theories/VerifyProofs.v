(** Proofs about verification (C10-C12). *)
From Verif Require Import Base Dict PyVal RulesDict RulesSpec RulesLookupProofs Verify VerifySpec.

Section Proofs.
  Variable uni_word : N -> bool.
  Notation ident_char := (ident_char uni_word).
  Notation span_ident := (span_ident uni_word).
  Notation re_identifier := (re_identifier uni_word).

  Lemma ident_char_spec c : ident_char c = true <-> documented_char uni_word c.
  Proof.
    unfold Verify.ident_char, documented_char, word_char, ascii_word.
    rewrite !orb_true_iff, !N.eqb_eq.
    destruct (N.ltb_spec c 128) as [Hlt|Hge].
    - rewrite !orb_true_iff, !andb_true_iff, !N.leb_le, N.eqb_eq; split.
      + intros [[[[[[[?|?]|?]|?]|?]|?]|?]|?]; auto 10; left; auto 10; lia.
      + intros [[?|[?|[?|[?|[? ?]]]]]|[?|[?|[?|?]]]]; auto 10; lia.
    - split.
      + intros [[[[?|?]|?]|?]|?]; auto 10; left; right; right; right; right; auto.
      + intros [[?|[?|[?|[?|[? ?]]]]]|[?|[?|[?|?]]]]; auto 10; lia.
  Qed.

  Lemma span_spec s a b :
    span_ident s = (a, b) ->
    s = a ++ b /\ Forall (documented_char uni_word) a /\
    match b with [] => True | c :: _ => ident_char c = false end.
  Proof.
    revert a b; induction s as [|c s IH]; intros a b; simpl.
    - intros E; injection E as <- <-; auto.
    - destruct (ident_char c) eqn:Ec.
      + destruct (span_ident s) as [a' b'] eqn:Es; intros E; injection E as <- <-.
        destruct (IH _ _ eq_refl) as (-> & Hf & Hb).
        repeat split; auto; constructor; [apply ident_char_spec; assumption|assumption].
      + intros E; injection E as <- <-; auto.
  Qed.

  Lemma span_app a b :
    Forall (documented_char uni_word) a ->
    match b with [] => True | c :: _ => ident_char c = false end ->
    span_ident (a ++ b) = (a, b).
  Proof.
    intros Ha Hb; induction Ha as [|c a Hc Ha IH]; simpl.
    - destruct b as [|c b]; simpl; [reflexivity|rewrite Hb; reflexivity].
    - apply ident_char_spec in Hc; rewrite Hc, IH; reflexivity.
  Qed.

  Lemma newline_not_ident : ident_char 10 = false.
  Proof. reflexivity. Qed.

  Lemma re_identifier_spec s :
    re_identifier s = true <->
    exists a, a <> [] /\ Forall (documented_char uni_word) a /\ (s = a \/ s = a ++ [10%N]).
  Proof.
    unfold Verify.re_identifier; destruct (span_ident s) as [a b] eqn:E; split.
    - apply span_spec in E; destruct E as (-> & Hf & Hb).
      destruct a as [|c a]; [discriminate|]; intros Hm; exists (c :: a).
      split; [discriminate|]; split; [assumption|].
      destruct b as [|x [|y b]]; [left; rewrite app_nil_r; reflexivity| |discriminate].
      apply N.eqb_eq in Hm; subst x; right; reflexivity.
    - intros (a' & Hne & Hf & [->| ->]).
      + rewrite <- (app_nil_r a'), (span_app a' [] Hf I) in E; injection E as <- <-.
        destruct a'; [congruence|reflexivity].
      + rewrite (span_app a' [10%N] Hf newline_not_ident) in E; injection E as <- <-.
        destruct a'; [congruence|reflexivity].
  Qed.

  Lemma reserved_not_mountain : ~ In mountain_lion reserved.
  Proof. apply mem_not_In; reflexivity. Qed.

  Lemma verify_text_identifier_Ok s allow :
    verify_text_identifier uni_word s allow = Ok tt <->
    accepted_identifier uni_word s /\ (In s reserved -> In s allow).
  Proof.
    unfold verify_text_identifier.
    change [any_os; any_version; default_installer; unset_installers; any_key] with reserved.
    assert (Hacc : accepted_identifier uni_word s <-> s = mountain_lion \/ re_identifier s = true).
    { rewrite re_identifier_spec; unfold accepted_identifier, legal_identifier; split.
      - intros [[->|[A B]]|(s0 & A & B & C)]; [left; reflexivity|right; eauto|right; eauto].
      - intros [->|(a & A & B & [->| ->])]; [left; left; reflexivity|left; right; auto|right; eauto]. }
    rewrite Hacc; clear Hacc; cbn [mem]; rewrite orb_false_r.
    destruct (mem s reserved) eqn:Er; simpl.
    - destruct (mem s allow) eqn:Ea; simpl.
      + apply mem_In in Ea.
        destruct (eqb_spec s mountain_lion) as [->|Hn]; [split; auto|].
        destruct (re_identifier s); split; auto; try discriminate; intros [[?|?] _]; congruence.
      + apply mem_In in Er; apply mem_not_In in Ea; split; [discriminate|].
        intros [_ H]; elim Ea; auto.
    - apply mem_not_In in Er.
      destruct (eqb_spec s mountain_lion) as [->|Hn]; [split; [intros _; split; [auto|intros H; elim Er; exact H]|auto]|].
      destruct (re_identifier s); split; auto; try discriminate; [intros _; split; [auto|intros H; elim Er; exact H]|intros [[?|?] _]; congruence].
  Qed.

  Lemma verify_text_identifier_Err s allow e :
    verify_text_identifier uni_word s allow = Err e -> e = ValueError.
  Proof.
    unfold verify_text_identifier.
    destruct (mem s _ && _), (mem s [mountain_lion]), (re_identifier s); congruence.
  Qed.

  Lemma verify_key_identifier_Ok k allow :
    verify_key_identifier uni_word k allow = Ok tt <->
    name_ok (accepted_identifier uni_word) allow k.
  Proof.
    unfold name_ok; destruct k as [s| |z|t]; simpl;
      try (split; [discriminate|intros (s & E & _); discriminate]).
    rewrite verify_text_identifier_Ok; split; [intros [? ?]; eauto|].
    intros (s' & E & ? & ?); injection E as <-; auto.
  Qed.

  Lemma verify_key_identifier_Err k allow e :
    verify_key_identifier uni_word k allow = Err e -> e = ValueError.
  Proof. destruct k; simpl; try congruence; apply verify_text_identifier_Err. Qed.

  Lemma verify_val_identifier_Ok x :
    verify_val_identifier uni_word x [] = Ok tt <->
    exists s, x = VStr s /\ accepted_identifier uni_word s /\ ~ In s reserved.
  Proof.
    destruct x as [|b|z|s|t|l|d]; simpl;
      try (split; [discriminate|intros (? & E & _); discriminate]).
    rewrite verify_text_identifier_Ok; simpl; split; [intros [? ?]; eauto|].
    intros (s' & E & ? & ?); injection E as <-; auto.
  Qed.

  Lemma verify_val_identifier_Err x e :
    verify_val_identifier uni_word x [] = Err e -> e = ValueError.
  Proof. destruct x; simpl; try congruence; apply verify_text_identifier_Err. Qed.

  Lemma verify_rule_item_Ok k x :
    verify_rule_item uni_word (k, x) = Ok tt <->
    (exists s, k = KStr s) /\
    (k = KStr (u "packages") -> exists l, x = VList l) /\
    (k = KStr (u "depends") -> exists l, x = VList l /\
       forall e, In e l -> exists s, e = VStr s /\ accepted_identifier uni_word s /\ ~ In s reserved).
  Proof.
    unfold verify_rule_item; cbn [fst snd].
    destruct k as [s| |z|t]; try (split; [discriminate|intros [(? & E) _]; discriminate]).
    rewrite bind_Ok.
    destruct (eqb_spec (KStr s) k_packages) as [Ep|Np]; destruct (eqb_spec (KStr s) k_depends) as [Ed|Nd].
    - rewrite Ep in Ed; discriminate.
    - split.
      + intros (a & Hx & _); split; [eauto|]; split; [|intros E; elim Nd; exact E].
        destruct x; try discriminate; eauto.
      + intros (_ & Hp & _); destruct (Hp Ep) as [l ->]; exists tt; auto.
    - split.
      + intros (a & _ & Hx); split; [eauto|]; split; [intros E; elim Np; exact E|].
        intros _; destruct x as [| | | | |l|]; try discriminate; exists l; split; [reflexivity|].
        intros e He; rewrite forM_Ok in Hx; apply verify_val_identifier_Ok; auto.
      + intros (_ & _ & Hd); destruct (Hd Ed) as (l & -> & Hl); exists tt; split; [reflexivity|].
        apply forM_Ok; intros e He; apply verify_val_identifier_Ok; auto.
    - split; [|intros _; exists tt; auto].
      intros _; split; [eauto|]; split; intros E; [elim Np|elim Nd]; exact E.
  Qed.

  Lemma verify_rule_item_Err p e : verify_rule_item uni_word p = Err e -> e = ValueError.
  Proof.
    destruct p as [k x]; unfold verify_rule_item; cbn [fst snd].
    destruct k as [s| |z|t]; try congruence.
    rewrite bind_Err; intros [Hx|(a & _ & Hx)].
    - destruct (eqb _ k_packages); [|discriminate]; destruct x; congruence.
    - destruct (eqb _ k_depends); [|discriminate]; destruct x; try congruence.
      apply forM_Err in Hx; destruct Hx as (y & _ & Hy); eapply verify_val_identifier_Err; eassumption.
  Qed.

  Notation acc := (accepted_identifier uni_word).

  Lemma verify_installer_rule_Ok v :
    verify_installer_rule uni_word v = Ok tt <-> rule_ok acc v.
  Proof.
    unfold rule_ok; destruct v as [| | | | | |d]; simpl;
      try (split; [discriminate|intros (d' & E & _); discriminate]).
    rewrite forM_Ok; split.
    - intros Hall; exists d; split; [reflexivity|]; intros k x Hin.
      apply verify_rule_item_Ok, Hall, Hin.
    - intros (d' & E & Hall) [k x] Hin; injection E as <-; apply verify_rule_item_Ok; auto.
  Qed.

  Lemma verify_installer_rule_Err v e : verify_installer_rule uni_word v = Err e -> e = ValueError.
  Proof.
    destruct v as [| | | | | |d]; simpl; try congruence.
    intros H; apply forM_Err in H; destruct H as (p & _ & Hp); eapply verify_rule_item_Err; eassumption.
  Qed.

  Lemma verify_installer_dict_Ok v b :
    verify_installer_dict uni_word v b = Ok tt <-> installer_dict_ok acc b v.
  Proof.
    unfold installer_dict_ok; destruct v as [| | | | | |d]; simpl;
      try (split; [discriminate|intros (d' & E & _); discriminate]).
    rewrite forM_Ok.
    assert (Hitem : forall k x,
      bind (if negb b && eqb k (KStr default_installer) then Err ValueError else Ok tt)
        (fun _ => bind (verify_installer_name uni_word k) (fun _ => verify_installer_rule uni_word x)) = Ok tt <->
      name_ok acc [u "default_installer"] k /\
        (k = KStr (u "default_installer") -> b = true) /\ rule_ok acc x).
    { intros k x; rewrite <- verify_installer_rule_Ok, <- verify_key_identifier_Ok.
      unfold verify_installer_name; change (u "default_installer") with default_installer.
      rewrite !bind_Ok; setoid_rewrite bind_Ok.
      destruct b; simpl.
      - split.
        + intros ([] & _ & [] & ? & ?); auto.
        + intros (? & ? & ?); exists tt; split; [reflexivity|]; exists tt; auto.
      - destruct (eqb_spec k (KStr default_installer)) as [Ek|Hn].
        + split; [intros ([] & ? & _); discriminate|intros (_ & Hb & _); discriminate (Hb Ek)].
        + split.
          * intros ([] & _ & [] & ? & ?); repeat split; auto; congruence.
          * intros (? & ? & ?); exists tt; split; [reflexivity|]; exists tt; auto. }
    split.
    - intros Hall; exists d; split; [reflexivity|]; intros k x Hin.
      apply Hitem, (Hall (k, x) Hin).
    - intros (d' & E & Hall) [k x] Hin; injection E as <-; cbn [fst snd]; apply Hitem; auto.
  Qed.

  Lemma verify_installer_dict_Err v b e : verify_installer_dict uni_word v b = Err e -> e = ValueError.
  Proof.
    destruct v as [| | | | | |d]; simpl; try congruence.
    intros H; apply forM_Err in H; destruct H as ([k x] & _ & Hp); cbn [fst snd] in Hp.
    apply bind_Err in Hp; destruct Hp as [Hp|(a & _ & Hp)].
    - destruct (negb b && _); congruence.
    - apply bind_Err in Hp; destruct Hp as [Hp|(a' & _ & Hp)].
      + eapply verify_key_identifier_Err; eassumption.
      + eapply verify_installer_rule_Err; eassumption.
  Qed.

  Lemma verify_version_dict_Ok v b :
    verify_version_dict uni_word v b = Ok tt <-> version_dict_ok acc b v.
  Proof.
    unfold version_dict_ok; destruct v as [| | | | | |d]; simpl;
      try (split; [discriminate|intros (d' & E & _); discriminate]).
    rewrite forM_Ok; split.
    - intros Hall; exists d; split; [reflexivity|]; intros k x Hin.
      specialize (Hall (k, x) Hin); cbn [fst snd] in Hall; apply bind_Ok in Hall.
      destruct Hall as ([] & Hk & Hx); split; [apply verify_key_identifier_Ok; exact Hk|].
      apply verify_installer_dict_Ok; exact Hx.
    - intros (d' & E & Hall) [k x] Hin; injection E as <-; cbn [fst snd].
      destruct (Hall k x Hin) as [Hk Hx]; apply bind_Ok; exists tt; split.
      + apply verify_key_identifier_Ok; exact Hk.
      + apply verify_installer_dict_Ok; exact Hx.
  Qed.

  Lemma verify_version_dict_Err v b e : verify_version_dict uni_word v b = Err e -> e = ValueError.
  Proof.
    destruct v as [| | | | | |d]; simpl; try congruence.
    intros H; apply forM_Err in H; destruct H as ([k x] & _ & Hp); cbn [fst snd] in Hp.
    apply bind_Err in Hp; destruct Hp as [Hp|(a & _ & Hp)].
    - eapply verify_key_identifier_Err; eassumption.
    - eapply verify_installer_dict_Err; eassumption.
  Qed.

  Lemma verify_os_dict_Ok v b :
    verify_os_dict uni_word v b = Ok tt <-> os_dict_ok acc b v.
  Proof.
    unfold os_dict_ok; destruct v as [| | | | | |d]; simpl;
      try (split; [discriminate|intros (d' & E & _); discriminate]).
    rewrite forM_Ok; split.
    - intros Hall; exists d; split; [reflexivity|]; intros k x Hin.
      specialize (Hall (k, x) Hin); cbn [fst snd] in Hall; apply bind_Ok in Hall.
      destruct Hall as ([] & Hk & Hx); split; [apply verify_key_identifier_Ok; exact Hk|].
      eexists; split; [apply verify_version_dict_Ok; exact Hx|].
      rewrite andb_true_iff, negb_true_iff, eqb_neq; reflexivity.
    - intros (d' & E & Hall) [k x] Hin; injection E as <-; cbn [fst snd].
      destruct (Hall k x Hin) as [Hk (b' & Hx & Hb)]; apply bind_Ok; exists tt; split.
      + apply verify_key_identifier_Ok; exact Hk.
      + apply verify_version_dict_Ok.
        assert (Eb : b' = b && negb (eqb k (KStr any_os))); [|subst b'; exact Hx].
        apply eq_true_iff_eq; rewrite Hb, andb_true_iff, negb_true_iff, eqb_neq; reflexivity.
  Qed.

  Lemma verify_os_dict_Err v b e : verify_os_dict uni_word v b = Err e -> e = ValueError.
  Proof.
    destruct v as [| | | | | |d]; simpl; try congruence.
    intros H; apply forM_Err in H; destruct H as ([k x] & _ & Hp); cbn [fst snd] in Hp.
    apply bind_Err in Hp; destruct Hp as [Hp|(a & _ & Hp)].
    - eapply verify_key_identifier_Err; eassumption.
    - eapply verify_version_dict_Err; eassumption.
  Qed.

  Lemma verify_rules_dict_Ok v b :
    verify_rules_dict uni_word v b = Ok tt <-> rules_file_ok acc v.
  Proof.
    unfold rules_file_ok; destruct v as [| | | | | |d]; simpl;
      try (split; [discriminate|intros (d' & E & _); discriminate]).
    rewrite forM_Ok; split.
    - intros Hall; exists d; split; [reflexivity|]; intros k x Hin.
      specialize (Hall (k, x) Hin); cbn [fst snd] in Hall; apply bind_Ok in Hall.
      destruct Hall as ([] & Hk & Hx); split; [apply verify_key_identifier_Ok; exact Hk|].
      apply verify_os_dict_Ok; exact Hx.
    - intros (d' & E & Hall) [k x] Hin; injection E as <-; cbn [fst snd].
      destruct (Hall k x Hin) as [Hk Hx]; apply bind_Ok; exists tt; split.
      + apply verify_key_identifier_Ok; exact Hk.
      + apply verify_os_dict_Ok; exact Hx.
  Qed.

  Lemma verify_rules_dict_Err v b e : verify_rules_dict uni_word v b = Err e -> e = ValueError.
  Proof.
    destruct v as [| | | | | |d]; simpl; try congruence.
    intros H; apply forM_Err in H; destruct H as ([k x] & _ & Hp); cbn [fst snd] in Hp.
    apply bind_Err in Hp; destruct Hp as [Hp|(a & _ & Hp)].
    - eapply verify_key_identifier_Err; eassumption.
    - eapply verify_os_dict_Err; eassumption.
  Qed.
End Proofs.
