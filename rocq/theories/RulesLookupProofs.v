(** Proofs about lookup in rules dicts. *)
From Verif Require Import Base Dict RulesDict RulesSpec.

Section Lookup.
  Context {R : Type}.
  Implicit Types (id new comb d : installer_dict R) (def : option text) (i : text).

  (** Last entry of [id] whose replaced name is [i]. *)
  Fixpoint offer def id i : option R :=
    match id with
    | [] => None
    | (n, r) :: id' =>
      orelse (offer def id' i)
             (match replace_default_installer n def with
              | Ok m => if eqb i m then Some r else None
              | Err _ => None
              end)
    end.

  Lemma merge_installer_get new comb def d i :
    merge_installer_dict new comb def = Ok d ->
    get i d = orelse (offer def new i) (get i comb).
  Proof.
    unfold merge_installer_dict; revert comb.
    induction new as [|[n r] new IH]; simpl; intros comb E.
    - congruence.
    - destruct (replace_default_installer n def) as [m|e] eqn:Hm; simpl in E; [|discriminate].
      rewrite (IH _ E), get_set, <- orelse_assoc; f_equal.
      destruct (eqb i m); reflexivity.
  Qed.

  Lemma replace_Err n def e :
    replace_default_installer n def = Err e <->
    e = ValueError /\ n = default_installer /\ ~ default_ok def.
  Proof.
    unfold replace_default_installer, default_ok.
    destruct (eqb_spec n default_installer) as [->|Hn].
    - destruct def as [[|c m]|].
      + split; [intros E; injection E as <-; repeat split; intros (n & E & Hne); congruence|].
        intros (-> & _); reflexivity.
      + split; [discriminate|]; intros (_ & _ & Hd); exfalso; apply Hd; exists (c :: m); split; congruence.
      + split; [intros E; injection E as <-; repeat split; intros (n & E & Hne); congruence|].
        intros (-> & _); reflexivity.
    - split; [discriminate|]; intros (_ & E & _); congruence.
  Qed.

  Lemma replace_Ok n def m :
    replace_default_installer n def = Ok m <->
    (n <> default_installer /\ m = n) \/ (n = default_installer /\ def = Some m /\ m <> []).
  Proof.
    unfold replace_default_installer.
    destruct (eqb_spec n default_installer) as [->|Hn].
    - destruct def as [[|c k]|].
      + split; [discriminate|]; intros [[E _]|(_ & E & Hne)]; [congruence|]; injection E as <-; congruence.
      + split.
        * intros E; injection E as <-; right; repeat split; congruence.
        * intros [[E _]|(_ & E & _)]; congruence.
      + split; [discriminate|]; intros [[E _]|(_ & E & _)]; congruence.
    - split; [intros E; left; split; congruence|].
      intros [[_ ->]|(E & _)]; congruence.
  Qed.

  Lemma merge_installer_err new comb def e :
    merge_installer_dict new comb def = Err e <->
    e = ValueError /\ In default_installer (keys new) /\ ~ default_ok def.
  Proof.
    unfold merge_installer_dict; revert comb.
    induction new as [|[n r] new IH]; simpl; intros comb.
    - split; [discriminate|]; tauto.
    - destruct (replace_default_installer n def) as [m|e'] eqn:Hm; simpl.
      + rewrite IH; split; [tauto|]; intros (-> & [E|Hin] & Hd); [|tauto].
        apply replace_Ok in Hm; destruct Hm as [[Hn _]|(_ & Hdef & Hne)]; [congruence|].
        exfalso; apply Hd; exists m; auto.
      + apply replace_Err in Hm; destruct Hm as (-> & -> & Hd).
        split; [intros E; injection E as <-; auto|intros (-> & _); reflexivity].
  Qed.

  Lemma merge_installer_ok new comb def :
    (~ In default_installer (keys new) \/ default_ok def) ->
    exists d, merge_installer_dict new comb def = Ok d.
  Proof.
    intros Hok; destruct (merge_installer_dict new comb def) as [d|e] eqn:E; [eauto|].
    apply merge_installer_err in E; tauto.
  Qed.

  Lemma merge_installer_wf new comb def d :
    wf comb -> merge_installer_dict new comb def = Ok d -> wf d.
  Proof.
    unfold merge_installer_dict; revert comb.
    induction new as [|[n r] new IH]; simpl; intros comb Hwf E; [congruence|].
    destruct (replace_default_installer n def) as [m|e] eqn:Hm; simpl in E; [|discriminate].
    eapply IH; [|exact E]; apply wf_set; assumption.
  Qed.

  Lemma offer_names def id i r : offer def id i = Some r -> names def id i r.
  Proof.
    unfold names; induction id as [|[n r0] id IH]; simpl; [discriminate|].
    destruct (offer def id i) as [r1|] eqn:E1; simpl.
    - intros E; injection E as ->; destruct (IH eq_refl) as [[Hi Hin]|(Hin & Hd)]; tauto.
    - destruct (replace_default_installer n def) as [m|e] eqn:Hm; [|discriminate].
      destruct (eqb_spec i m) as [->|Hn]; [|discriminate]; intros E; injection E as ->.
      apply replace_Ok in Hm; destruct Hm as [[Hn ->]|(-> & -> & Hne)]; auto 6.
  Qed.

  Lemma names_offer def id i r : names def id i r -> exists r', offer def id i = Some r'.
  Proof.
    unfold names; induction id as [|[n r0] id IH]; simpl; [tauto|].
    intros Hnames.
    destruct (offer def id i) as [r1|] eqn:E1; simpl; [eauto|].
    assert (HC : (i <> default_installer /\ (n, r0) = (i, r)) \/
                 ((n, r0) = (default_installer, r) /\ def = Some i /\ i <> [])).
    { destruct Hnames as [[Hi [E|Hin]]|([E|Hin] & Hd)]; auto;
        destruct IH as [r' Hr']; try discriminate; auto. }
    assert (Hm : replace_default_installer n def = Ok i).
    { apply replace_Ok; destruct HC as [[Hi E]|(E & Hd & Hne)]; injection E as -> ->; auto. }
    rewrite Hm, eqb_refl; eauto.
  Qed.

  Lemma names_unique def id i r r' :
    wf id -> unambiguous_id def id -> names def id i r -> names def id i r' -> r = r'.
  Proof.
    intros Hwf Hu [[Hi H1]|(H1 & Hd & Hne)] [[Hi' H2]|(H2 & Hd' & Hne')].
    - apply (In_get _ _ _ Hwf) in H1; apply (In_get _ _ _ Hwf) in H2; congruence.
    - exfalso; apply (Hu i Hd' Hi); eapply In_keys; eassumption.
    - exfalso; apply (Hu i Hd Hi'); eapply In_keys; eassumption.
    - apply (In_get _ _ _ Hwf) in H1; apply (In_get _ _ _ Hwf) in H2; congruence.
  Qed.

  Lemma offer_iff def id i r :
    wf id -> unambiguous_id def id -> (offer def id i = Some r <-> names def id i r).
  Proof.
    intros Hwf Hu; split; [apply offer_names|intros Hn].
    destruct (names_offer _ _ _ _ Hn) as [r' Hr'].
    rewrite Hr'; f_equal; eapply names_unique; eauto; apply offer_names; assumption.
  Qed.

  Lemma offer_None def id i : offer def id i = None <-> forall r, ~ names def id i r.
  Proof.
    split.
    - intros E r Hn; apply names_offer in Hn; destruct Hn; congruence.
    - intros Hn; destruct (offer def id i) as [r|] eqn:E; [|reflexivity].
      exfalso; eapply Hn, offer_names; eassumption.
  Qed.

  (** ** Lookup *)
  Definition look (r : rules_dict R) (key os v : text) : installer_dict R :=
    getd v (getd os (getd key r)).

  Lemma lookup_get r key os v def d i :
    lookup_rules r key os v def = Ok d ->
    get i d = orelse (offer def (look r key os v) i)
             (orelse (offer def (look r key os any_version) i)
                     (offer def (look r key any_os any_version) i)).
  Proof.
    unfold lookup_rules, look; intros E.
    apply bind_Ok in E; destruct E as (c1 & E1 & E).
    apply bind_Ok in E; destruct E as (c2 & E2 & E3).
    rewrite (merge_installer_get _ _ _ _ i E3), (merge_installer_get _ _ _ _ i E2),
            (merge_installer_get _ _ _ _ i E1), get_nil, orelse_None_r.
    reflexivity.
  Qed.

  Lemma lookup_wf r key os v def d : lookup_rules r key os v def = Ok d -> wf d.
  Proof.
    unfold lookup_rules; intros E.
    apply bind_Ok in E; destruct E as (c1 & E1 & E).
    apply bind_Ok in E; destruct E as (c2 & E2 & E3).
    eapply merge_installer_wf, E3; eapply merge_installer_wf, E2; eapply merge_installer_wf, E1; apply wf_nil.
  Qed.

  Lemma lookup_err_look r key os v def e :
    lookup_rules r key os v def = Err e <->
    e = ValueError /\ ~ default_ok def /\
    (In default_installer (keys (look r key os v)) \/
     In default_installer (keys (look r key os any_version)) \/
     In default_installer (keys (look r key any_os any_version))).
  Proof.
    unfold lookup_rules; fold (look r key any_os any_version).
    fold (look r key os any_version); fold (look r key os v).
    rewrite bind_Err, merge_installer_err; split.
    - intros [(-> & Hin & Hd)|(c1 & E1 & E)]; [tauto|].
      apply bind_Err in E; rewrite merge_installer_err in E.
      destruct E as [(-> & Hin & Hd)|(c2 & E2 & E)]; [tauto|].
      apply merge_installer_err in E; tauto.
    - intros (-> & Hd & Hin).
      destruct (merge_installer_dict (look r key any_os any_version) [] def) as [c1|e1] eqn:E1;
        [|left; apply merge_installer_err in E1; tauto].
      right; exists c1; split; [reflexivity|].
      apply bind_Err; rewrite merge_installer_err.
      destruct (merge_installer_dict (look r key os any_version) c1 def) as [c2|e2] eqn:E2;
        [|left; apply merge_installer_err in E2; tauto].
      right; exists c2; split; [reflexivity|].
      apply merge_installer_err; repeat split; auto.
      destruct Hin as [Hin|[Hin|Hin]]; [assumption| |]; exfalso.
      + assert (F : merge_installer_dict (look r key os any_version) c1 def = Err ValueError)
          by (apply merge_installer_err; auto); congruence.
      + assert (F : merge_installer_dict (look r key any_os any_version) [] def = Err ValueError)
          by (apply merge_installer_err; auto); congruence.
  Qed.

  Lemma getd_In {V} (k : text) (d : dict text (list V)) x : In x (getd k d) -> In (k, getd k d) d.
  Proof.
    unfold getd; destruct (get k d) as [v|] eqn:E; [intros _; apply get_In; assumption|simpl; tauto].
  Qed.

  Lemma In_getd {V} (k : text) (d : dict text (list V)) v : wf d -> In (k, v) d -> getd k d = v.
  Proof. intros Hwf Hin; unfold getd; rewrite (In_get _ _ _ Hwf Hin); reflexivity. Qed.

  Lemma entry_look r key os v id : wf_rules r -> entry r key os v id -> look r key os v = id.
  Proof.
    intros [Hw1 Hw] (od & vd & H1 & H2 & H3); unfold look.
    destruct (Hw _ _ H1) as [Hw2 Hw']; destruct (Hw' _ _ H2) as [Hw3 _].
    rewrite (In_getd _ _ _ Hw1 H1), (In_getd _ _ _ Hw2 H2); apply In_getd; assumption.
  Qed.

  Lemma look_entry r key os v x : In x (look r key os v) -> entry r key os v (look r key os v).
  Proof.
    unfold look; intros Hx.
    pose proof (getd_In _ _ _ Hx) as H3; pose proof (getd_In _ _ _ H3) as H2.
    pose proof (getd_In _ _ _ H2) as H1; exists (getd key r), (getd os (getd key r)); auto.
  Qed.

  Lemma wf_look r key os v : wf_rules r -> wf (look r key os v).
  Proof.
    intros Hw; destruct (look r key os v) as [|x l] eqn:E; [apply wf_nil|].
    rewrite <- E; assert (Hx : In x (look r key os v)) by (rewrite E; left; reflexivity).
    destruct (look_entry _ _ _ _ _ Hx) as (od & vd & H1 & H2 & H3).
    destruct Hw as [_ Hw]; destruct (Hw _ _ H1) as [_ Hw']; destruct (Hw' _ _ H2) as [_ Hw3].
    eapply Hw3; eassumption.
  Qed.

  Lemma rule_at_look r def key os v i rule :
    wf_rules r -> (rule_at r def key os v i rule <-> names def (look r key os v) i rule).
  Proof.
    intros Hw; split.
    - intros (id & He & Hn); rewrite (entry_look _ _ _ _ _ Hw He); assumption.
    - intros Hn; exists (look r key os v); split; [|assumption].
      destruct Hn as [[_ Hn]|(Hn & _)]; eapply look_entry; eassumption.
  Qed.

  Lemma no_rule_at_look r def key os v i :
    wf_rules r -> (no_rule_at r def key os v i <-> offer def (look r key os v) i = None).
  Proof.
    intros Hw; rewrite offer_None; unfold no_rule_at.
    split; intros Hn rule Hr; apply (Hn rule), rule_at_look; assumption.
  Qed.

  Lemma unambiguous_look r def key os v :
    (forall id, entry r key os v id -> unambiguous_id def id) ->
    unambiguous_id def (look r key os v).
  Proof.
    intros Hu; destruct (look r key os v) as [|x l] eqn:E; [intros n _ _ []|].
    rewrite <- E; apply Hu.
    apply (look_entry _ _ _ _ x); rewrite E; left; reflexivity.
  Qed.

  Lemma lookup_precedence r key os v def d :
    wf_rules r ->
    (forall id, consulted r key os v id -> unambiguous_id def id) ->
    lookup_rules r key os v def = Ok d ->
    forall i rule, In (i, rule) d <-> effective r def key os v i rule.
  Proof.
    intros Hw Hu E i rule.
    rewrite <- (get_iff _ _ _ (lookup_wf _ _ _ _ _ _ E)), (lookup_get _ _ _ _ _ _ i E).
    assert (Hs : forall k o w, (forall id, entry r k o w id -> unambiguous_id def id) ->
              forall r0, offer def (look r k o w) i = Some r0 <-> rule_at r def k o w i r0).
    { intros k o w Hu0 r0; rewrite rule_at_look, offer_iff; try tauto.
      - apply wf_look; assumption.
      - apply unambiguous_look; assumption. }
    assert (S1 := Hs key os v ltac:(intros; apply Hu; left; assumption)).
    assert (S2 := Hs key os any_version ltac:(intros; apply Hu; right; left; assumption)).
    assert (S3 := Hs key any_os any_version ltac:(intros; apply Hu; right; right; assumption)).
    pose proof (no_rule_at_look r def key os v i Hw) as N1.
    pose proof (no_rule_at_look r def key os any_version i Hw) as N2.
    destruct (offer def (look r key os v) i) as [r1|] eqn:O1; simpl.
    { split.
      - intros F; injection F as ->; apply eff_specific, S1; reflexivity.
      - intros [rule' F|rule' F _|rule' F _ _].
        + apply S1 in F; exact F.
        + apply N1 in F; discriminate.
        + apply N1 in F; discriminate. }
    destruct (offer def (look r key os any_version) i) as [r2|] eqn:O2; simpl.
    { split.
      - intros F; injection F as ->; apply eff_any_version; [apply N1|apply S2]; reflexivity.
      - intros [rule' F|rule' _ F|rule' _ F _].
        + apply S1 in F; discriminate.
        + apply S2 in F; exact F.
        + apply N2 in F; discriminate. }
    rewrite S3; split.
    - intros F; apply eff_any_os; [apply N1|apply N2|]; auto.
    - intros [rule' F|rule' _ F|rule' _ _ F]; [apply S1 in F; discriminate|apply S2 in F; discriminate|assumption].
  Qed.

  Lemma lookup_fails_iff r key os v def e :
    wf_rules r ->
    (lookup_rules r key os v def = Err e <->
     e = ValueError /\ ~ default_ok def /\
     exists id rule, consulted r key os v id /\ In (default_installer, rule) id).
  Proof.
    intros Hw; rewrite lookup_err_look.
    assert (K : forall k o w, In default_installer (keys (look r k o w)) <->
              exists id rule, entry r k o w id /\ In (default_installer, rule) id).
    { intros k o w; unfold keys; rewrite in_map_iff; split.
      - intros ([n rule] & En & Hin); simpl in En; subst n.
        exists (look r k o w), rule; split; [eapply look_entry|]; eassumption.
      - intros (id & rule & He & Hin); exists (default_installer, rule).
        rewrite (entry_look _ _ _ _ _ Hw He); auto. }
    rewrite !K; unfold consulted; split.
    - intros (-> & Hd & [(id & rule & He & Hin)|[(id & rule & He & Hin)|(id & rule & He & Hin)]]);
        repeat split; auto; exists id, rule; auto.
    - intros (-> & Hd & id & rule & [He|[He|He]] & Hin); repeat split; auto;
        [left|right;left|right;right]; eauto.
  Qed.

  Lemma lookup_no_keyword r key os v def d rule :
    def <> Some default_installer ->
    lookup_rules r key os v def = Ok d -> ~ In (default_installer, rule) d.
  Proof.
    intros Hdef E Hin.
    apply (In_get _ _ _ (lookup_wf _ _ _ _ _ _ E)) in Hin.
    rewrite (lookup_get _ _ _ _ _ _ _ E) in Hin.
    assert (N : forall id, offer def id default_installer = None).
    { intros id; apply offer_None; intros r0 [[Hn _]|(_ & Hd & _)]; congruence. }
    rewrite !N in Hin; discriminate.
  Qed.

  (** ** Order independence *)
  Lemma offer_perm def id id' i :
    wf id -> unambiguous_id def id -> Permutation id id' -> offer def id i = offer def id' i.
  Proof.
    intros Hwf Hu HP.
    assert (Hwf' : wf id') by (eapply wf_perm; eassumption).
    assert (Hk : Permutation (map fst id) (map fst id')) by (apply Permutation_map; assumption).
    assert (Hu' : unambiguous_id def id').
    { intros n E Hn Hin Hin'; apply (Hu n E Hn).
      - eapply Permutation_in; [apply Permutation_sym|]; eassumption.
      - eapply Permutation_in; [apply Permutation_sym|]; eassumption. }
    assert (Hnm : forall r, names def id i r <-> names def id' i r).
    { intros r; unfold names; split; intros [[Hi Hin]|(Hin & Hd)];
        [left|right|left|right]; repeat split; try tauto;
        (eapply Permutation_in; [|exact Hin]); auto using Permutation_sym. }
    destruct (offer def id i) as [r|] eqn:E; symmetry.
    - apply offer_iff; auto; apply Hnm, offer_iff; auto.
    - apply offer_None; intros r Hr; apply (proj1 (offer_None def id i) E r), Hnm; assumption.
  Qed.

  Lemma dict_equiv_getd {V W} (E : list V -> list W -> Prop) (d : dict text (list V)) (d' : dict text (list W)) k :
    wf d -> E [] [] -> dict_equiv E d d' -> E (getd k d) (getd k d').
  Proof.
    intros Hwf HE (d0 & HP & HF); unfold getd; rewrite (get_perm k _ _ Hwf HP).
    clear Hwf HP; induction HF as [|[k1 v1] [k2 v2] l l' [Hk Hv] HF IH]; [exact HE|].
    simpl in Hk, Hv; subst k2; rewrite !get_cons; destruct (eqb k k1); [exact Hv|exact IH].
  Qed.

  Lemma dict_equiv_In {V W} (E : V -> W -> Prop) (d : dict text V) (d' : dict text W) k w :
    dict_equiv E d d' -> In (k, w) d' -> exists v, In (k, v) d /\ E v w.
  Proof.
    intros (d0 & HP & HF) Hin.
    assert (G : exists v, In (k, v) d0 /\ E v w).
    { clear HP; induction HF as [|[k1 v1] [k2 v2] l l' [Hk Hv] HF IH]; simpl in *; [tauto|].
      destruct Hin as [Eq|Hin]; [injection Eq as -> ->; subst; eauto|].
      destruct (IH Hin) as (v & Hi & He); eauto. }
    destruct G as (v & Hi & He); exists v; split; [|assumption].
    eapply Permutation_in; [apply Permutation_sym|]; eassumption.
  Qed.

  Lemma dict_equiv_keys {V W} (E : V -> W -> Prop) (d : dict text V) (d' : dict text W) :
    dict_equiv E d d' -> Permutation (keys d) (keys d').
  Proof.
    intros (d0 & HP & HF); transitivity (keys d0); [apply Permutation_map; assumption|].
    clear HP; induction HF as [|p q l l' [Hk _] HF IH]; simpl; [constructor|].
    rewrite Hk; constructor; assumption.
  Qed.

  Lemma dict_equiv_nil {V W} (E : V -> W -> Prop) : dict_equiv E [] [].
  Proof. exists []; split; constructor. Qed.

  Lemma look_equiv r r' key os v :
    wf_rules r -> rules_equiv r r' -> Permutation (look r key os v) (look r' key os v).
  Proof.
    intros [Hw1 Hw] HE; unfold look.
    pose proof (dict_equiv_getd _ _ _ key Hw1 (dict_equiv_nil _) HE) as HE1.
    assert (Hw2 : wf_os_dict (getd key r)).
    { unfold getd; destruct (get key r) as [od|] eqn:G.
      - apply (Hw key od), get_In; exact G.
      - split; [apply wf_nil|intros ? ? []]. }
    pose proof (dict_equiv_getd _ _ _ os (proj1 Hw2) (dict_equiv_nil _) HE1) as HE2.
    assert (Hw3 : wf_version_dict (getd os (getd key r))).
    { unfold getd at 1; destruct (get os (getd key r)) as [vd|] eqn:G.
      - apply (proj2 Hw2 os vd), get_In; exact G.
      - split; [apply wf_nil|intros ? ? []]. }
    exact (dict_equiv_getd id_equiv _ _ v (proj1 Hw3) (perm_nil _) HE2).
  Qed.

  Lemma dict_ext_perm {V} (d d' : dict text V) :
    wf d -> wf d' -> (forall k, get k d = get k d') -> Permutation d d'.
  Proof.
    intros Hw Hw' Hg; apply NoDup_Permutation.
    - unfold wf, keys in Hw; eapply NoDup_map_inv; exact Hw.
    - unfold wf, keys in Hw'; eapply NoDup_map_inv; exact Hw'.
    - intros [k v]; rewrite <- !get_iff, Hg; tauto.
  Qed.

  Lemma lookup_order_independent r r' key os v def :
    wf_rules r -> rules_equiv r r' ->
    (forall id, consulted r key os v id -> unambiguous_id def id) ->
    outcome_equiv (lookup_rules r key os v def) (lookup_rules r' key os v def).
  Proof.
    intros Hw HE Hu.
    assert (P : forall k o w, Permutation (look r k o w) (look r' k o w))
      by (intros; apply look_equiv; assumption).
    assert (K : forall k o w, In default_installer (keys (look r k o w)) <->
                              In default_installer (keys (look r' k o w))).
    { intros k o w; unfold keys; split; apply Permutation_in; apply Permutation_map;
        [|apply Permutation_sym]; apply P. }
    assert (F : forall e, lookup_rules r key os v def = Err e <-> lookup_rules r' key os v def = Err e).
    { intros e; rewrite !lookup_err_look, !K; tauto. }
    destruct (lookup_rules r key os v def) as [d|e] eqn:E1.
    - destruct (lookup_rules r' key os v def) as [d'|e'] eqn:E2; simpl.
      + apply dict_ext_perm; [eapply lookup_wf; eassumption|eapply lookup_wf; eassumption|].
        intros i; rewrite (lookup_get _ _ _ _ _ _ i E1), (lookup_get _ _ _ _ _ _ i E2).
        rewrite (offer_perm def (look r key os v) (look r' key os v)),
                (offer_perm def (look r key os any_version) (look r' key os any_version)),
                (offer_perm def (look r key any_os any_version) (look r' key any_os any_version));
          auto using wf_look; apply unambiguous_look; intros id He; apply Hu; unfold consulted; auto.
      + specialize (F e'); destruct F as [_ F]; specialize (F eq_refl); discriminate.
    - rewrite (proj1 (F e) eq_refl); reflexivity.
  Qed.

  (** ** Key listing *)
  Lemma has_rule_for_os_offer (od : os_dict R) os v def i r :
    orelse (offer def (getd v (getd os od)) i)
      (orelse (offer def (getd any_version (getd os od)) i)
              (offer def (getd any_version (getd any_os od)) i)) = Some r ->
    has_rule_for_os od os v = true.
  Proof.
    unfold has_rule_for_os, getd, has; intros E.
    destruct (get any_os od) as [avd|]; [reflexivity|].
    destruct (get os od) as [vd|]; simpl in *; [|discriminate].
    destruct (get v vd); [reflexivity|].
    destruct (get any_version vd); [reflexivity|]; discriminate.
  Qed.

  Lemma keys_complete r key os v def d :
    lookup_rules r key os v def = Ok d -> d <> [] -> In key (spec_keys r os v).
  Proof.
    intros E Hne; destruct d as [|[i rule] d]; [congruence|]; clear Hne.
    assert (G : get i ((i, rule) :: d) = Some rule) by (rewrite get_cons, eqb_refl; reflexivity).
    rewrite (lookup_get _ _ _ _ _ _ i E) in G.
    unfold look in G; apply has_rule_for_os_offer in G.
    unfold spec_keys; apply in_map_iff; unfold getd in G.
    destruct (get key r) as [od|] eqn:Hk; [|discriminate].
    exists (key, od); split; [reflexivity|]; apply filter_In; split; [apply get_In|]; assumption.
  Qed.

  Lemma spec_keys_subset (r : rules_dict R) os v k : In k (spec_keys r os v) -> In k (keys r).
  Proof.
    unfold spec_keys, keys; rewrite !in_map_iff; intros (p & E & Hin).
    apply filter_In in Hin; exists p; tauto.
  Qed.

  Lemma spec_keys_nodup (r : rules_dict R) os v : wf r -> NoDup (spec_keys r os v).
  Proof.
    unfold wf, spec_keys; induction r as [|[k od] r IH]; simpl; [constructor|].
    intros Hw; inversion Hw as [|? ? Hk Hw']; subst.
    destruct (has_rule_for_os od os v); simpl; [|auto].
    constructor; [|auto]; intros Hin; apply Hk.
    unfold keys in *; rewrite in_map_iff in Hin |- *; destruct Hin as (p & E & Hin).
    apply filter_In in Hin; exists p; tauto.
  Qed.

End Lookup.
