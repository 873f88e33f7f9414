(** Proofs about compaction (C16). *)
From Verif Require Import Base Dict PyVal RulesDict RulesSpec RulesLookupProofs Verify VerifySpec
  VerifyProofs VerifiedLookup Expand ExpandSpec ExpandProofs Compact CompactSpec.

Definition fixed_rule (rule : pyval) : Prop :=
  wfval rule /\ exists d, rule = VDict d /\ expand_definition rule = Ok rule /\
    forall x, get k_packages d = Some x -> exists l, x = VList l.

Lemma compact_rule_cases rule :
  fixed_rule rule ->
  (exists l, compact_installer_rule rule = VList l /\ rule = VDict [(k_packages, VList l)]) \/
  (compact_installer_rule rule = rule /\ exists d, rule = VDict d).
Proof.
  intros (_ & d & -> & _ & Hp); simpl.
  destruct (get k_packages d) as [x|] eqn:E; [|right; eauto].
  destruct (Nat.eqb_spec (List.length d) 1) as [El|]; [|right; eauto].
  destruct (Hp x eq_refl) as [l ->]; left; exists l; split; [reflexivity|].
  destruct d as [|[k y] [|]]; try discriminate.
  rewrite get_cons, get_nil in E; destruct (eqb_spec k_packages k); congruence.
Qed.

Lemma compact_rule_expand rule :
  fixed_rule rule -> expand_definition (compact_installer_rule rule) = Ok rule.
Proof.
  intros Hf; destruct (compact_rule_cases _ Hf) as [(l & -> & ->)|[-> _]]; [reflexivity|].
  destruct Hf as (_ & d & -> & H & _); exact H.
Qed.

Lemma pyeq_packages l1 l2 :
  pyeq (VList l1) (VList l2) = true ->
  pyeq (VDict [(k_packages, VList l1)]) (VDict [(k_packages, VList l2)]) = true.
Proof.
  intros H; apply pyeq_dict; split; [reflexivity|].
  intros k x [E|[]]; injection E as <- <-; exists (VList l2); auto.
Qed.

Lemma pyeq_compact r1 r2 :
  fixed_rule r1 -> fixed_rule r2 ->
  pyeq (compact_installer_rule r1) (compact_installer_rule r2) = true -> pyeq r1 r2 = true.
Proof.
  intros H1 H2.
  destruct (compact_rule_cases _ H1) as [(l1 & -> & ->)|[-> (d1 & ->)]];
    destruct (compact_rule_cases _ H2) as [(l2 & -> & ->)|[-> (d2 & ->)]]; try discriminate; auto.
  apply pyeq_packages.
Qed.

(** ** Renaming *)
Definition rename (def : option text) (id : installer_dict pyval) : installer_dict pyval :=
  match def with
  | Some (c :: n) => match get default_installer id with
                     | Some r => del default_installer (set (c :: n) r id)
                     | None => id
                     end
  | _ => id
  end.

Definition keyof (def : option text) : text :=
  match def with Some (c :: n) => c :: n | _ => default_installer end.

Lemma set_map_vals {V W} (f : V -> W) k v (d : dict text V) :
  set k (f v) (map_vals f d) = map_vals f (set k v d).
Proof.
  induction d as [|[k0 v0] d IH]; [reflexivity|].
  unfold map_vals in *; cbn [map fst snd set]; unfold set; fold (set (K:=text) (V:=V)); fold (set (K:=text) (V:=W)).
  destruct (eqb k k0); [reflexivity|]; cbn [map fst snd]; rewrite <- IH; reflexivity.
Qed.

Lemma del_map_vals {V W} (f : V -> W) k (d : dict text V) :
  del k (map_vals f d) = map_vals f (del k d).
Proof.
  unfold del, map_vals; induction d as [|[k0 v0] d IH]; [reflexivity|]; simpl.
  destruct (eqb k k0); simpl; rewrite IH; reflexivity.
Qed.

Lemma has_map_vals {V W} (f : V -> W) k (d : dict text V) : has k (map_vals f d) = has k d.
Proof. unfold has; rewrite get_map_vals; destruct (get k d); reflexivity. Qed.

Definition not_both (def : option text) (id : installer_dict pyval) : Prop :=
  forall n, def = Some n -> n <> [] -> In default_installer (keys id) -> ~ In n (keys id).

Lemma compact_rename_spec f id def R k :
  compact_rename (map_vals f id) def = Ok (R, k) <->
  not_both def id /\ R = map_vals f (rename def id) /\ k = keyof def.
Proof.
  unfold compact_rename, rename, keyof, not_both; destruct def as [[|c n]|].
  - split; [intros E; injection E as <- <-; split; [congruence|auto]|intros (_ & -> & ->); reflexivity].
  - rewrite get_map_vals; destruct (get default_installer id) as [r|] eqn:E; simpl.
    + rewrite has_map_vals, set_map_vals, del_map_vals.
      assert (Hd : In default_installer (keys id)) by (apply get_Some_keys; eauto).
      destruct (has (c :: n) id) eqn:Eh.
      * apply has_keys in Eh; split; [discriminate|].
        intros (H & _); elim (H _ eq_refl ltac:(discriminate) Hd); exact Eh.
      * apply has_false, get_None in Eh; split.
        -- intros Eq; injection Eq as <- <-; split; [|auto]; intros m Em _ _; congruence.
        -- intros (_ & -> & ->); reflexivity.
    + apply get_None in E; split.
      * intros Eq; injection Eq as <- <-; split; [|auto]; intros m _ _ Hm; elim E; exact Hm.
      * intros (_ & -> & ->); reflexivity.
  - split; [intros E; injection E as <- <-; split; [congruence|auto]|intros (_ & -> & ->); reflexivity].
Qed.

Lemma compact_rename_Err f id def e :
  compact_rename (map_vals f id) def = Err e -> e = ValueError /\ ~ not_both def id.
Proof.
  unfold compact_rename, not_both; destruct def as [[|c n]|]; try discriminate.
  rewrite get_map_vals; destruct (get default_installer id) as [r|] eqn:E; simpl; [|discriminate].
  rewrite has_map_vals; destruct (has (c :: n) id) eqn:Eh; [|discriminate].
  intros Eq; injection Eq as <-; split; [reflexivity|]; intros H; apply has_keys in Eh.
  apply (H _ eq_refl ltac:(discriminate)); [apply get_Some_keys; eauto|exact Eh].
Qed.

Lemma rename_In def id k r :
  In (k, r) (rename def id) -> exists k', In (k', r) id.
Proof.
  unfold rename; destruct def as [[|c n]|]; eauto.
  destruct (get default_installer id) as [r0|] eqn:E; [|eauto].
  intros H; apply In_del in H; destruct H as [H _]; apply In_set in H.
  destruct H as [[-> ->]|H]; [apply get_In in E|]; eauto.
Qed.

Lemma wf_rename def id : wf id -> wf (rename def id).
Proof.
  intros Hw; unfold rename; destruct def as [[|c n]|]; auto.
  destruct (get default_installer id); auto; apply wf_del, wf_set, Hw.
Qed.

Definition usable (def : option text) : bool :=
  match def with Some (_ :: _) => true | _ => false end.

Lemma default_ok_usable def : default_ok def <-> usable def = true.
Proof.
  unfold default_ok; destruct def as [[|c n]|]; simpl; split; try discriminate; try (intros (n0 & E & H); congruence).
  - intros _; exists (c :: n); split; [reflexivity|discriminate].
Qed.

Lemma rename_no_default def id :
  usable def = true -> not_both def id -> ~ In default_installer (keys (rename def id)).
Proof.
  destruct def as [[|c n]|]; try discriminate; intros _ Hnb; unfold rename.
  destruct (get default_installer id) as [r|] eqn:E; [|apply get_None; exact E].
  rewrite keys_del; intros H; apply filter_In in H; destruct H as [_ H].
  rewrite eqb_refl in H; discriminate.
Qed.

Lemma rename_unusable def id : usable def = false -> rename def id = id.
Proof. destruct def as [[|]|]; try discriminate; reflexivity. Qed.

Lemma keyof_unusable def : usable def = false -> keyof def = default_installer.
Proof. destruct def as [[|]|]; try discriminate; reflexivity. Qed.

(** Offers in terms of plain access. *)
Lemma offer_get def (R : installer_dict pyval) i :
  wf R -> usable def = false \/ ~ In default_installer (keys R) ->
  offer def R i = if eqb i default_installer then None else get i R.
Proof.
  induction R as [|[n r] R IH]; intros Hw Hor; simpl.
  - destruct (eqb i default_installer); reflexivity.
  - apply wf_cons in Hw; destruct Hw as [Hn Hw].
    rewrite IH; [|assumption|destruct Hor as [Hor|Hor]; [auto|right; intros H; apply Hor; right; exact H]].
    rewrite get_cons.
    assert (Hrep : (match replace_default_installer n def with
                    | Ok m => if eqb i m then Some r else None | Err _ => None end) =
                   if eqb n default_installer then None else if eqb i n then Some r else None).
    { unfold replace_default_installer; destruct (eqb_spec n default_installer) as [->|Hd]; [|reflexivity].
      destruct Hor as [Hor|Hor]; [|elim Hor; left; reflexivity].
      destruct def as [[|]|]; try discriminate; reflexivity. }
    rewrite Hrep.
    destruct (eqb_spec i default_installer) as [Ei|Hi]; simpl.
    + destruct (eqb_spec n default_installer) as [En|Hd]; [reflexivity|].
      destruct (eqb_spec i n); congruence.
    + destruct (eqb_spec i n) as [Ei|Hin]; simpl.
      * rewrite Ei, Hn; simpl; destruct (eqb_spec n default_installer); congruence.
      * destruct (eqb n default_installer); rewrite orelse_None_r; reflexivity.
Qed.

(** The re-expanded installer dict. *)
Definition gid (def : option text) (id : installer_dict pyval) : installer_dict pyval :=
  let R := rename def id in
  match get (keyof def) R with
  | Some rule => if Nat.eqb (List.length R) 1 && negb (is_dict (compact_installer_rule rule))
                 then [(default_installer, rule)] else R
  | None => R
  end.

Lemma singleton_get k (R : installer_dict pyval) r :
  get k R = Some r -> List.length R = 1 -> R = [(k, r)].
Proof.
  destruct R as [|[k0 r0] [|]]; try discriminate; intros E _.
  rewrite get_cons, get_nil in E; destruct (eqb_spec k k0); congruence.
Qed.

Lemma gid_unusable def id : usable def = false -> gid def id = id.
Proof.
  intros Hu; unfold gid; rewrite (rename_unusable _ _ Hu), (keyof_unusable _ Hu).
  destruct (get default_installer id) as [r|] eqn:E; [|reflexivity].
  destruct (Nat.eqb_spec (List.length id) 1) as [El|]; simpl; [|reflexivity].
  destruct (is_dict _); simpl; [reflexivity|]; symmetry; apply singleton_get; assumption.
Qed.

Lemma offer_gid_rename def id i :
  wf id -> not_both def id -> offer def (gid def id) i = offer def (rename def id) i.
Proof.
  intros Hw Hnb; destruct (usable def) eqn:Hu.
  - unfold gid; destruct (get (keyof def) (rename def id)) as [r|] eqn:E; [|reflexivity].
    destruct (Nat.eqb_spec (List.length (rename def id)) 1) as [El|]; simpl; [|reflexivity].
    destruct (is_dict _); simpl; [reflexivity|].
    pose proof (singleton_get _ _ _ E El) as HR.
    pose proof (rename_no_default def id Hu Hnb) as Hnd; rewrite HR in Hnd |- *.
    destruct def as [[|c n]|]; try discriminate; cbn [keyof offer] in *.
    unfold replace_default_installer at 1; rewrite eqb_refl.
    unfold replace_default_installer.
    destruct (eqb_spec (c :: n) default_installer) as [En|]; [elim Hnd; left; exact En|reflexivity].
  - rewrite gid_unusable, rename_unusable by assumption; reflexivity.
Qed.

Lemma offer_rename def id i :
  wf id -> not_both def id -> offer def (rename def id) i = offer def id i.
Proof.
  intros Hw Hnb; destruct (usable def) eqn:Hu; [|rewrite rename_unusable by assumption; reflexivity].
  destruct def as [[|c n]|]; try discriminate.
  pose proof (rename_no_default _ _ Hu Hnb) as Hnd.
  rewrite offer_get; [|apply wf_rename; assumption|right; assumption].
  assert (Hua : unambiguous_id (Some (c :: n)) id).
  { intros m Em _ Hd; apply Hnb; [assumption|congruence|assumption]. }
  destruct (offer (Some (c :: n)) id i) as [r|] eqn:Eo.
  - apply offer_iff in Eo; [|assumption|assumption].
    unfold rename; destruct (get default_installer id) as [rd|] eqn:Ed.
    + destruct Eo as [[Hi Hin]|(Hin & Ei & _)].
      * destruct (eqb_spec i default_installer) as [|_]; [congruence|].
        rewrite get_del; destruct (eqb_spec i default_installer) as [|_]; [congruence|].
        rewrite get_set; destruct (eqb_spec i (c :: n)) as [->|_]; [|apply In_get; assumption].
        exfalso; apply (Hnb _ eq_refl ltac:(discriminate)); [apply get_Some_keys; eauto|eapply In_keys; eassumption].
      * injection Ei as <-.
        assert (Hne : c :: n <> default_installer).
        { intros En; apply (Hnb _ eq_refl ltac:(discriminate)); [|rewrite En]; eapply In_keys; eassumption. }
        destruct (eqb_spec (c :: n) default_installer) as [|_]; [congruence|].
        rewrite get_del; destruct (eqb_spec (c :: n) default_installer) as [|_]; [congruence|].
        rewrite get_set_same; apply In_get in Hin; [congruence|assumption].
    + destruct Eo as [[Hi Hin]|(Hin & _)].
      * destruct (eqb_spec i default_installer) as [|_]; [congruence|]; apply In_get; assumption.
      * apply get_None in Ed; elim Ed; eapply In_keys; eassumption.
  - rewrite offer_None in Eo.
    destruct (eqb_spec i default_installer) as [|Hi]; [reflexivity|].
    destruct (get i (rename (Some (c :: n)) id)) as [r|] eqn:Er; [exfalso|reflexivity].
    unfold rename in Er; destruct (get default_installer id) as [rd|] eqn:Ed.
    + rewrite get_del in Er; destruct (eqb_spec i default_installer) as [|_]; [congruence|].
      rewrite get_set in Er; destruct (eqb_spec i (c :: n)) as [->|_].
      * apply (Eo rd); right; split; [apply get_In; assumption|split; [reflexivity|discriminate]].
      * apply (Eo r); left; split; [assumption|apply get_In; assumption].
    + apply (Eo r); left; split; [assumption|apply get_In; assumption].
Qed.

Lemma offer_gid def id i : wf id -> not_both def id -> offer def (gid def id) i = offer def id i.
Proof. intros Hw Hnb; rewrite offer_gid_rename, offer_rename by assumption; reflexivity. Qed.

(** ** Installer dicts: compaction followed by expansion *)
Definition good_id (id : installer_dict pyval) : Prop :=
  wf id /\ forall k r, In (k, r) id -> fixed_rule r.

Lemma length_map_vals {V W} (f : V -> W) (d : dict text V) : List.length (map_vals f d) = List.length d.
Proof. apply map_length. Qed.

Lemma compact_id_spec id def c :
  compact_installer_dict id def = Ok c ->
  not_both def id /\
  c = (let R := rename def id in
       match get (keyof def) R with
       | Some rule => if Nat.eqb (List.length R) 1 && negb (is_dict (compact_installer_rule rule))
                      then compact_installer_rule rule else inj_id (map_vals compact_installer_rule R)
       | None => inj_id (map_vals compact_installer_rule R)
       end).
Proof.
  unfold compact_installer_dict; intros E; apply bind_Ok in E; destruct E as ([R k] & ER & E).
  apply compact_rename_spec in ER; destruct ER as (Hnb & -> & ->); split; [assumption|]; cbn zeta.
  rewrite get_map_vals, length_map_vals in E.
  destruct (get (keyof def) (rename def id)) as [r|]; simpl in E; [|congruence].
  destruct (Nat.eqb _ _ && _); congruence.
Qed.

Lemma compact_id_ok id def : not_both def id -> exists c, compact_installer_dict id def = Ok c.
Proof.
  intros Hnb; unfold compact_installer_dict.
  destruct (compact_rename (map_vals compact_installer_rule id) def) as [[R k]|e] eqn:E.
  - simpl; destruct (get k R); [destruct (Nat.eqb _ _ && _)|]; eauto.
  - apply compact_rename_Err in E; tauto.
Qed.

Lemma compact_id_Err id def e : compact_installer_dict id def = Err e -> e = ValueError /\ ~ not_both def id.
Proof.
  unfold compact_installer_dict; rewrite bind_Err; intros [H|([R k] & _ & H)].
  - apply compact_rename_Err in H; exact H.
  - destruct (get k R); [destruct (Nat.eqb _ _ && _)|]; discriminate.
Qed.

Lemma map_items_list {A} (f : pkey -> pyval -> res pyval) (k : A -> text) (x y : A -> pyval) l :
  (forall a, In a l -> f (KStr (k a)) (x a) = Ok (y a)) ->
  map_items f (map (fun a => (KStr (k a), x a)) l) = Ok (map (fun a => (KStr (k a), y a)) l).
Proof.
  intros H; apply map_items_Ok; induction l as [|a l IH]; simpl; constructor; simpl.
  - split; [reflexivity|]; apply H; left; reflexivity.
  - apply IH; intros b Hb; apply H; right; exact Hb.
Qed.

Lemma expand_inj_id R :
  (forall k r, In (k, r) R -> fixed_rule r) ->
  expand_installer_definition (inj_id (map_vals compact_installer_rule R)) = Ok (inj_id R).
Proof.
  intros Hf; rewrite expand_installer_unfold; unfold inj_id, inj_dict, map_vals; rewrite map_map; simpl.
  rewrite (map_items_list (fun _ x => expand_definition x) fst
             (fun p => compact_installer_rule (snd p)) snd); [reflexivity|].
  intros [k r] Hin; simpl; apply compact_rule_expand; eauto.
Qed.

Lemma compact_id_expand id def c :
  good_id id -> compact_installer_dict id def = Ok c ->
  expand_installer_definition c = Ok (inj_id (gid def id)).
Proof.
  intros [Hw Hf] E; apply compact_id_spec in E; destruct E as [Hnb ->]; cbn zeta.
  assert (HfR : forall k r, In (k, r) (rename def id) -> fixed_rule r).
  { intros k r Hin; apply rename_In in Hin; destruct Hin as [k' Hin]; eauto. }
  unfold gid; destruct (get (keyof def) (rename def id)) as [r|] eqn:Er; [|apply expand_inj_id; assumption].
  destruct (Nat.eqb _ 1); simpl; [|apply expand_inj_id; assumption].
  assert (Hr : fixed_rule r) by (apply get_In in Er; eauto).
  destruct (compact_rule_cases _ Hr) as [(l & Hc & ->)|[Hc (d & ->)]]; rewrite Hc; simpl;
    [reflexivity|apply expand_inj_id; assumption].
Qed.

(** Compacted values are lists or dicts; lists come from a single entry. *)
Lemma compact_id_scalar id def c :
  good_id id -> compact_installer_dict id def = Ok c ->
  (is_dict c = false /\ exists l, c = VList l /\
     rename def id = [(keyof def, VDict [(k_packages, VList l)])]) \/
  (c = inj_id (map_vals compact_installer_rule (rename def id)) /\
   gid def id = rename def id).
Proof.
  intros [Hw Hf] E; apply compact_id_spec in E; destruct E as [Hnb ->]; cbn zeta; unfold gid.
  destruct (get (keyof def) (rename def id)) as [r|] eqn:Er; [|auto].
  destruct (Nat.eqb_spec (List.length (rename def id)) 1) as [El|]; simpl; [|auto].
  assert (Hr : fixed_rule r).
  { apply get_In in Er; apply rename_In in Er; destruct Er as [k' Hin]; eauto. }
  destruct (compact_rule_cases _ Hr) as [(l & Hc & ->)|[Hc (d & ->)]]; rewrite Hc; simpl; [|auto].
  left; split; [reflexivity|]; exists l; split; [reflexivity|]; apply singleton_get; assumption.
Qed.

Definition opt_rel {A B} (P : A -> B -> Prop) (x : option A) (y : option B) : Prop :=
  match x, y with
  | Some a, Some b => P a b
  | None, None => True
  | _, _ => False
  end.

Lemma pyeq_inj_get (R1 R2 : installer_dict pyval) :
  wf R1 -> wf R2 -> pyeq (inj_id R1) (inj_id R2) = true ->
  forall i, opt_rel (fun a b => pyeq a b = true) (get i R1) (get i R2).
Proof.
  intros Hw1 Hw2 H i; unfold inj_id, inj_dict in H; apply pyeq_dict in H; destruct H as [Hl H].
  rewrite !map_length in Hl.
  assert (Hall : forall k x, In (k, x) R1 -> exists y, get k R2 = Some y /\ pyeq x y = true).
  { intros k x Hin; destruct (H (KStr k) x) as (y & Ey & Hy).
    - apply in_map_iff; exists (k, x); auto.
    - rewrite (get_inj (fun x : pyval => x)) in Ey; destruct (get k R2) as [y'|]; [|discriminate].
      injection Ey as <-; eauto. }
  destruct (get i R1) as [x|] eqn:E1.
  - apply get_In in E1; destruct (Hall _ _ E1) as (y & -> & Hy); exact Hy.
  - destruct (get i R2) as [y|] eqn:E2; [exfalso|exact I].
    assert (Hincl : incl (keys R2) (keys R1)).
    { apply NoDup_length_incl; [exact Hw1|unfold keys; rewrite !map_length; lia|].
      intros k Hk; apply get_Some_keys in Hk; destruct Hk as [x Hx]; apply get_In in Hx.
      destruct (Hall _ _ Hx) as (y' & Ey & _); apply get_Some_keys; eauto. }
    apply get_None in E1; apply E1, Hincl, get_Some_keys; eauto.
Qed.

Lemma wf_map_vals {V W} (f : V -> W) (d : dict text V) : wf (map_vals f d) <-> wf d.
Proof. unfold wf; rewrite keys_map_vals; tauto. Qed.

Lemma pyeq_compact_id id1 id2 def c1 c2 :
  good_id id1 -> good_id id2 ->
  compact_installer_dict id1 def = Ok c1 -> compact_installer_dict id2 def = Ok c2 ->
  pyeq c1 c2 = true ->
  forall i, opt_rel (fun a b => pyeq a b = true) (get i (rename def id1)) (get i (rename def id2)).
Proof.
  intros G1 G2 E1 E2 Hp i.
  destruct (compact_id_scalar _ _ _ G1 E1) as [(_ & l1 & -> & HR1)|[-> _]];
    destruct (compact_id_scalar _ _ _ G2 E2) as [(_ & l2 & -> & HR2)|[-> _]]; try discriminate.
  - rewrite HR1, HR2, !get_cons, !get_nil; destruct (eqb i (keyof def)); [|exact I].
    apply pyeq_packages; exact Hp.
  - assert (Hw1 : wf (rename def id1)) by (apply wf_rename, G1).
    assert (Hw2 : wf (rename def id2)) by (apply wf_rename, G2).
    pose proof (pyeq_inj_get _ _ (proj2 (wf_map_vals compact_installer_rule _) Hw1)
                  (proj2 (wf_map_vals compact_installer_rule _) Hw2) Hp i) as H.
    rewrite !get_map_vals in H.
    destruct (get i (rename def id1)) as [a|] eqn:Ea, (get i (rename def id2)) as [b|] eqn:Eb; simpl in *; auto.
    apply get_In in Ea; apply get_In in Eb.
    apply rename_In in Ea; destruct Ea as [ka Ea]; apply rename_In in Eb; destruct Eb as [kb Eb].
    apply pyeq_compact; [eapply G1; eassumption|eapply G2; eassumption|exact H].
Qed.

Lemma compact_not_both id def c : compact_installer_dict id def = Ok c -> not_both def id.
Proof. intros E; apply compact_id_spec in E; apply E. Qed.

(** A dropped version offers the same as the any_version entry. *)
Lemma dropped_offer id1 id2 def c1 c2 i :
  good_id id1 -> good_id id2 ->
  compact_installer_dict id1 def = Ok c1 -> compact_installer_dict id2 def = Ok c2 ->
  pyeq c1 c2 = true ->
  opt_rel (fun a b => pyeq a b = true) (offer def id1 i) (offer def id2 i) /\
  (usable def = false -> (In default_installer (keys id1) <-> In default_installer (keys id2))).
Proof.
  intros G1 G2 E1 E2 Hp; pose proof (pyeq_compact_id _ _ _ _ _ G1 G2 E1 E2 Hp) as H.
  pose proof (compact_not_both _ _ _ E1) as Hn1; pose proof (compact_not_both _ _ _ E2) as Hn2.
  split.
  - rewrite <- (offer_rename def id1 i (proj1 G1) Hn1), <- (offer_rename def id2 i (proj1 G2) Hn2).
    assert (Hor : forall id, not_both def id -> usable def = false \/ ~ In default_installer (keys (rename def id))).
    { intros id Hnb; destruct (usable def) eqn:Hu; [right; apply rename_no_default; assumption|auto]. }
    rewrite !offer_get; auto using wf_rename, (proj1 G1), (proj1 G2); try (apply wf_rename; apply G1); try (apply wf_rename; apply G2).
    destruct (eqb i default_installer); [exact I|apply H].
  - intros Hu; specialize (H default_installer); rewrite !rename_unusable in H by assumption.
    rewrite <- !get_Some_keys.
    destruct (get default_installer id1), (get default_installer id2); simpl in H; try tauto.
    split; intros; eauto.
Qed.

(** ** Version dicts *)
Definition cval (def : option text) (id : installer_dict pyval) : pyval :=
  match compact_installer_dict id def with Ok c => c | Err _ => VNone end.

Definition keep (def : option text) (anyc : option pyval) (p : text * installer_dict pyval) : bool :=
  negb (eqb (fst p) any_version) &&
  match anyc with Some a => negb (pyeq (cval def (snd p)) a) | None => true end.

Lemma set_fresh {V} k (v : V) (d : dict text V) : get k d = None -> set k v d = d ++ [(k, v)].
Proof. intros H; rewrite <- (app_nil_r d) at 1; rewrite set_app_fresh by assumption; reflexivity. Qed.

Lemma compact_fold def anyc vd acc d :
  wf vd -> (forall v, In v (keys vd) -> v <> any_version -> get v acc = None) ->
  foldM (compact_version_step def anyc) vd acc = Ok d ->
  d = acc ++ map (fun p => (fst p, cval def (snd p))) (filter (keep def anyc) vd) /\
  forall v id, In (v, id) vd -> v <> any_version -> compact_installer_dict id def = Ok (cval def id).
Proof.
  revert acc; induction vd as [|[v id] vd IH]; intros acc Hw Hfresh E.
  - simpl in E; injection E as <-; rewrite app_nil_r; split; [reflexivity|intros ? ? []].
  - apply wf_cons in Hw; destruct Hw as [Hv Hw]; cbn [foldM] in E; apply bind_Ok in E.
    destruct E as (acc' & Es & E); unfold compact_version_step in Es; cbn [fst snd] in Es.
    cbn [filter]; unfold keep at 1; cbn [fst snd].
    destruct (eqb_spec v any_version) as [Ev|Nv]; cbn [negb andb].
    + injection Es as <-; destruct (IH acc Hw) as [-> Hall].
      * intros v' Hv'; apply Hfresh; right; exact Hv'.
      * exact E.
      * split; [reflexivity|]; intros v' id' [Eq|Hin]; [congruence|eauto].
    + apply bind_Ok in Es; destruct Es as (c & Ec & Es).
      assert (Hc : cval def id = c) by (unfold cval; rewrite Ec; reflexivity).
      assert (Hfresh' : get v acc = None) by (apply Hfresh; [left; reflexivity|assumption]).
      assert (Hgo : forall acc1, (acc1 = acc \/ acc1 = set v c acc) ->
                forall v', In v' (keys vd) -> v' <> any_version -> get v' acc1 = None).
      { intros acc1 Ha v' Hv' Hn; assert (Hvv : v' <> v).
        { intros ->; apply get_Some_keys in Hv'; destruct Hv'; congruence. }
        destruct Ha as [->| ->]; [|rewrite get_set_other by assumption]; apply Hfresh; auto; right; exact Hv'. }
      assert (Hres : (acc' = acc /\ match anyc with Some a => negb (pyeq (cval def id) a) | None => true end = false) \/
                     (acc' = set v c acc /\ match anyc with Some a => negb (pyeq (cval def id) a) | None => true end = true)).
      { rewrite Hc; destruct anyc as [a|]; [destruct (pyeq c a)|]; simpl; injection Es as <-; auto. }
      destruct Hres as [[-> Hk]|[-> Hk]]; rewrite Hk.
      * destruct (IH acc Hw (Hgo acc (or_introl eq_refl)) E) as [-> Hall]; split; [reflexivity|].
        intros v' id' [Eq|Hin] Hn; [injection Eq as <- <-; congruence|eauto].
      * destruct (IH _ Hw (Hgo _ (or_intror eq_refl)) E) as [-> Hall]; split.
        -- rewrite set_fresh, <- app_assoc by assumption; cbn [map fst snd]; rewrite Hc; reflexivity.
        -- intros v' id' [Eq|Hin] Hn; [injection Eq as <- <-; congruence|eauto].
Qed.

Definition gvd (def : option text) (vd : version_dict pyval) : version_dict pyval :=
  match get any_version vd with
  | Some aid => (any_version, gid def aid) ::
                map (fun p => (fst p, gid def (snd p))) (filter (keep def (Some (cval def aid))) vd)
  | None => map (fun p => (fst p, gid def (snd p))) (filter (keep def None) vd)
  end.

Definition good_vd (vd : version_dict pyval) : Prop :=
  wf vd /\ forall v id, In (v, id) vd -> good_id id.

Definition compact_ok (def : option text) (vd : version_dict pyval) : Prop :=
  forall v id, In (v, id) vd -> compact_installer_dict id def = Ok (cval def id).

Lemma cval_Ok def id c : compact_installer_dict id def = Ok c -> cval def id = c.
Proof. unfold cval; intros ->; reflexivity. Qed.

Lemma expand_versions (os : text) (l : list (text * installer_dict pyval)) def :
  os <> any_os ->
  (forall v id, In (v, id) l -> good_id id /\ compact_installer_dict id def = Ok (cval def id)) ->
  expand_os_version_definition (KStr os)
    (VDict (map (fun p => (KStr (fst p), cval def (snd p))) l)) =
  Ok (inj_vd (map (fun p => (fst p, gid def (snd p))) l)).
Proof.
  intros Hos Hl; rewrite expand_version_unfold; unfold version_items; cbn [items_of up_convert].
  unfold items_of; cbn [up_convert]; unfold special_items.
  destruct (eqb_spec (KStr os) (KStr any_os)) as [E|_]; [congruence|].
  rewrite (map_items_list (fun _ x => expand_installer_definition x) fst
             (fun p => cval def (snd p)) (fun p => inj_id (gid def (snd p)))).
  - cbn [bind]; unfold inj_vd, inj_dict; rewrite map_map; reflexivity.
  - intros [v id] Hin; cbn [fst snd]; destruct (Hl _ _ Hin) as [Hg Hc].
    apply compact_id_expand; assumption.
Qed.

Lemma compact_vd_expand os vd def c :
  os <> any_os -> good_vd vd -> compact_version_dict vd def = Ok c ->
  compact_ok def vd /\
  expand_os_version_definition (KStr os) c = Ok (inj_vd (gvd def vd)).
Proof.
  intros Hos [Hw Hg] E; unfold compact_version_dict in E; unfold gvd, compact_ok.
  destruct (get any_version vd) as [aid|] eqn:Ea.
  - apply bind_Ok in E; destruct E as (a & Eca & E).
    pose proof (get_In _ _ _ Ea) as Hina; pose proof (Hg _ _ Hina) as Hga.
    pose proof (cval_Ok _ _ _ Eca) as Hca.
    destruct (Nat.eqb (List.length vd) 1 && negb (is_dict a)) eqn:Es.
    + injection E as <-; apply andb_true_iff in Es; destruct Es as [El Ed].
      apply Nat.eqb_eq in El; destruct vd as [|[v0 id0] [|]]; try discriminate.
      rewrite get_cons, get_nil in Ea; destruct (eqb_spec any_version v0) as [<-|]; [|discriminate].
      injection Ea as ->; split.
      * intros v id [Eq|[]]; injection Eq as <- <-; congruence.
      * cbn [filter]; unfold keep; cbn [fst]; rewrite eqb_refl; cbn [negb andb map].
        destruct (compact_id_scalar _ _ _ Hga Eca) as [(_ & l & -> & _)|[-> _]]; [|discriminate].
        rewrite expand_version_unfold.
        assert (Hv : version_items (KStr os) (VList l) = Some [(KStr any_version, VList l)]).
        { unfold version_items, items_of; simpl; unfold special_items.
          destruct (eqb_spec (KStr os) (KStr any_os)) as [Eq|_]; [congruence|reflexivity]. }
        rewrite Hv; unfold map_items; cbn [mapM fst snd].
        rewrite (compact_id_expand _ _ _ Hga Eca); reflexivity.
    + apply bind_Ok in E; destruct E as (d & Ef & E); injection E as <-.
      apply compact_fold in Ef; [|assumption|].
      * destruct Ef as [-> Hall].
        assert (Hok : forall v id, In (v, id) vd -> compact_installer_dict id def = Ok (cval def id)).
        { intros v id Hin; destruct (eqb_spec v any_version) as [->|Hn]; [|eauto].
          apply In_get in Hin; [|assumption]; congruence. }
        split; [exact Hok|]; subst a.
        pose proof (expand_versions os ((any_version, aid) :: filter (keep def (Some (cval def aid))) vd) def Hos) as H.
        cbn [map fst snd] in H; rewrite <- H; [f_equal|].
        -- unfold inj_dict; cbn [map fst snd app]; rewrite map_map; reflexivity.
        -- intros v id [Eq|Hin]; [injection Eq as <- <-; eauto|].
           apply filter_In in Hin; destruct Hin as [Hin _]; eauto.
      * intros v Hv Hn; rewrite get_cons, get_nil; destruct (eqb_spec v any_version); congruence.
  - apply bind_Ok in E; destruct E as (d & Ef & E); injection E as <-.
    apply compact_fold in Ef; [|assumption|intros; apply get_nil].
    destruct Ef as [-> Hall].
    assert (Hok : forall v id, In (v, id) vd -> compact_installer_dict id def = Ok (cval def id)).
    { intros v id Hin; destruct (eqb_spec v any_version) as [->|Hn]; [|eauto].
      apply get_None in Ea; elim Ea; eapply In_keys; eassumption. }
    split; [exact Hok|].
    rewrite <- (expand_versions os); [f_equal|assumption|].
    + unfold inj_dict; cbn [app]; rewrite map_map; reflexivity.
    + intros v id Hin; apply filter_In in Hin; destruct Hin as [Hin _]; eauto.
Qed.

Lemma get_filter_map {A B} (f : A -> B) (q : text * A -> bool) k (d : dict text A) :
  wf d -> get k (map (fun p => (fst p, f (snd p))) (filter q d)) =
  match get k d with Some x => if q (k, x) then Some (f x) else None | None => None end.
Proof.
  induction d as [|[k0 x0] d IH]; intros Hw; [reflexivity|].
  apply wf_cons in Hw; destruct Hw as [Hk Hw]; cbn [filter]; rewrite get_cons.
  destruct (eqb_spec k k0) as [->|Hn].
  - destruct (q (k0, x0)); cbn [map fst snd].
    + rewrite get_cons, eqb_refl; reflexivity.
    + rewrite (IH Hw), Hk; reflexivity.
  - destruct (q (k0, x0)); cbn [map fst snd]; [rewrite get_cons; destruct (eqb_spec k k0); [congruence|]|];
      apply IH; assumption.
Qed.

(** The version entries after compaction and expansion. *)
Lemma getd_gvd def vd v :
  wf vd ->
  getd v (gvd def vd) = gid def (getd v vd) \/
  (v <> any_version /\ getd v (gvd def vd) = [] /\
   exists id aid, get v vd = Some id /\ get any_version vd = Some aid /\
                  pyeq (cval def id) (cval def aid) = true).
Proof.
  intros Hw; unfold getd, gvd.
  assert (Hgnil : gid def [] = []).
  { unfold gid, rename; destruct def as [[|]|]; reflexivity. }
  destruct (get any_version vd) as [aid|] eqn:Ea.
  - rewrite get_cons; destruct (eqb_spec v any_version) as [->|Hn]; [left; rewrite Ea; reflexivity|].
    rewrite get_filter_map by assumption.
    destruct (get v vd) as [id|] eqn:Ev; [|left; congruence].
    unfold keep; cbn [fst snd]; destruct (eqb_spec v any_version); [congruence|]; cbn [negb andb].
    destruct (pyeq (cval def id) (cval def aid)) eqn:Ep; cbn [negb]; [|left; reflexivity].
    right; split; [assumption|]; split; [reflexivity|]; exists id, aid; auto.
  - left; rewrite get_filter_map by assumption.
    destruct (get v vd) as [id|] eqn:Ev; [|congruence].
    unfold keep; cbn [fst snd]; destruct (eqb_spec v any_version); [congruence|reflexivity].
Qed.

(** ** Os dicts and whole files *)
Definition god_item (defs : dict text (option text)) (p : text * version_dict pyval)
  : version_dict pyval :=
  if eqb (fst p) any_os then [(any_version, getd any_version (snd p))]
  else gvd (configured_default defs (fst p)) (snd p).

Definition god (defs : dict text (option text)) (od : os_dict pyval) : os_dict pyval :=
  map (fun p => (fst p, god_item defs p)) od.

Definition good_od (od : os_dict pyval) : Prop :=
  wf od /\ forall os vd, In (os, vd) od -> good_vd vd /\
    (os = any_os -> forall v id, In (v, id) vd ->
       ~ In default_installer (keys id) /\ ~ In any_version (keys id)).

Lemma compact_id_no_default id c :
  good_id id -> ~ In default_installer (keys id) -> compact_installer_dict id None = Ok c ->
  c = inj_id (map_vals compact_installer_rule id).
Proof.
  intros Hg Hn E; destruct (compact_id_scalar _ _ _ Hg E) as [(_ & l & -> & HR)|[-> _]]; [|reflexivity].
  simpl in HR; rewrite HR in Hn; elim Hn; left; reflexivity.
Qed.

Lemma compact_os_expand defs od c :
  good_od od -> compact_os_dict od defs = Ok c ->
  expand_os_definition c = Ok (inj_od (god defs od)) /\
  (forall os vd, In (os, vd) od -> os <> any_os -> compact_ok (configured_default defs os) vd).
Proof.
  intros [Hw Hg] E; unfold compact_os_dict in E; apply bind_Ok in E; destruct E as (d & Em & E).
  injection E as <-; apply mapM_Ok in Em.
  assert (Hitem : forall p q, In p od -> compact_os_item defs p = Ok q ->
            fst q = fst p /\
            expand_os_version_definition (KStr (fst p)) (snd q) = Ok (inj_vd (god_item defs p)) /\
            (fst p <> any_os -> compact_ok (configured_default defs (fst p)) (snd p))).
  { intros [os vd] [os' c] Hin E; unfold compact_os_item, god_item in *; cbn [fst snd] in *.
    destruct (Hg _ _ Hin) as [Hgv Hao].
    destruct (eqb_spec os any_os) as [->|Hn].
    - apply bind_Ok in E; destruct E as (id & Eid & E); apply bind_Ok in E; destruct E as (c' & Ec & E).
      injection E as <- <-; split; [reflexivity|]; split; [|congruence].
      unfold getitem in Eid; destruct (get any_version vd) as [id'|] eqn:Ea; [injection Eid as ->|discriminate].
      pose proof (get_In _ _ _ Ea) as Hina; destruct (Hao eq_refl _ _ Hina) as [Hnd Hnv].
      pose proof (proj2 Hgv _ _ Hina) as Hgi.
      pose proof (compact_id_expand _ _ _ Hgi Ec) as Hx; rewrite gid_unusable in Hx by reflexivity.
      rewrite (compact_id_no_default _ _ Hgi Hnd Ec) in *.
      rewrite expand_version_unfold.
      assert (Hv : version_items (KStr any_os) (inj_id (map_vals compact_installer_rule id)) =
                   Some [(KStr any_version, inj_id (map_vals compact_installer_rule id))]).
      { unfold version_items, inj_id, inj_dict; cbn [items_of up_convert]; unfold items_of; cbn [up_convert].
        unfold special_items; rewrite eqb_refl.
        unfold has; rewrite (get_inj (fun x : pyval => x)), get_map_vals.
        apply get_None in Hnv; rewrite Hnv; reflexivity. }
      rewrite Hv; unfold map_items; cbn [mapM fst snd]; rewrite Hx; unfold getd; rewrite Ea; reflexivity.
    - change (match get os defs with Some d => d | None => None end) with (configured_default defs os) in E.
      apply bind_Ok in E; destruct E as (c' & Ec & E); injection E as <- <-.
      destruct (compact_vd_expand os vd _ _ Hn Hgv Ec) as [Hok Hx].
      split; [reflexivity|]; split; [exact Hx|intros _; exact Hok]. }
  split.
  - unfold inj_dict; cbn [expand_os_definition].
    assert (Hmi : map_items expand_os_version_definition (map (fun p : text * pyval => (KStr (fst p), snd p)) d)
                  = Ok (map (fun p : text * version_dict pyval => (KStr (fst p), inj_vd (god_item defs p))) od)).
    { apply map_items_Ok; clear Hw Hg; induction Em as [|p q od d Hp HF IH]; cbn [map]; constructor.
      - destruct (Hitem p q (or_introl eq_refl) Hp) as (Hk & Hx & _); cbn [fst snd]; rewrite Hk; auto.
      - apply IH; intros p' q' Hin; apply Hitem; right; exact Hin. }
    rewrite Hmi; cbn [bind]; unfold inj_od, inj_dict, god; rewrite map_map; reflexivity.
  - intros os vd Hin Hn.
    assert (exists q, compact_os_item defs (os, vd) = Ok q) as [q Hq].
    { clear -Em Hin; induction Em as [|p q od d Hp HF IH]; [destruct Hin|].
      destruct Hin as [->|Hin]; eauto. }
    destruct (Hitem _ _ Hin Hq) as (_ & _ & Hok); apply Hok; exact Hn.
Qed.

Definition good_rules (r : rules_dict pyval) : Prop :=
  wf r /\ forall key od, In (key, od) r -> good_od od.

Definition grules (defs : dict text (option text)) (r : rules_dict pyval) : rules_dict pyval :=
  map (fun p => (fst p, god defs (snd p))) r.

Lemma compact_rules_expand defs r c :
  good_rules r -> compact_rules r defs = Ok c ->
  expand_rules c = Ok (inj_rules (grules defs r)) /\
  (forall key od os vd, In (key, od) r -> In (os, vd) od -> os <> any_os ->
     compact_ok (configured_default defs os) vd).
Proof.
  intros [Hw Hg] E; unfold compact_rules in E; apply bind_Ok in E; destruct E as (d & Em & E).
  injection E as <-; apply mapM_Ok in Em.
  assert (Hitem : forall p q, In p r -> (let* c := compact_os_dict (snd p) defs in Ok (fst p, c)) = Ok q ->
            fst q = fst p /\ compact_os_dict (snd p) defs = Ok (snd q)).
  { intros [key od] [k q] Hin E; cbn [fst snd] in *; apply bind_Ok in E.
    destruct E as (c & Ec & E); injection E as <- <-; auto. }
  split.
  - unfold inj_dict; rewrite expand_rules_unfold; cbn [file_items].
    assert (Hmi : map_items (fun _ x => wrap_err (expand_os_definition x)) (map (fun p : text * pyval => (KStr (fst p), snd p)) d)
                  = Ok (map (fun p : text * os_dict pyval => (KStr (fst p), inj_od (god defs (snd p)))) r)).
    { apply map_items_Ok; clear Hw; induction Em as [|p q r d Hp HF IH]; cbn [map]; constructor.
      - destruct (Hitem p q (or_introl eq_refl) Hp) as (Hk & Hx); cbn [fst snd]; rewrite Hk; split; [reflexivity|].
        destruct p as [k0 od0]; cbn [fst snd] in *.
        destruct (compact_os_expand defs od0 _ (Hg k0 od0 (or_introl eq_refl)) Hx) as [-> _]; reflexivity.
      - apply IH; [intros k o Hin; apply (Hg k o); right; exact Hin|].
        intros p' q' Hin; apply Hitem; right; exact Hin. }
    rewrite Hmi; cbn [bind]; unfold inj_rules, inj_dict, grules; rewrite map_map; reflexivity.
  - intros key od os vd Hin Hos Hn.
    assert (exists q, (let* c := compact_os_dict od defs in Ok (key, c)) = Ok q) as [q Hq].
    { clear -Em Hin; induction Em as [|p q r d Hp HF IH]; [destruct Hin|].
      destruct Hin as [->|Hin]; eauto. }
    destruct (Hitem _ _ Hin Hq) as (_ & Hok); cbn [fst snd] in Hok.
    destruct (compact_os_expand defs od _ (Hg key od Hin) Hok) as [_ Hall]; eauto.
Qed.

Lemma getd_eq {V} k (d : dict text (list V)) : getd k d = match get k d with Some v => v | None => [] end.
Proof. reflexivity. Qed.

Lemma getd_map {V W} (f : text * list V -> list W) k (d : dict text (list V)) :
  (forall k, f (k, []) = [] \/ True) ->
  getd k (map (fun p => (fst p, f p)) d) =
  match get k d with Some x => f (k, x) | None => [] end.
Proof.
  intros _; unfold getd; induction d as [|[k0 x0] d IH]; [reflexivity|]; cbn [map fst snd].
  rewrite !get_cons; destruct (eqb_spec k k0) as [->|]; [reflexivity|exact IH].
Qed.

Lemma look_grules_any_os defs r key :
  look (grules defs r) key any_os any_version = look r key any_os any_version.
Proof.
  unfold look, grules.
  rewrite (getd_map (fun p => god defs (snd p))) by auto; cbn [snd]; rewrite (getd_eq key r).
  destruct (get key r) as [od|]; [|reflexivity]; unfold god.
  rewrite (getd_map (god_item defs)) by auto; rewrite (getd_eq any_os od).
  destruct (get any_os od) as [vd|]; [|reflexivity].
  unfold god_item; cbn [fst snd]; rewrite eqb_refl; unfold getd; rewrite get_cons, eqb_refl; reflexivity.
Qed.

Lemma look_grules defs r key os v :
  os <> any_os -> wf_rules r ->
  look (grules defs r) key os v = gid (configured_default defs os) (look r key os v) \/
  (v <> any_version /\ look (grules defs r) key os v = [] /\
   exists od vd id aid, In (key, od) r /\ In (os, vd) od /\ In (v, id) vd /\ In (any_version, aid) vd /\
     look r key os v = id /\ look r key os any_version = aid /\
     pyeq (cval (configured_default defs os) id) (cval (configured_default defs os) aid) = true).
Proof.
  intros Hn [_ Hw]; unfold look, grules.
  assert (Hgnil : forall def, gid def [] = []).
  { intros def; unfold gid, rename; destruct def as [[|]|]; reflexivity. }
  rewrite (getd_map (fun p => god defs (snd p))) by auto; cbn [snd]; rewrite !(getd_eq key r).
  destruct (get key r) as [od|] eqn:Ek; [|left; symmetry; apply Hgnil]; unfold god.
  rewrite (getd_map (god_item defs)) by auto; rewrite !(getd_eq os od).
  destruct (get os od) as [vd|] eqn:Eo; [|left; symmetry; apply Hgnil].
  unfold god_item; cbn [fst snd]; destruct (eqb_spec os any_os) as [|_]; [congruence|].
  apply get_In in Ek; apply get_In in Eo.
  destruct (Hw _ _ Ek) as [_ Hw']; destruct (Hw' _ _ Eo) as [Hwv _].
  destruct (getd_gvd (configured_default defs os) vd v Hwv) as [H|(Hv & H & id & aid & Ev & Ea & Hp)]; [left; exact H|].
  right; split; [assumption|]; split; [assumption|].
  exists od, vd, id, aid; repeat (split; [first [assumption|apply get_In; assumption]|]).
  split; [unfold getd; rewrite Ev; reflexivity|]; split; [unfold getd; rewrite Ea; reflexivity|assumption].
Qed.

(** ** Lookups *)
Lemma look_not_both defs r key os v :
  os <> any_os -> good_rules r -> wf_rules r ->
  (forall key od os vd, In (key, od) r -> In (os, vd) od -> os <> any_os ->
     compact_ok (configured_default defs os) vd) ->
  not_both (configured_default defs os) (look r key os v) /\ good_id (look r key os v).
Proof.
  intros Hn [_ Hg] Hw Hc; destruct (look r key os v) as [|x l] eqn:E.
  - split; [intros n _ _ []|split; [apply wf_nil|intros ? ? []]].
  - assert (Hx : In x (look r key os v)) by (rewrite E; left; reflexivity).
    apply look_entry in Hx; rewrite E in Hx; destruct Hx as (od & vd & H1 & H2 & H3).
    split; [eapply compact_not_both; eapply Hc; eassumption|].
    destruct (Hg _ _ H1) as [_ Hg1]; destruct (Hg1 _ _ H2) as [[_ Hg2] _]; eauto.
Qed.

Lemma compact_lookup defs r c :
  good_rules r -> wf_rules r -> compact_rules r defs = Ok c ->
  forall key os v, os <> any_os ->
    let def := configured_default defs os in
    match lookup_rules r key os v def, lookup_rules (grules defs r) key os v def with
    | Ok d, Ok d' => forall i, opt_rel same_rule (get i d) (get i d')
    | Err e, Err e' => e = e'
    | _, _ => False
    end.
Proof.
  intros Hg Hw Hc key os v Hos def.
  destruct (compact_rules_expand _ _ _ Hg Hc) as [_ Hok].
  assert (HA : look (grules defs r) key os any_version = gid def (look r key os any_version)).
  { destruct (look_grules defs r key os any_version Hos Hw) as [H|[H _]]; [exact H|congruence]. }
  destruct (look_not_both defs r key os any_version Hos Hg Hw Hok) as [HnA HgA].
  destruct (look_not_both defs r key os v Hos Hg Hw Hok) as [HnV HgV].
  fold def in HnA, HnV.
  pose proof (look_grules_any_os defs r key) as HO.
  assert (Hoffer : forall i,
    opt_rel same_rule
      (orelse (offer def (look r key os v) i)
        (orelse (offer def (look r key os any_version) i) (offer def (look r key any_os any_version) i)))
      (orelse (offer def (look (grules defs r) key os v) i)
        (orelse (offer def (look (grules defs r) key os any_version) i)
                (offer def (look (grules defs r) key any_os any_version) i)))).
  { intros i; rewrite HO, HA, (offer_gid _ _ _ (proj1 HgA) HnA).
    destruct (look_grules defs r key os v Hos Hw) as [H|(Hv & H & od & vd & id & aid & H1 & H2 & H3 & H4 & H5 & H6 & Hp)].
    - fold def in H; rewrite H, (offer_gid _ _ _ (proj1 HgV) HnV).
      destruct (orelse _ _); simpl; [left; reflexivity|exact I].
    - fold def in Hp; rewrite H, H5, H6 in *; simpl (offer def [] i); cbn [orelse].
      destruct (dropped_offer id aid def _ _ i HgV HgA (Hok _ _ _ _ H1 H2 Hos _ _ H3) (Hok _ _ _ _ H1 H2 Hos _ _ H4) Hp) as [Ho _].
      destruct (offer def id i) as [a|], (offer def aid i) as [b|]; simpl in Ho |- *; try tauto.
      + right; exact Ho.
      + destruct (offer def (look r key any_os any_version) i); simpl; [left; reflexivity|exact I]. }
  assert (Herr : forall e, lookup_rules r key os v def = Err e <-> lookup_rules (grules defs r) key os v def = Err e).
  { intros e; rewrite !lookup_err_look, HO, HA; rewrite default_ok_usable.
    destruct (usable def) eqn:Hu; [split; intros (_ & H & _); congruence|].
    rewrite gid_unusable by assumption.
    destruct (look_grules defs r key os v Hos Hw) as [H|(Hv & H & od & vd & id & aid & H1 & H2 & H3 & H4 & H5 & H6 & Hp)].
    - fold def in H; rewrite H, gid_unusable by assumption; tauto.
    - fold def in Hp; rewrite H, H5, H6 in *.
      destruct (dropped_offer id aid def _ _ [] HgV HgA (Hok _ _ _ _ H1 H2 Hos _ _ H3) (Hok _ _ _ _ H1 H2 Hos _ _ H4) Hp) as [_ Hd].
      rewrite (Hd Hu); simpl; tauto. }
  destruct (lookup_rules r key os v def) as [d|e] eqn:E1;
    destruct (lookup_rules (grules defs r) key os v def) as [d'|e'] eqn:E2.
  - intros i; rewrite (lookup_get _ _ _ _ _ _ i E1), (lookup_get _ _ _ _ _ _ i E2); apply Hoffer.
  - specialize (Herr e'); destruct Herr as [_ Herr]; specialize (Herr eq_refl); discriminate.
  - specialize (Herr e); destruct Herr as [Herr _]; specialize (Herr eq_refl); discriminate.
  - specialize (Herr e); destruct Herr as [Herr _]; specialize (Herr eq_refl); congruence.
Qed.

(** ** Verified, expanded files *)
Lemma map_items_self f d : map_items f d = Ok d -> forall k x, In (k, x) d -> f k x = Ok x.
Proof.
  intros E k x Hin; apply map_items_Ok in E.
  assert (G : forall d1 d2, Forall2 (fun p q : pkey * pyval => fst p = fst q /\ f (fst p) (snd p) = Ok (snd q)) d1 d2 ->
              d1 = d2 -> In (k, x) d1 -> f k x = Ok x).
  { clear; induction 1 as [|p q d1 d2 [Hk Hf] HF IH]; intros Eq Hin; [destruct Hin|].
    injection Eq as <- <-; destruct Hin as [->|Hin]; [exact Hf|auto]. }
  eapply G; eauto.
Qed.

Lemma expanded_rules_fixed uni_word r :
  wfval (inj_rules r) ->
  expand_rules (inj_rules r) = Ok (inj_rules r) ->
  verify_rules_dict uni_word (inj_rules r) true = Ok tt ->
  wf_rules r -> good_rules r.
Proof.
  intros Hwv Hx Hv [Hw Hwr]; split; [exact Hw|]; intros key od Hin.
  destruct (Hwr _ _ Hin) as [Hwo Hwr']; split; [exact Hwo|]; intros os vd Hin'.
  destruct (Hwr' _ _ Hin') as [Hwvd Hwr''].
  apply verify_rules_dict_Ok in Hv; destruct Hv as (d & Ed & Hv).
  unfold inj_rules, inj_dict in Ed; injection Ed as <-.
  assert (Hk : In (KStr key, inj_od od) (map (fun p : text * os_dict pyval => (KStr (fst p), inj_od (snd p))) r)).
  { apply in_map_iff; exists (key, od); auto. }
  destruct (Hv _ _ Hk) as [_ (d & Ed & Hod)]; unfold inj_od, inj_dict in Ed; injection Ed as <-.
  assert (Ho : In (KStr os, inj_vd vd) (map (fun p : text * version_dict pyval => (KStr (fst p), inj_vd (snd p))) od)).
  { apply in_map_iff; exists (os, vd); auto. }
  destruct (Hod _ _ Ho) as [_ (b & (d & Ed & Hvd) & Hb)]; unfold inj_vd, inj_dict in Ed; injection Ed as <-.
  rewrite expand_rules_unfold in Hx; unfold inj_rules, inj_dict in Hx; cbn [file_items] in Hx.
  apply bind_Ok in Hx; destruct Hx as (d' & Em & E); injection E as ->.
  pose proof (map_items_self _ _ Em _ _ Hk) as Hx1; cbn beta in Hx1; apply (proj1 (wrap_err_Ok _ _)) in Hx1.
  unfold inj_od, inj_dict in Hx1; cbn [expand_os_definition] in Hx1.
  apply bind_Ok in Hx1; destruct Hx1 as (d' & Em1 & E); injection E as ->.
  pose proof (map_items_self _ _ Em1 _ _ Ho) as Hx2.
  rewrite expand_version_unfold in Hx2; unfold inj_vd, inj_dict in Hx2.
  destruct (version_items _ _) as [dv|] eqn:Evi; [|discriminate].
  apply bind_Ok in Hx2; destruct Hx2 as (d' & Em2 & E); injection E as ->.
  assert (Hdv : dv = map (fun p : text * installer_dict pyval => (KStr (fst p), inj_id (snd p))) vd).
  { unfold version_items, items_of in Evi; cbn [up_convert] in Evi; unfold special_items in Evi.
    destruct (eqb (KStr os) (KStr any_os)); [|congruence].
    destruct (has (KStr any_version) _) eqn:Eh.
    - destruct (Nat.eqb _ _); congruence.
    - injection Evi as <-; exfalso; apply has_false, get_None in Eh; apply Eh.
      destruct (map_items_In _ _ _ Em2) as [_ HK]; rewrite HK; left; reflexivity. }
  subst dv; split.
  - split; [exact Hwvd|]; intros v id Hin''; split; [eauto|]; intros i rule Hini.
    assert (Hver : In (KStr v, inj_id id) (map (fun p : text * installer_dict pyval => (KStr (fst p), inj_id (snd p))) vd)).
    { apply in_map_iff; exists (v, id); auto. }
    destruct (Hvd _ _ Hver) as [_ (d & Ed & Hid)]; unfold inj_id, inj_dict in Ed; injection Ed as <-.
    assert (Hi : In (KStr i, rule) (map (fun p : text * pyval => (KStr (fst p), snd p)) id)).
    { apply in_map_iff; exists (i, rule); auto. }
    destruct (Hid _ _ Hi) as (_ & _ & (dr & -> & Hr)).
    pose proof (map_items_self _ _ Em2 _ _ Hver) as Hx3; cbn beta in Hx3.
    rewrite expand_installer_unfold in Hx3; unfold inj_id, inj_dict in Hx3.
    unfold items_of in Hx3; cbn [up_convert] in Hx3.
    apply bind_Ok in Hx3; destruct Hx3 as (d' & Em3 & E); injection E as ->.
    pose proof (map_items_self _ _ Em3 _ _ Hi) as Hx4; cbn beta in Hx4.
    split.
    + clear - Hwv Hk Ho Hver Hi.
      eapply wfval_In; [|exact Hi]; eapply (wfval_In _ _ _); [|exact Hver].
      eapply (wfval_In _ _ _); [|exact Ho]; eapply (wfval_In _ _ _); [exact Hwv|exact Hk].
    + exists dr; split; [reflexivity|]; split; [exact Hx4|].
      intros x Ex; apply get_In in Ex; destruct (Hr _ _ Ex) as (_ & Hp & _); apply Hp; reflexivity.
  - intros -> v id Hin''.
    assert (Hver : In (KStr v, inj_id id) (map (fun p : text * installer_dict pyval => (KStr (fst p), inj_id (snd p))) vd)).
    { apply in_map_iff; exists (v, id); auto. }
    destruct (Hvd _ _ Hver) as [_ (d & Ed & Hid)]; unfold inj_id, inj_dict in Ed; injection Ed as <-.
    assert (Hb' : b = false).
    { destruct b; [|reflexivity]; destruct Hb as [Hb _]; destruct (Hb eq_refl) as [_ Hc]; elim Hc; reflexivity. }
    split; intros Hin3; apply in_map_iff in Hin3; destruct Hin3 as ([i rule] & Ei & Hini); simpl in Ei; subst i.
    + assert (Hi : In (KStr default_installer, rule) (map (fun p : text * pyval => (KStr (fst p), snd p)) id)).
      { apply in_map_iff; exists (default_installer, rule); auto. }
      destruct (Hid _ _ Hi) as (_ & Hd & _); specialize (Hd eq_refl); congruence.
    + assert (Hi : In (KStr any_version, rule) (map (fun p : text * pyval => (KStr (fst p), snd p)) id)).
      { apply in_map_iff; exists (any_version, rule); auto. }
      destruct (Hid _ _ Hi) as ((s & Es & _ & Hres) & _); injection Es as <-.
      assert (Hc : In any_version [u "default_installer"]) by (apply Hres; right; left; reflexivity).
      destruct Hc as [Hc|[]]; discriminate.
Qed.

Lemma opt_rel_outcome (d d' : installer_dict pyval) :
  (forall i, opt_rel same_rule (get i d) (get i d')) ->
  same_outcome (Ok (inj_id d)) (Ok (inj_id d')).
Proof.
  intros H; unfold same_outcome, inj_id, inj_dict.
  assert (Hnon : forall (e : installer_dict pyval) k a,
             get k (map (fun p : text * pyval => (KStr (fst p), snd p)) e) = Some a -> exists i, k = KStr i).
  { intros e k a E; apply get_In in E; apply in_map_iff in E; destruct E as ([i x] & Eq & _).
    injection Eq as <- _; eauto. }
  split; intros k a E; destruct (Hnon _ _ _ E) as [i ->].
  - rewrite (get_inj (fun x : pyval => x)) in E |- *; specialize (H i).
    destruct (get i d) as [x|]; [injection E as ->|discriminate].
    destruct (get i d') as [y|]; simpl in H |- *; [eauto|tauto].
  - rewrite (get_inj (fun x : pyval => x)) in E |- *; specialize (H i).
    destruct (get i d') as [x|]; [injection E as ->|discriminate].
    destruct (get i d) as [y|]; simpl in H |- *; [eauto|tauto].
Qed.

Lemma wfval_expand_rules v v' : wfval v -> expand_rules v = Ok v' -> wfval v'.
Proof. intros Hw E; destruct (expand_rules_Ok _ _ Hw E) as (d' & -> & H & _); exact H. Qed.

Lemma compact_preserves uni_word v v1 r defs c :
  wfval v -> expand_rules v = Ok v1 ->
  verify_rules_dict uni_word v1 true = Ok tt -> v1 = inj_rules r ->
  compact_rules r defs = Ok c ->
  exists v2, expand_rules c = Ok v2 /\
    forall key os version, os <> any_os ->
      same_outcome (raw_lookup v1 key os version (configured_default defs os))
                   (raw_lookup v2 key os version (configured_default defs os)).
Proof.
  intros Hw Hx Hv -> Hc.
  pose proof (wfval_expand_rules _ _ Hw Hx) as Hw1.
  pose proof (expand_rules_idem _ _ Hw Hx) as Hx1.
  assert (Hwr : wf_rules r).
  { clear - Hw1; apply wfval_inj_dict in Hw1; destruct Hw1 as [H1 H2]; split; [exact H1|].
    intros k od Hin; specialize (H2 _ _ Hin); apply wfval_inj_dict in H2; destruct H2 as [H3 H4].
    split; [exact H3|]; intros os vd Hin'; specialize (H4 _ _ Hin'); apply wfval_inj_dict in H4.
    destruct H4 as [H5 H6]; split; [exact H5|]; intros ver id Hin''.
    specialize (H6 _ _ Hin''); apply wfval_inj_dict in H6; apply H6. }
  pose proof (expanded_rules_fixed uni_word r Hw1 Hx1 Hv Hwr) as Hg.
  destruct (compact_rules_expand _ _ _ Hg Hc) as [He _].
  exists (inj_rules (grules defs r)); split; [exact He|].
  intros key os version Hos; rewrite !raw_lookup_inj.
  pose proof (compact_lookup _ _ _ Hg Hwr Hc key os version Hos) as H; cbn zeta in H.
  destruct (lookup_rules r key os version (configured_default defs os)) as [d|e];
    destruct (lookup_rules (grules defs r) key os version (configured_default defs os)) as [d'|e'];
    cbn [res_map]; [apply opt_rel_outcome; exact H|..]; simpl; tauto.
Qed.

(** When compaction fails. *)
Definition conflict (defs : dict text (option text)) (r : rules_dict pyval) : Prop :=
  exists key os version id n,
    entry r key os version id /\ os <> any_os /\ get os defs = Some (Some n) /\ n <> [] /\
    In default_installer (map fst id) /\ In n (map fst id).

Lemma fold_step_Err def anyc vd acc e :
  foldM (compact_version_step def anyc) vd acc = Err e ->
  exists v id, In (v, id) vd /\ compact_installer_dict id def = Err e.
Proof.
  revert acc; induction vd as [|[v id] vd IH]; intros acc; cbn [foldM]; [discriminate|].
  rewrite bind_Err; intros [H|(acc' & _ & H)].
  - unfold compact_version_step in H; cbn [fst snd] in H.
    destruct (eqb v any_version); [discriminate|]; apply bind_Err in H.
    destruct H as [H|(c & _ & H)]; [exists v, id; split; [left; reflexivity|exact H]|].
    destruct anyc as [a|]; [destruct (pyeq c a)|]; discriminate.
  - destruct (IH _ H) as (v' & id' & Hin & He); exists v', id'; split; [right; exact Hin|exact He].
Qed.

Lemma compact_vd_Err vd def e :
  compact_version_dict vd def = Err e ->
  exists v id, In (v, id) vd /\ compact_installer_dict id def = Err e.
Proof.
  unfold compact_version_dict; destruct (get any_version vd) as [aid|] eqn:Ea.
  - rewrite bind_Err; intros [H|(a & _ & H)].
    + apply get_In in Ea; eauto.
    + destruct (Nat.eqb _ _ && _); [discriminate|]; apply bind_Err in H.
      destruct H as [H|(? & _ & H)]; [|discriminate]; eapply fold_step_Err; eassumption.
  - rewrite bind_Err; intros [H|(? & _ & H)]; [|discriminate]; eapply fold_step_Err; eassumption.
Qed.

Lemma compact_rules_fails defs r :
  good_rules r ->
  (forall key od vd, In (key, od) r -> In (any_os, vd) od -> In any_version (map fst vd)) ->
  (forall e, compact_rules r defs = Err e -> e = ValueError /\ conflict defs r) /\
  (conflict defs r -> compact_rules r defs = Err ValueError).
Proof.
  intros Hg Hao.
  assert (H1 : forall e, compact_rules r defs = Err e -> e = ValueError /\ conflict defs r).
  { intros e E; unfold compact_rules in E; apply bind_Err in E.
    destruct E as [E|(? & _ & E)]; [|discriminate]; apply mapM_Err in E.
    destruct E as ([key od] & Hk & E); cbn [fst snd] in E; apply bind_Err in E.
    destruct E as [E|(? & _ & E)]; [|discriminate]; unfold compact_os_dict in E; apply bind_Err in E.
    destruct E as [E|(? & _ & E)]; [|discriminate]; apply mapM_Err in E.
    destruct E as ([os vd] & Ho & E); unfold compact_os_item in E; cbn [fst snd] in E.
    destruct (eqb_spec os any_os) as [->|Hn].
    - apply bind_Err in E; destruct E as [E|(id & _ & E)].
      + unfold getitem in E; destruct (get any_version vd) eqn:Ea; [discriminate|].
        apply get_None in Ea; elim Ea; eapply Hao; eassumption.
      + apply bind_Err in E; destruct E as [E|(? & _ & E)]; [|discriminate].
        apply compact_id_Err in E; destruct E as [_ E]; elim E; intros n Hn; discriminate.
    - apply bind_Err in E; destruct E as [E|(? & _ & E)]; [|discriminate].
      apply compact_vd_Err in E; destruct E as (v & id & Hv & E); apply compact_id_Err in E.
      destruct E as [-> E]; split; [reflexivity|].
      unfold not_both in E.
      destruct (get os defs) as [[n|]|] eqn:Ed; try (elim E; intros; discriminate).
      exists key, os, v, id, n; split; [exists od, vd; auto|]; split; [exact Hn|]; split; [exact Ed|].
      destruct n as [|c n]; [elim E; intros m Em Hm; congruence|].
      split; [discriminate|].
      destruct (get default_installer id) as [rd|] eqn:E1.
      + split; [apply get_Some_keys; eauto|].
        destruct (get (c :: n) id) as [rn|] eqn:E2; [apply get_Some_keys; eauto|].
        elim E; intros m Em _ _; injection Em as <-; apply get_None; exact E2.
      + elim E; intros m _ _ Hd; apply get_None in E1; elim E1; exact Hd. }
  split; [exact H1|].
  intros (key & os & v & id & n & (od & vd & Hk & Ho & Hv) & Hos & Hd & Hne & Hd1 & Hd2).
  destruct (compact_rules r defs) as [c|e] eqn:E; [exfalso|destruct (H1 e eq_refl) as [-> _]; reflexivity].
  destruct (compact_rules_expand _ _ _ Hg E) as [_ Hok].
  pose proof (Hok _ _ _ _ Hk Ho Hos _ _ Hv) as Hc.
  unfold configured_default in Hc; rewrite Hd in Hc; apply compact_not_both in Hc.
  apply (Hc n eq_refl Hne Hd1 Hd2).
Qed.

Lemma expanded_any_os r :
  expand_rules (inj_rules r) = Ok (inj_rules r) ->
  forall key od vd, In (key, od) r -> In (any_os, vd) od -> In any_version (map fst vd).
Proof.
  intros Hx key od vd Hin Hin'.
  assert (Hk : In (KStr key, inj_od od) (map (fun p : text * os_dict pyval => (KStr (fst p), inj_od (snd p))) r)).
  { apply in_map_iff; exists (key, od); auto. }
  assert (Ho : In (KStr any_os, inj_vd vd) (map (fun p : text * version_dict pyval => (KStr (fst p), inj_vd (snd p))) od)).
  { apply in_map_iff; exists (any_os, vd); auto. }
  rewrite expand_rules_unfold in Hx; unfold inj_rules, inj_dict in Hx; cbn [file_items] in Hx.
  apply bind_Ok in Hx; destruct Hx as (d' & Em & E); injection E as ->.
  pose proof (map_items_self _ _ Em _ _ Hk) as Hx1; cbn beta in Hx1; apply (proj1 (wrap_err_Ok _ _)) in Hx1.
  unfold inj_od, inj_dict in Hx1; cbn [expand_os_definition] in Hx1.
  apply bind_Ok in Hx1; destruct Hx1 as (d' & Em1 & E); injection E as ->.
  pose proof (map_items_self _ _ Em1 _ _ Ho) as Hx2.
  rewrite expand_version_unfold in Hx2; unfold inj_vd, inj_dict in Hx2.
  destruct (version_items _ _) as [dv|] eqn:Evi; [|discriminate].
  apply bind_Ok in Hx2; destruct Hx2 as (d' & Em2 & E); injection E as ->.
  destruct (map_items_In _ _ _ Em2) as [_ HK].
  assert (Hh : In (KStr any_version) (keys (map (fun p : text * installer_dict pyval => (KStr (fst p), inj_id (snd p))) vd))).
  { unfold version_items, items_of in Evi; cbn [up_convert] in Evi; unfold special_items in Evi.
    rewrite eqb_refl in Evi.
    destruct (has (KStr any_version) _) eqn:Eh.
    - apply has_keys; exact Eh.
    - injection Evi as <-; rewrite HK; left; reflexivity. }
  unfold keys in Hh; rewrite map_map in Hh; apply in_map_iff in Hh.
  destruct Hh as ([v id] & Ev & Hv); simpl in Ev; injection Ev as ->.
  apply in_map_iff; exists (any_version, id); auto.
Qed.

Lemma wf_rules_inj r : wfval (inj_rules r) -> wf_rules r.
Proof.
  intros Hw1; apply wfval_inj_dict in Hw1; destruct Hw1 as [H1 H2]; split; [exact H1|].
  intros k od Hin; specialize (H2 _ _ Hin); apply wfval_inj_dict in H2; destruct H2 as [H3 H4].
  split; [exact H3|]; intros os vd Hin'; specialize (H4 _ _ Hin'); apply wfval_inj_dict in H4.
  destruct H4 as [H5 H6]; split; [exact H5|]; intros ver id Hin''.
  specialize (H6 _ _ Hin''); apply wfval_inj_dict in H6; apply H6.
Qed.

Lemma compact_rules_fails_expanded uni_word v r defs :
  wfval v -> expand_rules v = Ok (inj_rules r) ->
  verify_rules_dict uni_word (inj_rules r) true = Ok tt ->
  (forall e, compact_rules r defs = Err e -> e = ValueError /\ conflict defs r) /\
  (conflict defs r -> compact_rules r defs = Err ValueError).
Proof.
  intros Hw Hx Hv.
  pose proof (wfval_expand_rules _ _ Hw Hx) as Hw1.
  pose proof (expand_rules_idem _ _ Hw Hx) as Hx1.
  apply compact_rules_fails.
  - eapply expanded_rules_fixed; eauto using wf_rules_inj.
  - apply expanded_any_os; exact Hx1.
Qed.
