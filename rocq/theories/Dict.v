(** Python dictionaries as association lists in iteration order. *)
From Verif Require Import Base.

Notation dict K V := (list (K * V)).

Section Dict.
  Context {K V : Type} `{EqB K}.

  (** [d.get(k)]; also [d[k]] for present keys. *)
  Fixpoint get (k : K) (d : dict K V) : option V :=
    match d with
    | [] => None
    | (k', v) :: d' => if eqb k k' then Some v else get k d'
    end.

  (** [k in d] *)
  Definition has (k : K) (d : dict K V) : bool :=
    match get k d with Some _ => true | None => false end.

  (** [d[k] = v]: an existing key keeps its position. *)
  Fixpoint set (k : K) (v : V) (d : dict K V) : dict K V :=
    match d with
    | [] => [(k, v)]
    | (k', v') :: d' => if eqb k k' then (k', v) :: d' else (k', v') :: set k v d'
    end.

  (** [del d[k]] *)
  Definition del (k : K) (d : dict K V) : dict K V :=
    filter (fun p => negb (eqb k (fst p))) d.

  Definition keys (d : dict K V) : list K := map fst d.

  (** [d[k]], raising KeyError. *)
  Definition getitem (k : K) (d : dict K V) : res V :=
    match get k d with Some v => Ok v | None => Err KeyError end.

  (** Python dicts have unique keys. *)
  Definition wf (d : dict K V) : Prop := NoDup (keys d).

  Lemma wf_nil : wf [].
  Proof. constructor. Qed.

  Lemma wf_cons k v d : wf ((k, v) :: d) <-> get k d = None /\ wf d.
  Proof.
    unfold wf; simpl; rewrite NoDup_cons_iff.
    cut (~ In k (keys d) <-> get k d = None); [tauto|].
    induction d as [|[k' v'] d IH]; simpl; [tauto|].
    destruct (eqb_spec k k') as [->|Hn]; [split; [tauto|discriminate]|].
    rewrite <- IH; split; [tauto|intros Hk [E|E]; [congruence|tauto]].
  Qed.

  Lemma get_In k v d : get k d = Some v -> In (k, v) d.
  Proof.
    induction d as [|[k' v'] d IH]; simpl; [discriminate|].
    destruct (eqb_spec k k') as [->|Hn]; [intros E; left; congruence|auto].
  Qed.

  Lemma In_get k v d : wf d -> In (k, v) d -> get k d = Some v.
  Proof.
    induction d as [|[k' v'] d IH]; simpl; [tauto|].
    intros Hwf; apply wf_cons in Hwf; destruct Hwf as [Hk Hwf].
    intros [E|Hin].
    - injection E as -> ->; rewrite eqb_refl; reflexivity.
    - destruct (eqb_spec k k') as [->|Hn]; [|auto].
      rewrite (IH Hwf Hin) in Hk; discriminate.
  Qed.

  Lemma get_iff k v d : wf d -> (get k d = Some v <-> In (k, v) d).
  Proof. split; [apply get_In | apply In_get; assumption]. Qed.

  Lemma get_None k d : get k d = None <-> ~ In k (keys d).
  Proof.
    induction d as [|[k' v'] d IH]; simpl; [tauto|].
    destruct (eqb_spec k k') as [->|Hn].
    - split; [discriminate|tauto].
    - rewrite IH; split; [intros Hk [E|E]; [congruence|tauto]|tauto].
  Qed.

  Lemma get_Some_keys k d : (exists v, get k d = Some v) <-> In k (keys d).
  Proof.
    destruct (get k d) as [v|] eqn:E.
    - split; [|eauto]; intros _.
      apply get_In in E; apply in_map_iff; exists (k, v); auto.
    - split; [intros [v Hv]; discriminate|].
      apply get_None in E; tauto.
  Qed.

  Lemma has_keys k d : has k d = true <-> In k (keys d).
  Proof.
    rewrite <- get_Some_keys; unfold has; destruct (get k d) as [v|].
    - split; eauto.
    - split; [discriminate|intros [v Hv]; discriminate].
  Qed.

  Lemma has_false k d : has k d = false <-> get k d = None.
  Proof. unfold has; destruct (get k d); split; congruence. Qed.

  Lemma has_true k d : has k d = true <-> exists v, get k d = Some v.
  Proof.
    unfold has; destruct (get k d) as [v|]; split; eauto; try discriminate.
    intros [v Hv]; discriminate.
  Qed.

  Lemma get_set k k' v d : get k (set k' v d) = if eqb k k' then Some v else get k d.
  Proof.
    induction d as [|[k0 v0] d IH]; simpl.
    - destruct (eqb_spec k k'); reflexivity.
    - destruct (eqb_spec k' k0) as [->|Hn]; simpl.
      + destruct (eqb_spec k k0); reflexivity.
      + rewrite IH; destruct (eqb_spec k k0) as [->|Hk]; [|reflexivity].
        destruct (eqb_spec k0 k'); congruence.
  Qed.

  Lemma get_set_same k v d : get k (set k v d) = Some v.
  Proof. rewrite get_set, eqb_refl; reflexivity. Qed.

  Lemma get_set_other k k' v d : k <> k' -> get k (set k' v d) = get k d.
  Proof. intros Hn; rewrite get_set; destruct (eqb_spec k k'); congruence. Qed.

  Lemma keys_set k v d : keys (set k v d) = if has k d then keys d else keys d ++ [k].
  Proof.
    unfold has; induction d as [|[k0 v0] d IH]; simpl; [reflexivity|].
    destruct (eqb_spec k k0) as [->|Hn]; simpl; [reflexivity|].
    rewrite IH; destruct (get k d); reflexivity.
  Qed.

  Lemma in_keys_set k k' v d : In k (keys (set k' v d)) <-> k = k' \/ In k (keys d).
  Proof.
    rewrite <- !get_Some_keys; rewrite get_set.
    destruct (eqb_spec k k') as [->|Hn]; split.
    - auto.
    - intros _; eauto.
    - auto.
    - intros [E|E]; [congruence|assumption].
  Qed.

  Lemma wf_set k v d : wf d -> wf (set k v d).
  Proof.
    unfold wf; rewrite keys_set; destruct (has k d) eqn:E; [tauto|].
    intros Hwf; apply has_false, get_None in E.
    apply (Permutation_NoDup (l := k :: keys d)).
    - apply Permutation_cons_append.
    - constructor; assumption.
  Qed.

  Lemma get_del k k' d : get k (del k' d) = if eqb k k' then None else get k d.
  Proof.
    induction d as [|[k0 v0] d IH]; simpl; [destruct (eqb k k'); reflexivity|].
    destruct (eqb_spec k' k0) as [->|Hn]; simpl.
    - rewrite IH; destruct (eqb_spec k k0); reflexivity.
    - rewrite IH; destruct (eqb_spec k k0) as [->|Hk]; [|reflexivity].
      destruct (eqb_spec k0 k'); congruence.
  Qed.

  Lemma keys_del k d : keys (del k d) = filter (fun x => negb (eqb k x)) (keys d).
  Proof.
    induction d as [|[k0 v0] d IH]; simpl; [reflexivity|].
    destruct (eqb k k0); simpl; rewrite IH; reflexivity.
  Qed.

  Lemma wf_del k d : wf d -> wf (del k d).
  Proof. unfold wf; rewrite keys_del; apply NoDup_filter. Qed.

  Lemma In_del p k d : In p (del k d) <-> In p d /\ fst p <> k.
  Proof.
    unfold del; rewrite filter_In, negb_true_iff, eqb_neq.
    split; intros [A B]; split; auto.
  Qed.

  Lemma In_set k' v' k v d :
    In (k', v') (set k v d) -> (k' = k /\ v' = v) \/ In (k', v') d.
  Proof.
    induction d as [|[k0 v0] d IH]; simpl.
    - intros [E|[]]; left; split; congruence.
    - destruct (eqb_spec k k0) as [->|Hn]; simpl.
      + intros [E|E]; [left; split; congruence|auto].
      + intros [E|E]; [auto|]; destruct (IH E) as [?|?]; auto.
  Qed.

  (** Same dictionary up to iteration order. *)
  Lemma get_perm k d d' : wf d -> Permutation d d' -> get k d = get k d'.
  Proof.
    intros Hwf HP.
    assert (Hwf' : wf d').
    { unfold wf, keys in *; eapply Permutation_NoDup; [|exact Hwf]; apply Permutation_map; exact HP. }
    destruct (get k d) as [v|] eqn:E.
    - apply get_In in E; symmetry; apply In_get; [assumption|].
      eapply Permutation_in; eassumption.
    - destruct (get k d') as [v'|] eqn:E'; [|reflexivity].
      apply get_In in E'; apply Permutation_sym in HP.
      apply (Permutation_in _ HP) in E'; apply (In_get _ _ _ Hwf) in E'; congruence.
  Qed.

  Lemma wf_perm d d' : wf d -> Permutation d d' -> wf d'.
  Proof.
    intros Hwf HP; unfold wf, keys in *.
    eapply Permutation_NoDup; [|exact Hwf]; apply Permutation_map; exact HP.
  Qed.

  Lemma set_id k v d : get k d = Some v -> set k v d = d.
  Proof.
    induction d as [|[k0 v0] d IH]; simpl; [discriminate|].
    destruct (eqb_spec k k0) as [->|Hn]; [intros E; congruence|].
    intros E; rewrite IH; auto.
  Qed.

  Lemma set_app_fresh k v d1 d2 :
    get k d1 = None -> set k v (d1 ++ d2) = d1 ++ set k v d2.
  Proof.
    induction d1 as [|[k0 v0] d1 IH]; simpl; [reflexivity|].
    destruct (eqb_spec k k0); [discriminate|]; intros E; rewrite IH; auto.
  Qed.

  Lemma get_app k d1 d2 : get k (d1 ++ d2) = orelse (get k d1) (get k d2).
  Proof.
    induction d1 as [|[k0 v0] d1 IH]; simpl; [reflexivity|].
    destruct (eqb k k0); simpl; auto.
  Qed.

  Lemma In_keys k v (d : dict K V) : In (k, v) d -> In k (keys d).
  Proof. intros Hin; apply in_map_iff; exists (k, v); auto. Qed.

End Dict.

Section DictMap.
  Context {K V W : Type} `{EqB K}.

  Definition map_vals (f : V -> W) (d : dict K V) : dict K W :=
    map (fun p => (fst p, f (snd p))) d.

  Lemma get_map_vals k f d : get k (map_vals f d) = option_map f (get k d).
  Proof.
    induction d as [|[k0 v0] d IH]; simpl; [reflexivity|].
    destruct (eqb k k0); simpl; auto.
  Qed.

  Lemma keys_map_vals f d : keys (map_vals f d) = keys d.
  Proof. unfold keys, map_vals; rewrite map_map; reflexivity. Qed.
End DictMap.

Arguments get : simpl never.
Arguments set : simpl never.
Arguments del : simpl never.

Lemma get_nil {K V} `{EqB K} (k : K) : get k ([] : dict K V) = None.
Proof. reflexivity. Qed.

Lemma get_cons {K V} `{EqB K} (k k' : K) (v : V) d :
  get k ((k', v) :: d) = if eqb k k' then Some v else get k d.
Proof. reflexivity. Qed.

Lemma set_nil {K V} `{EqB K} (k : K) (v : V) : set k v [] = [(k, v)].
Proof. reflexivity. Qed.

Lemma set_cons {K V} `{EqB K} (k k' : K) (v v' : V) d :
  set k v ((k', v') :: d) = if eqb k k' then (k', v) :: d else (k', v') :: set k v d.
Proof. reflexivity. Qed.

Lemma set_set {K V} `{EqB K} (k : K) (v w : V) d : set k v (set k w d) = set k v d.
Proof.
  induction d as [|[k0 v0] d IH]; [rewrite !set_nil, set_cons, eqb_refl; reflexivity|].
  rewrite !set_cons; destruct (eqb k k0) eqn:E; rewrite set_cons, E; [reflexivity|].
  rewrite IH; reflexivity.
Qed.
