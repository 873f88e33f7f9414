(** Model of small helpers, xylem/util.py and six's text operations. *)
From Verif Require Import Base Dict.

Section RemoveDup.
  Context {A : Type} `{EqB A}.

  (** util.py:184-190 [remove_duplicates]; [items] is the set of elements seen so far.
      Elements are assumed hashable with an equality that agrees with the hash. *)
  Fixpoint remove_dup_from (items : list A) (l : list A) : list A :=
    match l with
    | [] => []
    | x :: l' => if mem x items then remove_dup_from items l'
                 else x :: remove_dup_from (x :: items) l'
    end.
  Definition remove_duplicates (l : list A) : list A := remove_dup_from [] l.

  Lemma remove_dup_from_In x items l :
    In x (remove_dup_from items l) <-> In x l /\ ~ In x items.
  Proof.
    revert items; induction l as [|y l IH]; intros items; cbn [remove_dup_from]; [simpl; tauto|].
    destruct (mem y items) eqn:E.
    - apply (proj1 (mem_In _ _)) in E; rewrite IH; simpl; split; [tauto|].
      intros [[->|Hl] Hn]; tauto.
    - apply (proj1 (mem_not_In _ _)) in E; simpl; rewrite IH; simpl.
      split; [intros [->|[Hl Hn]]; tauto|].
      intros [[->|Hl] Hn]; [tauto|].
      destruct (eqb_spec y x) as [->|Hd]; [tauto|right; tauto].
  Qed.

  Lemma remove_dup_from_NoDup items l : NoDup (remove_dup_from items l).
  Proof.
    revert items; induction l as [|y l IH]; intros items; cbn [remove_dup_from]; [constructor|].
    destruct (mem y items) eqn:E; [apply IH|].
    constructor; [|apply IH]; rewrite remove_dup_from_In; simpl; tauto.
  Qed.

  Lemma remove_duplicates_In x l : In x (remove_duplicates l) <-> In x l.
  Proof. unfold remove_duplicates; rewrite remove_dup_from_In; simpl; tauto. Qed.

  Lemma remove_duplicates_NoDup l : NoDup (remove_duplicates l).
  Proof. apply remove_dup_from_NoDup. Qed.

  Lemma remove_dup_from_app items l1 l2 :
    remove_dup_from items (l1 ++ l2) =
    remove_dup_from items l1 ++ remove_dup_from (items ++ l1) l2.
  Proof.
    revert items; induction l1 as [|x l1 IH]; intros items.
    - simpl; rewrite app_nil_r; reflexivity.
    - cbn [remove_dup_from app]; rewrite IH; rewrite IH; clear IH.
      assert (X : forall i1 i2, (forall x, In x i1 <-> In x i2) ->
                forall l, remove_dup_from i1 l = remove_dup_from i2 l).
      { intros i1 i2 Hi l; revert i1 i2 Hi; induction l as [|y l IHl]; intros i1 i2 Hi;
          cbn [remove_dup_from]; [reflexivity|].
        assert (Em : mem y i1 = mem y i2).
        { destruct (mem y i1) eqn:E1, (mem y i2) eqn:E2; auto.
          - apply (proj1 (mem_In _ _)) in E1; apply (proj1 (mem_not_In _ _)) in E2.
            exfalso; apply E2, Hi, E1.
          - apply (proj1 (mem_In _ _)) in E2; apply (proj1 (mem_not_In _ _)) in E1.
            exfalso; apply E1, Hi, E2. }
        rewrite Em; destruct (mem y i2); [apply IHl, Hi|].
        f_equal; apply IHl; intros z; simpl; rewrite Hi; tauto. }
      destruct (mem x items) eqn:E.
      + f_equal; apply X; intros y; rewrite !in_app_iff; simpl.
        apply (proj1 (mem_In _ _)) in E; split; [tauto|].
        intros [Hy|[->|Hy]]; tauto.
      + simpl; f_equal; f_equal; apply X; intros y; simpl; rewrite !in_app_iff; simpl; tauto.
  Qed.

  Lemma remove_duplicates_id l : NoDup l -> remove_duplicates l = l.
  Proof.
    unfold remove_duplicates; intros Hn.
    cut (forall items, (forall x, In x l -> ~ In x items) -> remove_dup_from items l = l).
    { intros X; apply X; simpl; tauto. }
    induction Hn as [|x l Hx Hn IH]; intros items Hi; cbn [remove_dup_from]; [reflexivity|].
    assert (E : mem x items = false) by (apply (proj2 (mem_not_In _ _)), Hi; left; reflexivity).
    rewrite E; f_equal; apply IH; intros y Hy [<-|Hy']; [tauto|].
    apply (Hi y); [right|]; assumption.
  Qed.
End RemoveDup.

(** Python 2's comparison of texts: lexicographic by code point. *)
Fixpoint text_leb (a b : text) : bool :=
  match a, b with
  | [], _ => true
  | _ :: _, [] => false
  | x :: a', y :: b' => if (x <? y)%N then true else if (y <? x)%N then false else text_leb a' b'
  end.

(** [sorted(l)] for texts (insertion sort; equal texts are indistinguishable, so
    stability does not matter). *)
Fixpoint text_insert (x : text) (l : list text) : list text :=
  match l with
  | [] => [x]
  | y :: l' => if text_leb x y then x :: y :: l' else y :: text_insert x l'
  end.
Definition text_sorted (l : list text) : list text := fold_right text_insert [] l.

Lemma text_insert_In x y l : In y (text_insert x l) <-> y = x \/ In y l.
Proof.
  induction l as [|z l IH]; simpl; [intuition|].
  destruct (text_leb x z); simpl; [intuition|]; rewrite IH; intuition.
Qed.

Lemma text_sorted_In y l : In y (text_sorted l) <-> In y l.
Proof.
  induction l as [|x l IH]; simpl; [tauto|]; rewrite text_insert_In, IH; intuition.
Qed.

(** [sep.join(l)] *)
Fixpoint join (sep : text) (l : list text) : text :=
  match l with
  | [] => []
  | x :: l' => match l' with [] => x | _ => x ++ sep ++ join sep l' end
  end.
