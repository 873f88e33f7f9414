(** Python values as produced by [yaml.SafeLoader] (yaml_utils.py:28-47) or
    [pickle.load]. *)
From Verif Require Import Base Dict.

(** Dictionary keys.  Only the distinction "text or not text" matters for the
    modelled code.  Boolean keys are represented as integers, since
    [True == 1] and [hash(True) == hash(1)]. *)
Inductive pkey :=
| KStr (t : text)
| KNone
| KInt (z : Z)
| KOther (t : text).

Definition pkey_eqb (a b : pkey) : bool :=
  match a, b with
  | KStr x, KStr y => eqb x y
  | KNone, KNone => true
  | KInt x, KInt y => eqb x y
  | KOther x, KOther y => eqb x y
  | _, _ => false
  end.

Lemma pkey_eqb_spec a b : reflect (a = b) (pkey_eqb a b).
Proof.
  destruct a as [x| |x|x], b as [y| |y|y]; simpl; try (constructor; congruence);
    destruct (eqb_spec x y); constructor; congruence.
Qed.

#[global] Instance EqB_pkey : EqB pkey := {| eqb := pkey_eqb; eqb_spec := pkey_eqb_spec |}.

(** Values.  [VOther] stands for every other type (floats, dates, bytes, sets,
    arbitrary objects), identified by an opaque text. *)
Inductive pyval :=
| VNone
| VBool (b : bool)
| VInt (z : Z)
| VStr (t : text)
| VOther (t : text)
| VList (l : list pyval)
| VDict (d : list (pkey * pyval)).

Notation pydict := (dict pkey pyval).

Section Ind.
  Variable P : pyval -> Prop.
  Hypothesis HNone : P VNone.
  Hypothesis HBool : forall b, P (VBool b).
  Hypothesis HInt : forall z, P (VInt z).
  Hypothesis HStr : forall t, P (VStr t).
  Hypothesis HOther : forall t, P (VOther t).
  Hypothesis HList : forall l, Forall P l -> P (VList l).
  Hypothesis HDict : forall d, Forall (fun p => P (snd p)) d -> P (VDict d).

  Fixpoint pyval_ind' (v : pyval) : P v :=
    match v with
    | VNone => HNone
    | VBool b => HBool b
    | VInt z => HInt z
    | VStr t => HStr t
    | VOther t => HOther t
    | VList l => HList l ((fix go (l : list pyval) : Forall P l :=
                             match l with
                             | [] => Forall_nil _
                             | x :: l' => Forall_cons _ (pyval_ind' x) (go l')
                             end) l)
    | VDict d => HDict d ((fix go (d : list (pkey * pyval)) : Forall (fun p => P (snd p)) d :=
                             match d with
                             | [] => Forall_nil _
                             | p :: d' => Forall_cons _ (pyval_ind' (snd p)) (go d')
                             end) d)
    end.
End Ind.

(** Structural (representation) equality test, used only to decide equality of
    model values. *)
Fixpoint pyval_eqb (a b : pyval) : bool :=
  match a, b with
  | VNone, VNone => true
  | VBool x, VBool y => eqb x y
  | VInt x, VInt y => eqb x y
  | VStr x, VStr y => eqb x y
  | VOther x, VOther y => eqb x y
  | VList xs, VList ys =>
    (fix go (xs ys : list pyval) : bool :=
       match xs, ys with
       | [], [] => true
       | x :: xs', y :: ys' => pyval_eqb x y && go xs' ys'
       | _, _ => false
       end) xs ys
  | VDict d, VDict e =>
    (fix go (d e : list (pkey * pyval)) : bool :=
       match d, e with
       | [], [] => true
       | (k, x) :: d', (k', y) :: e' => eqb k k' && pyval_eqb x y && go d' e'
       | _, _ => false
       end) d e
  | _, _ => false
  end.

Lemma pyval_eqb_eq a b : pyval_eqb a b = true <-> a = b.
Proof.
  revert b; induction a as [|x|x|x|x|xs IH|d IH] using pyval_ind'; intros [|y|y|y|y|ys|e];
    simpl; try (split; congruence);
    try (rewrite eqb_eq; split; congruence).
  - revert ys; induction IH as [|x xs Hx Hxs IHl]; intros [|y ys]; try (split; congruence).
    rewrite andb_true_iff, Hx, IHl; split; [intros [-> E]; congruence|].
    intros E; injection E as -> ->; auto.
  - revert e; induction IH as [|[k x] d Hx Hd IHl]; intros [|[k' y] e]; try (split; congruence).
    rewrite !andb_true_iff, eqb_eq; simpl in Hx; rewrite Hx, IHl.
    split; [intros [[-> ->] E]; congruence|].
    intros E; injection E as -> -> ->; auto.
Qed.

Lemma pyval_eqb_spec a b : reflect (a = b) (pyval_eqb a b).
Proof. apply iff_reflect; symmetry; apply pyval_eqb_eq. Qed.

#[global] Instance EqB_pyval : EqB pyval := {| eqb := pyval_eqb; eqb_spec := pyval_eqb_spec |}.

(** Python's [==].  Dict comparison ignores the iteration order, [True == 1].
    Equalities between [VOther] values and numbers (e.g. [1.0 == 1]) are not
    modelled. *)
Fixpoint pyeq (a b : pyval) {struct a} : bool :=
  match a, b with
  | VNone, VNone => true
  | VBool x, VBool y => eqb x y
  | VInt x, VInt y => eqb x y
  | VBool x, VInt y => eqb (if x then 1 else 0)%Z y
  | VInt x, VBool y => eqb x (if y then 1 else 0)%Z
  | VStr x, VStr y => eqb x y
  | VOther x, VOther y => eqb x y
  | VList xs, VList ys =>
    (fix go (xs ys : list pyval) : bool :=
       match xs, ys with
       | [], [] => true
       | x :: xs', y :: ys' => pyeq x y && go xs' ys'
       | _, _ => false
       end) xs ys
  | VDict d, VDict e =>
    Nat.eqb (List.length d) (List.length e) &&
    (fix go (d : list (pkey * pyval)) : bool :=
       match d with
       | [] => true
       | (k, x) :: d' => match get k e with
                         | Some y => pyeq x y && go d'
                         | None => false
                         end
       end) d
  | _, _ => false
  end.

(** Values as they can exist in Python: all dicts have unique keys. *)
Fixpoint wfval (v : pyval) : Prop :=
  match v with
  | VList l => (fix go (l : list pyval) : Prop :=
                  match l with [] => True | x :: l' => wfval x /\ go l' end) l
  | VDict d => wf d /\ (fix go (d : list (pkey * pyval)) : Prop :=
                  match d with [] => True | p :: d' => wfval (snd p) /\ go d' end) d
  | _ => True
  end.

Lemma wfval_list l : wfval (VList l) <-> Forall wfval l.
Proof.
  induction l as [|x l IH]; simpl; [split; auto|].
  rewrite Forall_cons_iff, <- IH; reflexivity.
Qed.

Lemma wfval_dict d : wfval (VDict d) <-> wf d /\ Forall (fun p => wfval (snd p)) d.
Proof.
  cut ((fix go (d : list (pkey * pyval)) : Prop :=
          match d with [] => True | p :: d' => wfval (snd p) /\ go d' end) d
       <-> Forall (fun p => wfval (snd p)) d); [simpl; tauto|].
  induction d as [|p d IH]; [split; auto|].
  rewrite Forall_cons_iff, <- IH; reflexivity.
Qed.

Lemma pyeq_list_nil_r v : pyeq v (VList []) = true <-> v = VList [].
Proof.
  destruct v as [|b|z|t|t|l|d]; simpl; try (split; congruence).
  destruct l; split; congruence.
Qed.

Lemma pyeq_dict d e :
  pyeq (VDict d) (VDict e) = true <->
  List.length d = List.length e /\
  forall k x, In (k, x) d -> exists y, get k e = Some y /\ pyeq x y = true.
Proof.
  cbn [pyeq]; rewrite andb_true_iff, Nat.eqb_eq.
  cut (forall d, (fix go (d : list (pkey * pyval)) : bool :=
       match d with
       | [] => true
       | (k, x) :: d' => match get k e with
                         | Some y => pyeq x y && go d'
                         | None => false
                         end
       end) d = true <-> forall k x, In (k, x) d -> exists y, get k e = Some y /\ pyeq x y = true);
    [intros G; rewrite (G d); tauto|].
  clear d; induction d as [|[k x] d IH]; [split; [intros _ ? ? []|reflexivity]|].
  destruct (get k e) as [y|] eqn:E.
  - rewrite andb_true_iff, IH; split.
    + intros [Hxy Hd] k' x' [Eq|Hin]; [injection Eq as <- <-; eauto|eauto].
    + intros Hall; split.
      * destruct (Hall k x (or_introl eq_refl)) as (y' & E' & Hy); congruence.
      * intros k' x' Hin; apply Hall; right; assumption.
  - split; [discriminate|]; intros Hall.
    destruct (Hall k x (or_introl eq_refl)) as (y' & E' & _); congruence.
Qed.

Lemma pyeq_refl v : wfval v -> pyeq v v = true.
Proof.
  induction v as [|x|x|x|x|xs IH|d IH] using pyval_ind'; intros Hw;
    try reflexivity; try apply eqb_refl.
  - apply wfval_list in Hw; cbn [pyeq].
    induction IH as [|x xs Hx Hxs IHl]; [reflexivity|].
    inversion Hw as [|? ? Hwx Hwl]; subst; rewrite (Hx Hwx), (IHl Hwl); reflexivity.
  - apply wfval_dict in Hw; destruct Hw as [Hw Hwv]; apply pyeq_dict; split; [reflexivity|].
    intros k x Hin; exists x; split; [apply In_get; assumption|].
    rewrite Forall_forall in IH, Hwv; apply (IH (k, x) Hin), (Hwv (k, x) Hin).
Qed.
