(** Base definitions of the xylem model: text, exceptions, results. *)
From Coq Require Export List Bool Arith NArith ZArith Lia String Ascii Permutation.
Export ListNotations.
Open Scope list_scope.
Open Scope bool_scope.

(** Decidable equality as a small type class. *)
Class EqB (A : Type) := {
  eqb : A -> A -> bool;
  eqb_spec : forall x y : A, reflect (x = y) (eqb x y)
}.

Arguments eqb : simpl never.

Lemma eqb_refl {A} `{EqB A} (x : A) : eqb x x = true.
Proof. destruct (eqb_spec x x); congruence. Qed.

Lemma eqb_eq {A} `{EqB A} (x y : A) : eqb x y = true <-> x = y.
Proof. destruct (eqb_spec x y); split; congruence. Qed.

Lemma eqb_neq {A} `{EqB A} (x y : A) : eqb x y = false <-> x <> y.
Proof. destruct (eqb_spec x y); split; congruence. Qed.

Lemma eqb_sym {A} `{EqB A} (x y : A) : eqb x y = eqb y x.
Proof. destruct (eqb_spec x y), (eqb_spec y x); congruence. Qed.

#[global] Instance EqB_N : EqB N := {| eqb := N.eqb; eqb_spec := N.eqb_spec |}.
#[global] Instance EqB_Z : EqB Z := {| eqb := Z.eqb; eqb_spec := Z.eqb_spec |}.
#[global] Instance EqB_nat : EqB nat := {| eqb := Nat.eqb; eqb_spec := Nat.eqb_spec |}.
#[global] Instance EqB_bool : EqB bool := {| eqb := Bool.eqb; eqb_spec := Bool.eqb_spec |}.

Fixpoint list_eqb {A} `{EqB A} (xs ys : list A) : bool :=
  match xs, ys with
  | [], [] => true
  | x :: xs', y :: ys' => eqb x y && list_eqb xs' ys'
  | _, _ => false
  end.

Lemma list_eqb_spec {A} `{EqB A} (xs ys : list A) : reflect (xs = ys) (list_eqb xs ys).
Proof.
  revert ys; induction xs as [|x xs IH]; intros [|y ys]; simpl; try (constructor; congruence).
  destruct (eqb_spec x y) as [->|Hn]; simpl; [|constructor; congruence].
  destruct (IH ys) as [->|Hn]; constructor; congruence.
Qed.

#[global] Instance EqB_list {A} `{EqB A} : EqB (list A) :=
  {| eqb := list_eqb; eqb_spec := list_eqb_spec |}.

Definition option_eqb {A} `{EqB A} (x y : option A) : bool :=
  match x, y with
  | None, None => true
  | Some a, Some b => eqb a b
  | _, _ => false
  end.

Lemma option_eqb_spec {A} `{EqB A} (x y : option A) : reflect (x = y) (option_eqb x y).
Proof.
  destruct x as [a|], y as [b|]; simpl; try (constructor; congruence).
  destruct (eqb_spec a b); constructor; congruence.
Qed.

#[global] Instance EqB_option {A} `{EqB A} : EqB (option A) :=
  {| eqb := option_eqb; eqb_spec := option_eqb_spec |}.

Definition pair_eqb {A B} `{EqB A} `{EqB B} (x y : A * B) : bool :=
  eqb (fst x) (fst y) && eqb (snd x) (snd y).

Lemma pair_eqb_spec {A B} `{EqB A} `{EqB B} (x y : A * B) : reflect (x = y) (pair_eqb x y).
Proof.
  destruct x as [a b], y as [c d]; unfold pair_eqb; simpl.
  destruct (eqb_spec a c), (eqb_spec b d); simpl; constructor; congruence.
Qed.

#[global] Instance EqB_pair {A B} `{EqB A} `{EqB B} : EqB (A * B) :=
  {| eqb := pair_eqb; eqb_spec := pair_eqb_spec |}.

(** Unicode text as a list of code points (python's [text_type]). *)
Notation text := (list N).

Fixpoint u (s : string) : text :=
  match s with
  | EmptyString => []
  | String c s' => N_of_ascii c :: u s'
  end.

(** [in] on lists, i.e. python's [x in seq]. *)
Fixpoint mem {A} `{EqB A} (x : A) (l : list A) : bool :=
  match l with
  | [] => false
  | y :: l' => eqb x y || mem x l'
  end.

Lemma mem_In {A} `{EqB A} (x : A) l : mem x l = true <-> In x l.
Proof.
  induction l as [|y l IH]; simpl; [split; [discriminate|tauto]|].
  rewrite orb_true_iff, eqb_eq, IH; split; intros [E|E]; auto.
Qed.

Lemma mem_not_In {A} `{EqB A} (x : A) l : mem x l = false <-> ~ In x l.
Proof.
  rewrite <- mem_In; destruct (mem x l); split; intros; congruence.
Qed.

(** Exception classes that occur in the modelled code; messages and chained
    causes are not modelled. *)
Inductive exn :=
| ValueError | KeyError | TypeError | AttributeError | UnboundLocalError
| RuntimeError | OSError | IOError | LookupError | IndexError
| YAMLError | UnpicklingError
| XylemError | XylemInternalError | ResolutionError | InstallError
| InstallerError | InvalidRuleError | InstallerPrerequisiteError | NotImplementedError
| SpecParsingError | UnknownSpecError | DownloadFailure | InvalidPluginError
| ConfigValueError | ConfigKeyError | ConfigDescriptionError | InvalidDataError
| UnsupportedOSError | UnsupportedOSVersionError
| OsNotDetected | AssertionError | ImportError
| KeyboardInterrupt | EOFError
| SystemExit (code : Z)
| OtherError (n : N).

#[global] Instance EqB_exn : EqB exn.
Proof.
  assert (D : forall x y : exn, {x = y} + {x <> y}) by (decide equality; [apply Z.eq_dec|apply N.eq_dec]).
  exact {| eqb := fun x y => if D x y then true else false;
           eqb_spec := fun x y => match D x y as d return reflect (x = y) (if d then true else false) with
                                  | left e => ReflectT _ e | right n => ReflectF _ n end |}.
Defined.

(** Result of a python call: normal return or raised exception. *)
Inductive res (A : Type) :=
| Ok (a : A)
| Err (e : exn).
Arguments Ok {A} a.
Arguments Err {A} e.

Definition bind {A B} (x : res A) (f : A -> res B) : res B :=
  match x with Ok a => f a | Err e => Err e end.

Declare Scope res_scope.
Delimit Scope res_scope with res.
Notation "'let*' x ':=' e 'in' f" := (bind e (fun x => f))
  (at level 200, x name, e at level 200, f at level 200) : res_scope.
Notation "'let*' ' p ':=' e 'in' f" := (bind e (fun x => let ' p := x in f))
  (at level 200, p pattern, e at level 200, f at level 200) : res_scope.
Open Scope res_scope.


Lemma bind_Ok {A B} (x : res A) (f : A -> res B) b :
  bind x f = Ok b <-> exists a, x = Ok a /\ f a = Ok b.
Proof.
  destruct x as [a|e]; simpl; split.
  - intros Hf; eauto.
  - intros (a' & E & Hf); congruence.
  - discriminate.
  - intros (a' & E & Hf); congruence.
Qed.

Lemma bind_Err {A B} (x : res A) (f : A -> res B) e :
  bind x f = Err e <-> x = Err e \/ exists a, x = Ok a /\ f a = Err e.
Proof.
  destruct x as [a|e']; simpl; split.
  - intros Hf; right; eauto.
  - intros [E|(a' & E & Hf)]; congruence.
  - intros E; left; congruence.
  - intros [E|(a' & E & Hf)]; congruence.
Qed.

Definition is_ok {A} (x : res A) : bool := match x with Ok _ => true | Err _ => false end.

(** Loop [for x in l: acc = f(acc, x)] whose body may raise. *)
Fixpoint foldM {A S} (f : S -> A -> res S) (l : list A) (s : S) : res S :=
  match l with
  | [] => Ok s
  | x :: l' => let* s' := f s x in foldM f l' s'
  end.

Lemma foldM_app {A S} (f : S -> A -> res S) l1 l2 s :
  foldM f (l1 ++ l2) s = bind (foldM f l1 s) (foldM f l2).
Proof.
  revert s; induction l1 as [|x l1 IH]; intros s; simpl; [reflexivity|].
  destruct (f s x) as [s'|e]; simpl; auto.
Qed.

(** Loop that builds a new list, body may raise. *)
Fixpoint mapM {A B} (f : A -> res B) (l : list A) : res (list B) :=
  match l with
  | [] => Ok []
  | x :: l' => let* y := f x in let* ys := mapM f l' in Ok (y :: ys)
  end.

(** Loop that only checks, body may raise. *)
Fixpoint forM_ {A} (f : A -> res unit) (l : list A) : res unit :=
  match l with
  | [] => Ok tt
  | x :: l' => let* _ := f x in forM_ f l'
  end.

Lemma forM_Ok {A} (f : A -> res unit) l :
  forM_ f l = Ok tt <-> forall x, In x l -> f x = Ok tt.
Proof.
  induction l as [|x l IH]; simpl; [split; [tauto|reflexivity]|].
  rewrite bind_Ok; split.
  - intros ([] & Hx & Hl) y [<-|Hy]; [assumption|]; apply IH; assumption.
  - intros Hall; exists tt; split; [auto|]; apply IH; auto.
Qed.

Lemma forM_Err {A} (f : A -> res unit) l e :
  forM_ f l = Err e -> exists x, In x l /\ f x = Err e.
Proof.
  induction l as [|x l IH]; simpl; [discriminate|].
  rewrite bind_Err; intros [Hx|(a & _ & Hl)]; [eauto|].
  destruct (IH Hl) as (y & Hy & Ey); eauto.
Qed.

Lemma mapM_Ok {A B} (f : A -> res B) l ys :
  mapM f l = Ok ys <-> Forall2 (fun x y => f x = Ok y) l ys.
Proof.
  revert ys; induction l as [|x l IH]; intros ys; simpl.
  - split; [intros E; injection E as <-; constructor | intros F; inversion F; reflexivity].
  - rewrite bind_Ok; split.
    + intros (y & Hy & E); apply bind_Ok in E; destruct E as (ys' & Hys & E).
      injection E as <-; constructor; [assumption | apply IH; assumption].
    + intros F; inversion F as [|? y ? ys' Hy Hys]; subst.
      exists y; split; [assumption|]; apply IH in Hys; rewrite Hys; reflexivity.
Qed.

Lemma mapM_Err {A B} (f : A -> res B) l e :
  mapM f l = Err e -> exists x, In x l /\ f x = Err e.
Proof.
  induction l as [|x l IH]; simpl; [discriminate|].
  rewrite bind_Err; intros [Hx|(a & _ & Hl)]; [eauto|].
  apply bind_Err in Hl; destruct Hl as [Hl|(b & _ & Hl)]; [|discriminate].
  destruct (IH Hl) as (y & Hy & Ey); eauto.
Qed.

Lemma mapM_err_In {A B} (f : A -> res B) l x e :
  In x l -> f x = Err e -> exists e', mapM f l = Err e'.
Proof.
  intros Hin Hx; destruct (mapM f l) as [ys|e'] eqn:E; [|eauto].
  apply mapM_Ok in E; exfalso.
  induction E as [|a b l' ys' Hab Hf IH]; simpl in Hin; [tauto|].
  destruct Hin as [->|Hin]; [congruence|auto].
Qed.

(** First [Some] of two. *)
Definition orelse {A} (x y : option A) : option A :=
  match x with Some a => Some a | None => y end.

Lemma orelse_assoc {A} (x y z : option A) : orelse x (orelse y z) = orelse (orelse x y) z.
Proof. destruct x; reflexivity. Qed.

Lemma orelse_None_r {A} (x : option A) : orelse x None = x.
Proof. destruct x; reflexivity. Qed.
