(** C113: conversion between dict and ConfigDict. *)
From Verif Require Import Base Dict PyVal ConfigDict.

Section Ind.
  Variable P : cval -> Prop.
  Hypothesis HA : forall v, P (CAtom v).
  Hypothesis HL : forall l, Forall P l -> P (CList l).
  Hypothesis HD : forall c d, Forall (fun p => P (snd p)) d -> P (CDict c d).
  Fixpoint cval_ind' (v : cval) : P v :=
    match v with
    | CAtom x => HA x
    | CList l => HL l ((fix go l : Forall P l := match l with [] => Forall_nil _ | x :: l' => Forall_cons x (cval_ind' x) (go l') end) l)
    | CDict c d => HD c d ((fix go d : Forall (fun p => P (snd p)) d :=
                              match d with [] => Forall_nil _ | p :: d' => Forall_cons p (cval_ind' (snd p)) (go d') end) d)
    end.
End Ind.

(** ** Specification *)
(** The contents, without classes. *)
Fixpoint contents (v : cval) : pyval :=
  match v with
  | CAtom x => x
  | CList l => VList (map contents l)
  | CDict _ d => VDict (map (fun p => (fst p, contents (snd p))) d)
  end.
(** No ConfigDict anywhere. *)
Inductive plain : cval -> Prop :=
| plain_atom x : plain (CAtom x)
| plain_list l : Forall plain l -> plain (CList l)
| plain_dict d : Forall (fun p => plain (snd p)) d -> plain (CDict Plain d).
(** Configurations: ConfigDicts below ConfigDicts only, as the functions of config_utils.py
    make them. *)
Inductive config : cval -> Prop :=
| config_plain v : plain v -> config v
| config_dict d : Forall (fun p => config (snd p)) d -> config (CDict Conf d).

(** ** [copy_to_dict] *)
Lemma copy_contents v : contents (copy_value v) = contents v.
Proof.
  induction v as [x|l _|c d IH] using cval_ind'; [reflexivity|reflexivity|]; destruct c; [reflexivity|].
  cbn [copy_value contents]; f_equal; rewrite map_map; cbn [fst snd]; apply map_ext_in; intros p Hin.
  rewrite Forall_forall in IH; rewrite (IH p Hin); reflexivity.
Qed.

Theorem C113_copy_same d : contents (copy_to_dict d) = contents (CDict Conf d).
Proof. apply (copy_contents (CDict Conf d)). Qed.

Theorem C113_copy_plain d : config (CDict Conf d) -> plain (copy_to_dict d).
Proof.
  assert (H : forall v, config v -> plain (copy_value v)).
  { intros v; induction v as [x|l _|c d' IH] using cval_ind'; intros H; [constructor| |].
    - inversion H as [v Hp|]; exact Hp.
    - destruct c; [inversion H as [v Hp|]; exact Hp|]; cbn [copy_value]; constructor.
      inversion H as [v Hp|d0 HF]; subst; [inversion Hp|].
      clear H; induction IH as [|p d' Hx _ IHd]; [constructor|]; inversion HF; subst; constructor; [cbn [snd]; apply Hx; assumption|apply IHd; assumption]. }
  apply H.
Qed.

(** ** [ceorce_config_dict] *)
(** Everything but a dict, and a ConfigDict that is not to be copied, is returned as it is. *)
Theorem C113_coerce_same_partial v copy :
  match v with CDict Plain _ => False | CDict Conf _ => copy = false | _ => True end -> ceorce_config_dict v copy = v.
Proof. destruct v as [x|l|[|] d]; cbn; intros H; try reflexivity; [destruct H|subst copy; reflexivity]. Qed.

(** Every conversion that has something to do returns None. *)
Theorem C113_coerce_refuted : (forall d copy, ceorce_config_dict (CDict Plain d) copy = CAtom VNone) /\
  (forall d, ceorce_config_dict (CDict Conf d) true = CAtom VNone).
Proof. split; [intros d [|]; reflexivity|reflexivity]. Qed.

Example C113_nonvacuous :
  config (CDict Conf [(KStr (u "g"), CDict Conf [(KStr (u "x"), CList [CAtom VNone])])]) /\
  copy_to_dict [(KStr (u "g"), CDict Conf [(KStr (u "x"), CList [CAtom VNone])])] =
  CDict Plain [(KStr (u "g"), CDict Plain [(KStr (u "x"), CList [CAtom VNone])])].
Proof.
  split; [|reflexivity]; apply config_dict; constructor; [|constructor]; apply config_dict; constructor; [|constructor].
  apply config_plain; cbn [snd]; repeat constructor.
Qed.

Print Assumptions C113_copy_same.
Print Assumptions C113_copy_plain.
Print Assumptions C113_coerce_same_partial.
Print Assumptions C113_coerce_refuted.
