(** Specification vocabulary for sources and the database (C08, C09, C17-C24). *)
From Verif Require Import Base Dict PyVal.

(** The first defined element. *)
Fixpoint first_some {A} (l : list (option A)) : option A :=
  match l with
  | [] => None
  | Some a :: _ => Some a
  | None :: l' => first_some l'
  end.

(** Equality of values up to the iteration order of dicts: what pickling preserves. *)
Inductive veq : pyval -> pyval -> Prop :=
| veq_atom v : match v with VList _ | VDict _ => False | _ => True end -> veq v v
| veq_list l l' : Forall2 veq l l' -> veq (VList l) (VList l')
| veq_dict d e d' : Permutation d e ->
    Forall2 (fun p q => fst p = fst q /\ veq (snd p) (snd q)) e d' ->
    veq (VDict d) (VDict d').
