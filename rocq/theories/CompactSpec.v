(** Specification for compaction (C16). *)
From Verif Require Import Base Dict PyVal.

(** Python-equal rules (identical or [==]). *)
Definition same_rule (a b : pyval) : Prop := a = b \/ pyeq a b = true.

(** Two lookup outcomes agree: the same error, or dicts with the same installers
    and the same rule for each. *)
Definition same_outcome (x y : res pyval) : Prop :=
  match x, y with
  | Ok (VDict d), Ok (VDict d') =>
    (forall i a, get i d = Some a -> exists b, get i d' = Some b /\ same_rule a b) /\
    (forall i b, get i d' = Some b -> exists a, get i d = Some a /\ same_rule a b)
  | Err e, Err e' => e = e'
  | _, _ => False
  end.

(** The configured default installer of an os. *)
Definition configured_default (defs : dict text (option text)) (os : text) : option text :=
  match get os defs with Some d => d | None => None end.
