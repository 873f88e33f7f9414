(** Vocabulary for statements about objects on a heap. *)
From Verif Require Import Base Dict PyVal Heap.

(** The value that is seen from [v] in the heap: following references as deep as needed.
    There is none for cyclic structures. *)
Inductive reads (h : heap) : hval -> pyval -> Prop :=
| RNone : reads h HNone VNone
| RBool b : reads h (HBool b) (VBool b)
| RInt z : reads h (HInt z) (VInt z)
| RStr t : reads h (HStr t) (VStr t)
| ROther t : reads h (HOther t) (VOther t)
| RList a l vs : nth_error h a = Some (OList l) -> Forall2 (reads h) l vs -> reads h (HRef a) (VList vs)
| RDict a d ps : nth_error h a = Some (ODict d) ->
    Forall2 (fun x y => fst x = fst y /\ reads h (snd x) (snd y)) d ps -> reads h (HRef a) (VDict ps).

(** All objects of [h] are the same in [h']. *)
Definition unchanged (h h' : heap) : Prop :=
  forall a, a < List.length h -> nth_error h' a = nth_error h a.

(** [v] is a dict that does not exist in [h], and so are the dicts in its entries, down to
    [depth] levels. *)
Fixpoint new_since (h : heap) (depth : nat) (h' : heap) (v : hval) : Prop :=
  match depth with
  | O => True
  | S n => exists a d, v = HRef a /\ List.length h <= a /\ nth_error h' a = Some (ODict d) /\
                       forall k w, In (k, w) d -> new_since h n h' w
  end.
