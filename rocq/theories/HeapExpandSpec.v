(** Documents in which every dict object is used at one level only. *)
From Verif Require Import Base Dict PyVal RulesDict Heap HeapSpec.

(** [lv] gives dict objects their level: 4 the file, 3 the dicts of a key, 2 those of an os,
    1 those of a version, 0 rules.  [None]: everything else. *)
Notation levels := (nat -> option nat).

(** [v] has the value [x] in the heap, and all objects it is made of are none of the dicts
    with a level. *)
Inductive plain (lv : levels) (h : heap) : hval -> pyval -> Prop :=
| PNone : plain lv h HNone VNone
| PBool b : plain lv h (HBool b) (VBool b)
| PInt z : plain lv h (HInt z) (VInt z)
| PStr t : plain lv h (HStr t) (VStr t)
| POther t : plain lv h (HOther t) (VOther t)
| PList a l vs : lv a = None -> nth_error h a = Some (OList l) -> Forall2 (plain lv h) l vs ->
    plain lv h (HRef a) (VList vs)
| PDict a d ps : lv a = None -> nth_error h a = Some (ODict d) ->
    Forall2 (fun x y => fst x = fst y /\ plain lv h (snd x) (snd y)) d ps -> plain lv h (HRef a) (VDict ps).

(** [v] has the value [x]: a plain value other than a dict (null, a string, a list, ...), or
    a dict object of level [n], with entries as described by [P]. *)
Definition node (n : nat) (P : pkey -> levels -> heap -> hval -> pyval -> Prop)
    (lv : levels) (h : heap) (v : hval) (x : pyval) : Prop :=
  ((forall d, x <> VDict d) /\ wfval x /\ plain lv h v x) \/
  exists a d ps, v = HRef a /\ x = VDict ps /\ lv a = Some n /\ nth_error h a = Some (ODict d) /\ wf d /\
    Forall2 (fun p q => fst p = fst q /\ P (fst p) lv h (snd p) (snd q)) d ps.

Definition is_rule := node 0 (fun _ lv h v x => wfval x /\ plain lv h v x).
Definition is_installers := node 1 (fun _ => is_rule).
Definition is_versions := node 2 (fun _ => is_installers).
(** A dict under [any_os] without [any_version] is a dict of installers. *)
Definition any_os_installers (os : pkey) (x : pyval) : bool :=
  match x with
  | VDict d => eqb os (KStr any_os) && negb (has (KStr any_version) d)
  | _ => false
  end.
Definition is_oses := node 3 (fun os lv h v x =>
  if any_os_installers os x then is_installers lv h v x else is_versions lv h v x).
Definition is_file := node 4 (fun _ => is_oses).

(** A document without aliases, as the YAML loader makes it: new objects for everything. *)
Fixpoint build (x : pyval) (h : heap) : hval * heap :=
  match x with
  | VNone => (HNone, h)
  | VBool b => (HBool b, h)
  | VInt z => (HInt z, h)
  | VStr t => (HStr t, h)
  | VOther t => (HOther t, h)
  | VList l =>
    let '(vs, h1) := (fix go l h := match l with
                                    | [] => ([], h)
                                    | x :: l' => let '(v, h1) := build x h in
                                                 let '(vs, h2) := go l' h1 in (v :: vs, h2)
                                    end) l h in
    (HRef (List.length h1), h1 ++ [OList vs])
  | VDict d =>
    let '(ps, h1) := (fix go d h := match d with
                                    | [] => ([], h)
                                    | (k, x) :: d' => let '(v, h1) := build x h in
                                                      let '(ps, h2) := go d' h1 in ((k, v) :: ps, h2)
                                    end) d h in
    (HRef (List.length h1), h1 ++ [ODict ps])
  end.
