(** A concrete encoding of values as number sequences.  It is not pickle's format;
    it only shows that the assumptions made about pickle (decoding returns the
    encoded value, truncated input does not decode) are satisfiable. *)
From Verif Require Import Base Dict PyVal.

Definition enc_text (t : text) : text := N.of_nat (List.length t) :: t.
Definition zn (z : Z) : N := match z with Z0 => 0 | Zpos p => N.double (Npos p) | Zneg p => N.succ_double (Npos p) end%N.
Definition nz (n : N) : Z :=
  match n with
  | N0 => Z0 | Npos (xO p) => Zpos p | Npos (xI p) => Zneg p | Npos xH => Z0
  end.

Definition enc_key (k : pkey) : text :=
  match k with
  | KStr t => 0%N :: enc_text t
  | KNone => [1%N]
  | KInt z => [2%N; zn z]
  | KOther t => 3%N :: enc_text t
  end.

Fixpoint enc (v : pyval) : text :=
  match v with
  | VNone => [0%N]
  | VBool b => [1%N; if b then 1%N else 0%N]
  | VInt z => [2%N; zn z]
  | VStr t => 3%N :: enc_text t
  | VOther t => 4%N :: enc_text t
  | VList l => 5%N :: N.of_nat (List.length l) :: flat_map enc l
  | VDict d => 6%N :: N.of_nat (List.length d) :: flat_map (fun p => enc_key (fst p) ++ enc (snd p)) d
  end.

Definition parser A := text -> option (A * text).

Definition dec_text : parser text := fun s =>
  match s with
  | n :: s' => if Nat.leb (N.to_nat n) (List.length s')
               then Some (firstn (N.to_nat n) s', skipn (N.to_nat n) s') else None
  | [] => None
  end.

Definition dec_key : parser pkey := fun s =>
  match s with
  | 0%N :: s' => match dec_text s' with Some (t, r) => Some (KStr t, r) | None => None end
  | 1%N :: s' => Some (KNone, s')
  | 2%N :: n :: s' => Some (KInt (nz n), s')
  | 3%N :: s' => match dec_text s' with Some (t, r) => Some (KOther t, r) | None => None end
  | _ => None
  end.

Fixpoint dec_many {A} (p : parser A) (n : nat) : parser (list A) := fun s =>
  match n with
  | O => Some ([], s)
  | S n' => match p s with
            | Some (x, r) => match dec_many p n' r with Some (xs, r') => Some (x :: xs, r') | None => None end
            | None => None
            end
  end.

Definition dec_pair {A B} (p : parser A) (q : parser B) : parser (A * B) := fun s =>
  match p s with
  | Some (a, r) => match q r with Some (b, r') => Some ((a, b), r') | None => None end
  | None => None
  end.

Fixpoint dec (fuel : nat) : parser pyval := fun s =>
  match fuel with
  | O => None
  | S fuel' =>
    match s with
    | 0%N :: s' => Some (VNone, s')
    | 1%N :: n :: s' => Some (VBool (N.eqb n 1), s')
    | 2%N :: n :: s' => Some (VInt (nz n), s')
    | 3%N :: s' => match dec_text s' with Some (t, r) => Some (VStr t, r) | None => None end
    | 4%N :: s' => match dec_text s' with Some (t, r) => Some (VOther t, r) | None => None end
    | 5%N :: n :: s' => match dec_many (dec fuel') (N.to_nat n) s' with
                        | Some (l, r) => Some (VList l, r) | None => None end
    | 6%N :: n :: s' => match dec_many (dec_pair dec_key (dec fuel')) (N.to_nat n) s' with
                        | Some (l, r) => Some (VDict l, r) | None => None end
    | _ => None
    end
  end.

Definition dec_all (s : text) : res pyval :=
  match dec (List.length s) s with Some (v, []) => Ok v | _ => Err UnpicklingError end.

Lemma dec_text_enc t r : dec_text (enc_text t ++ r) = Some (t, r).
Proof.
  unfold dec_text, enc_text; simpl; rewrite Nat2N.id, app_length.
  destruct (Nat.leb_spec (List.length t) (List.length t + List.length r)); [|lia].
  rewrite firstn_app, Nat.sub_diag, firstn_all, skipn_app, Nat.sub_diag, skipn_all; simpl.
  rewrite app_nil_r; reflexivity.
Qed.

Lemma nz_zn z : nz (zn z) = z.
Proof. destruct z; reflexivity. Qed.

Lemma dec_key_enc k r : dec_key (enc_key k ++ r) = Some (k, r).
Proof.
  destruct k as [t| |z|t]; cbn [enc_key app dec_key]; rewrite ?nz_zn, ?dec_text_enc; reflexivity.
Qed.

Lemma dec_many_enc {A} (p : parser A) (e : A -> text) l r :
  (forall x r, In x l -> p (e x ++ r) = Some (x, r)) ->
  dec_many p (List.length l) (flat_map e l ++ r) = Some (l, r).
Proof.
  induction l as [|x l IH]; intros H; simpl; [reflexivity|].
  rewrite <- app_assoc, H by (left; reflexivity).
  rewrite IH; [reflexivity|]; intros; apply H; right; assumption.
Qed.

Fixpoint vsize (v : pyval) : nat :=
  match v with
  | VList l => S (list_max (map vsize l))
  | VDict d => S (list_max (map (fun p => vsize (snd p)) d))
  | _ => 1
  end.

Lemma list_max_In n l : In n l -> n <= list_max l.
Proof.
  intros H; pose proof (proj1 (list_max_le l (list_max l)) (Nat.le_refl _)) as F.
  rewrite Forall_forall in F; auto.
Qed.

Lemma dec_enc v : forall fuel r, vsize v <= fuel -> dec fuel (enc v ++ r) = Some (v, r).
Proof.
  induction v as [|b|z|t|t|l IH|d IH] using pyval_ind'; intros [|fuel] r Hf;
    try (exfalso; revert Hf; simpl; lia).
  - reflexivity.
  - destruct b; reflexivity.
  - simpl; rewrite nz_zn; reflexivity.
  - cbn [enc app dec]; rewrite dec_text_enc; reflexivity.
  - cbn [enc app dec]; rewrite dec_text_enc; reflexivity.
  - cbn [enc app dec]; rewrite Nat2N.id, dec_many_enc; [reflexivity|].
    intros x r' Hin; rewrite Forall_forall in IH; apply IH; [exact Hin|].
    simpl in Hf; apply le_S_n in Hf; etransitivity; [|exact Hf].
    apply list_max_In; apply in_map; exact Hin.
  - cbn [enc app dec]; rewrite Nat2N.id.
    rewrite (dec_many_enc (dec_pair dec_key (dec fuel)) (fun p => enc_key (fst p) ++ enc (snd p))); [reflexivity|].
    intros [k x] r' Hin; rewrite Forall_forall in IH; unfold dec_pair; cbn [fst snd].
    rewrite <- app_assoc, dec_key_enc, (IH (k, x) Hin); [reflexivity|].
    simpl in Hf; apply le_S_n in Hf; etransitivity; [|exact Hf].
    apply list_max_In; apply in_map_iff; exists (k, x); auto.
Qed.

Lemma vsize_length v : vsize v <= List.length (enc v).
Proof.
  induction v as [|b|z|t|t|l IH|d IH] using pyval_ind'; simpl; try lia.
  - cut (list_max (map vsize l) <= List.length (flat_map enc l)); [lia|].
    apply list_max_le; apply Forall_forall; intros n Hn; apply in_map_iff in Hn; destruct Hn as (x & <- & Hx).
    rewrite Forall_forall in IH; specialize (IH x Hx); etransitivity; [exact IH|].
    clear - Hx; induction l as [|y l IHl]; simpl in *; [tauto|]; rewrite app_length; destruct Hx as [->|Hx]; [lia|].
    specialize (IHl Hx); lia.
  - cut (list_max (map (fun p => vsize (snd p)) d) <=
         List.length (flat_map (fun p => enc_key (fst p) ++ enc (snd p)) d)); [lia|].
    apply list_max_le; apply Forall_forall; intros n Hn; apply in_map_iff in Hn; destruct Hn as (x & <- & Hx).
    rewrite Forall_forall in IH; specialize (IH x Hx); etransitivity; [exact IH|].
    clear - Hx; induction d as [|y l IHl]; simpl in *; [tauto|]; rewrite !app_length; destruct Hx as [->|Hx]; [lia|].
    specialize (IHl Hx); lia.
Qed.

Theorem dec_all_enc v : dec_all (enc v) = Ok v.
Proof.
  unfold dec_all; rewrite <- (app_nil_r (enc v)) at 2; rewrite dec_enc; [reflexivity|apply vsize_length].
Qed.
