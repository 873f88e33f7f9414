(** Property C53: downloads. *)
From Verif Require Import Base Dict LoadUrl.
From Coq Require Import Lia.

(** When a retry is sensible: service unavailable or a timeout. *)
Definition retryable (a : attempt) : Prop :=
  match a with
  | AHTTPError code => code = 503%Z
  | AURLError timeout => timeout = true
  | _ => False
  end.

(** What the last attempt means for the caller. *)
Definition final_result (decode : text -> list N -> res text) (a : attempt) : res text :=
  match a with
  | AHTTPError _ | AURLError _ => Err DownloadFailure
  | ARaise e => Err e
  | AResponse cs (Ok d) => decode cs d
  | AResponse cs (Err e) => Err e
  end.

Section C53.
  Variable decode : text -> list N -> res text.

  (** With [n] calls: at most retry+1 of them; all but the last ended in a retryable
      failure and were followed by a pause; the last one determines the result, and it
      is only retryable when the retries are used up. *)
  Theorem C53_download : forall net retry x n s,
    load_url decode net retry = (x, n, s) ->
    1 <= n /\ (Z.of_nat n <= Z.max retry 0 + 1)%Z /\ s = n - 1 /\
    (forall i, i < n - 1 -> retryable (net i)) /\
    x = final_result decode (net (n - 1)) /\
    (retryable (net (n - 1)) -> Z.of_nat n = (Z.max retry 0 + 1)%Z).
  Proof.
    intros net retry x n s; unfold load_url.
    assert (X : forall r i x n s, load_loop decode net i r = (x, n, s) ->
      1 <= n /\ n <= r + 1 /\ s = n - 1 /\
      (forall j, j < n - 1 -> retryable (net (i + j))) /\
      x = final_result decode (net (i + (n - 1))) /\
      (retryable (net (i + (n - 1))) -> n = r + 1)).
    { clear; induction r as [|r IH]; intros i x n s; cbn [load_loop];
        destruct (net i) as [code|tm|e|cs body] eqn:Ei.
      - assert (E : forall P : res text * nat * nat, (match Z.eqb code 503 with true => (Err DownloadFailure, 1, 0) | false => (Err DownloadFailure, 1, 0) end) = P -> P = (Err DownloadFailure, 1, 0))
          by (intros P <-; destruct (Z.eqb code 503); reflexivity).
        intros H; apply E in H; injection H as -> -> ->.
        simpl; rewrite PeanoNat.Nat.add_0_r, Ei; repeat split; try lia.
      - assert (E : forall P : res text * nat * nat, (match tm with true => (Err DownloadFailure, 1, 0) | false => (Err DownloadFailure, 1, 0) end) = P -> P = (Err DownloadFailure, 1, 0))
          by (intros P <-; destruct tm; reflexivity).
        intros H; apply E in H; injection H as -> -> ->.
        simpl; rewrite PeanoNat.Nat.add_0_r, Ei; repeat split; try lia.
      - intros H; injection H as <- <- <-.
        simpl; rewrite PeanoNat.Nat.add_0_r, Ei; repeat split; simpl; try lia.
      - intros H; injection H as <- <- <-.
        simpl; rewrite PeanoNat.Nat.add_0_r, Ei; destruct body; repeat split; simpl; try lia.
      - destruct (Z.eqb_spec code 503) as [->|Hc].
        + destruct (load_loop decode net (S i) r) as [[x' n'] s'] eqn:El.
          intros H; injection H as <- <- <-.
          destruct (IH _ _ _ _ El) as (H1 & H2 & H3 & H4 & H5 & H6).
          replace (S n' - 1) with n' by lia.
          replace (i + n') with (S i + (n' - 1)) by lia.
          repeat split; try lia; try assumption.
          * intros [|j] Hj; [rewrite PeanoNat.Nat.add_0_r, Ei; reflexivity|].
            replace (i + S j) with (S i + j) by lia; apply H4; lia.
          * intros Hr; specialize (H6 Hr); lia.
        + intros H; injection H as <- <- <-.
          simpl; rewrite PeanoNat.Nat.add_0_r, Ei; repeat split; simpl; try lia; intros; congruence.
      - destruct tm.
        + destruct (load_loop decode net (S i) r) as [[x' n'] s'] eqn:El.
          intros H; injection H as <- <- <-.
          destruct (IH _ _ _ _ El) as (H1 & H2 & H3 & H4 & H5 & H6).
          replace (S n' - 1) with n' by lia.
          replace (i + n') with (S i + (n' - 1)) by lia.
          repeat split; try lia; try assumption.
          * intros [|j] Hj; [rewrite PeanoNat.Nat.add_0_r, Ei; reflexivity|].
            replace (i + S j) with (S i + j) by lia; apply H4; lia.
          * intros Hr; specialize (H6 Hr); lia.
        + intros H; injection H as <- <- <-.
          simpl; rewrite PeanoNat.Nat.add_0_r, Ei; repeat split; simpl; try lia; intros; congruence.
      - intros H; injection H as <- <- <-.
        simpl; rewrite PeanoNat.Nat.add_0_r, Ei; repeat split; simpl; try lia; intros; contradiction.
      - intros H; injection H as <- <- <-.
        simpl; rewrite PeanoNat.Nat.add_0_r, Ei; destruct body; repeat split; simpl; try lia; intros; contradiction. }
    intros H; destruct (X _ _ _ _ _ H) as (H1 & H2 & H3 & H4 & H5 & H6).
    simpl in H5, H6; repeat split; try assumption; try lia.
    intros Hr; specialize (H6 Hr); lia.
  Qed.

  (** Part of the claim that fails: exceptions while reading the body (for example a
      read timeout) or decoding it are neither retried nor turned into the documented
      failure. *)
  Theorem C53_read_failure_refuted : forall retry cs e,
    load_url decode (fun _ => AResponse cs (Err e)) retry = (Err e, 1, 0).
  Proof. intros; unfold load_url; destruct (Z.to_nat retry); reflexivity. Qed.
End C53.
Print Assumptions C53_download.
Print Assumptions C53_read_failure_refuted.

(** Two retryable failures, then data. *)
Example C53_example :
  load_url (fun _ d => Ok d)
    (fun i => match i with 0 => AHTTPError 503 | 1 => AURLError true | _ => AResponse (u "utf-8") (Ok [104; 105]%N) end) 2
  = (Ok (u "hi"), 3, 2) /\
  load_url (fun _ d => Ok d) (fun i => AHTTPError 503) 2 = (Err DownloadFailure, 3, 2) /\
  load_url (fun _ d => Ok d) (fun i => AHTTPError 404) (-5) = (Err DownloadFailure, 1, 0).
Proof. repeat split. Qed.
