(** Model of xylem/load_url.py:36-70. *)
From Verif Require Import Base Dict.

(** Outcome of one [urlopen(url, timeout=timeout)]. HTTPError is a subclass of
    URLError and is caught first.  A response carries the charset of its
    Content-Type header (already defaulted to utf-8) and the outcome of [read()]. *)
Inductive attempt :=
| AHTTPError (code : Z)
| AURLError (reason_is_timeout : bool)
| ARaise (e : exn)                          (* any other exception *)
| AResponse (charset : text) (body : res (list N)).

Section LoadUrl.
  (** [data.decode(encoding, 'replace')] via [to_str]; fails (LookupError) for an
      unknown encoding. *)
  Variable decode : text -> list N -> res text.

  (** Result, number of calls of [urlopen] and number of [sleep(retry_period)];
      [net i] is the outcome of the i-th call.  Each branch of the loop body that
      continues has just decremented a positive [retry]. *)
  Fixpoint load_loop (net : nat -> attempt) (i retry : nat) : res text * nat * nat :=
    match net i with
    | AHTTPError code =>
      match Z.eqb code 503, retry with
      | true, S r => let '(x, n, s) := load_loop net (S i) r in (x, S n, S s)
      | _, _ => (Err DownloadFailure, 1, 0)
      end
    | AURLError timeout =>
      match timeout, retry with
      | true, S r => let '(x, n, s) := load_loop net (S i) r in (x, S n, S s)
      | _, _ => (Err DownloadFailure, 1, 0)
      end
    | ARaise e => (Err e, 1, 0)
    | AResponse cs body => (let* d := body in decode cs d, 1, 0)
    end.

  (** [retry = max(retry, 0)] *)
  Definition load_url (net : nat -> attempt) (retry : Z) : res text * nat * nat :=
    load_loop net 0 (Z.to_nat retry).
End LoadUrl.
