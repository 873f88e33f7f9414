(** Model of what is shown of an exception: xylem/exception.py:62-114 with the formatting of the standard library of
    python 2.7, xylem/util.py:92-136, the reports of the commands and of xylem/commands/main.py:143-151. *)
From Verif Require Import Base Dict PyVal Sources Util Terminal Paths Output.

(** ** Python 2.7 *)
Definition backslash : N := 92%N.
(** [n] hexadecimal digits of [c], the most significant first. *)
Fixpoint hex_digits (n : nat) (c : N) : text :=
  match n with
  | O => []
  | Datatypes.S n' => hex_digits n' (c / 16) ++ [hex_digit (c mod 16)]
  end.
(** One character in [t.encode("ascii", "backslashreplace")], wide build. *)
Definition escaped_char (c : N) : list N :=
  if (c <? 128)%N then [c]
  else if (c <? 256)%N then backslash :: 120%N :: hex_digits 2 c
  else if (c <? 65536)%N then backslash :: 117%N :: hex_digits 4 c
  else backslash :: 85%N :: hex_digits 8 c.
Definition ascii_text (t : text) : bool := forallb (fun c => c <? 128)%N t.

(** [traceback._some_str]: [str(value)] encodes a text as ASCII; if that is not possible the characters that are
    not ASCII are escaped.  The message is what [unicode(value)] or [str(value)] gives; exceptions with a [__str__]
    that raises anything else are not modelled. *)
Definition some_str (m : pystr) : list N :=
  match m with
  | Bytes b => b
  | Text t => if ascii_text t then t else flat_map escaped_char t
  end.

(** [traceback.format_exception_only] for an exception of the class [name]; SyntaxError is not modelled. *)
Definition exception_only (name : text) (m : pystr) : list N :=
  match some_str m with
  | [] => name ++ [nl]
  | s => name ++ u ": " ++ s ++ [nl]
  end.

(** An exception with the [__traceback__] and [__cause__] that [chain_exception] sets.  Causes that lead back to the exception
    are not in this type (see Output.v). *)
Inductive exc (T : Type) := Exc (name : text) (message : pystr) (stored : option T) (cause : option (exc T)).
Arguments Exc {T}.

Section Reports.
  Context {T : Type}.
  (** [format_tb] of a traceback, joined: bytes with the lines of the source files. *)
  Variable show_tb : T -> list N.

  (** exception.py:62-68, python 2, for no limit: a text joins byte strings by decoding them as ASCII;
      UnicodeDecodeError is a ValueError. *)
  Definition format_no_chain (name : text) (m : pystr) (tb : option T) : res text :=
    let b := match tb with Some t => u "Traceback (most recent call last):" ++ [nl] ++ show_tb t | None => [] end
             ++ exception_only name m in
    if ascii_text b then Ok b else Err ValueError.

  (** exception.py:103-109: the loop, for an exception, its traceback and the parts so far. *)
  Fixpoint report_parts (tb : option T) (e : exc T) (next_tb : option T) (result : list text) : res (list text) :=
    match e with
    | Exc name m _ cause =>
      let* p := format_no_chain name m next_tb in
      match cause with
      | None => Ok (p :: result)
      | Some c =>
        report_parts tb c (match tb, c with Some _, Exc _ _ s _ => s | None, _ => None end) (p :: result)
      end
    end.

  (** exception.py:71-114 [exc_to_str] with [chain=True] where [tb] is a traceback or None. *)
  Definition report (e : exc T) (tb : option T) : res text :=
    let* parts := report_parts tb e tb [] in
    Ok (rstrip_nl (join (exc_link tb) parts)).

  (** commands/resolve.py:95-97, commands/install.py:65-72: the text for the errors. *)
  Definition errors_text (es : list (exc T)) : res text :=
    let* l := mapM (fun e => let* t := report e None in Ok (indent t 2 [32%N] true)) es in
    Ok (join [nl] l).

  (** ** Writing them *)
  Variable bad_more : list N -> nat.
  (** util.py:102-112 [print_exc]: a text is printed in the encoding of stderr ([None]: not in that encoding, UnicodeEncodeError);
      [highlight] is that of pygments, if it is installed. *)
  Variable highlight : option (text -> text).
  Variable encoding : N -> option (list N).
  Fixpoint encoded (t : text) : res (list N) :=
    match t with
    | [] => Ok []
    | c :: t' => match encoding c with
                 | None => Err ValueError
                 | Some b => let* r := encoded t' in Ok (b ++ r)
                 end
    end.
  Definition print_exc (t : text) (c : console) : res unit * console :=
    let t := match highlight with Some h => h t | None => t end in
    match encoded t with
    | Err e => (Err e, c)
    | Ok b => (Ok tt, with_err c (b ++ [nl]))
    end.

  (** commands/main.py:146-151 for an exception [e] that is a [XylemError]; [internal] if it is a
      [XylemInternalError]; [current] is the traceback of [sys.exc_info()]. *)
  Definition main_report (internal : bool) (e : exc T) (current : T) (c : console) : res unit * console :=
    if c_debug c || internal then
      match report e (Some current) with
      | Err x => (Err x, c)
      | Ok t => match print_exc t c with
                | (Err x, c') => (Err x, c')
                | (Ok _, c') => (Err (SystemExit 1), c')
                end
      end
    else
      match report e None with
      | Err x => (Err x, c)
      | Ok t => match log_error bad_more (Text t) false c with
                | (Err x, c') => (Err x, c')
                | (Ok _, c') => (Err (SystemExit 1), c')
                end
      end.

  (** commands/resolve.py:94-97, 109-110 and commands/install.py:64-74, for a list of errors: nothing happens without errors. *)
  Definition print_errors (es : list (exc T)) (c : console) : res unit * console :=
    match es with
    | [] => (Ok tt, c)
    | _ => match errors_text es with
           | Err x => (Err x, c)
           | Ok t => match log_error bad_more (Text t) false c with
                     | (Err x, c') => (Err x, c')
                     | (Ok _, c') => (Ok tt, c')
                     end
           end
    end.

  (** util.py:115-123 [custom_exception_handler]: the outcome and whether the debugger is started ([pdb.set_trace], which
      is not modelled further). *)
  Definition custom_exception_handler (interactive tty : bool) (e : exc T) (tb : T) (c : console)
    : res unit * console * bool :=
    match report e (Some tb) with
    | Err x => (Err x, c, false)
    | Ok t => let '(r, c') := print_exc t c in
              match r with
              | Err x => (Err x, c', false)
              | Ok _ => (Ok tt, c', if negb (c_pdb c') || interactive || negb tty then false else true)
              end
    end.
End Reports.

(** util.py:130-132 [running_script_name], and the condition on import, lines 135-136; [realpath] is that of the file system. *)
Definition running_script_name (realpath : text -> text) (argv0 : text) : text := List.last (split_on 47%N (realpath argv0)) [].
Definition hook_installed (realpath : text -> text) (argv0 : text) : bool :=
  eqb (running_script_name realpath argv0) (u "xylem").
