(** Model of message output: xylem/exception.py, text_utils.py, log_utils.py, the text helpers
    and context managers of util.py, and the global arguments of arguments.py. *)
From Verif Require Import Base Dict PyVal Sources Util Terminal Paths.

Definition nl : N := 10%N.

(** ** exception.py:62-135 *)
Section Exceptions.
  (** Exception objects [E] and tracebacks [T].  Exceptions are true in a boolean context. *)
  Context {E T : Type}.
  Variable same : E -> E -> bool.                  (* [is] *)
  Variable format_no_chain : E -> option T -> text. (* exception.py:62-68, for a fixed limit *)
  Variable cause : E -> option E.                  (* getattr(e, '__cause__', None) *)
  Variable traceback : E -> option T.              (* getattr(e, '__traceback__', None) *)

  Inductive tb_arg := TbTrue | TbFalse | TbNone | Tb (t : T).

  (** exception.py:90-100, python 2; [exc_info] is what sys.exc_info() gives. *)
  Definition actual_tb (exc_info : option (E * T)) (exc : E) (tb : tb_arg) : option T :=
    match tb with
    | TbTrue => match exc_info with
                | Some (e, t) => if same e exc then Some t else None
                | None => None
                end
    | TbFalse | TbNone => None
    | Tb t => Some t
    end.

  (** exception.py:103-109: the loop; [None] means that it has not ended after [fuel] rounds. *)
  Fixpoint exc_parts (fuel : nat) (tb : option T) (next_exc : option E) (next_tb : option T)
      (result : list text) : option (list text) :=
    match next_exc with
    | None => Some result
    | Some e =>
      match fuel with
      | O => None
      | S fuel' =>
        let next := cause e in
        exc_parts fuel' tb next
          (match tb with None => None | Some _ => match next with Some c => traceback c | None => None end end)
          (format_no_chain e next_tb :: result)
      end
    end.

  Definition cause_text : text := u "The above error was the direct cause of the following:".
  (** exception.py:110-114 *)
  Definition exc_link (tb : option T) : text :=
    match tb with
    | Some _ => [nl] ++ cause_text ++ [nl; nl]
    | None => u " --- " ++ cause_text ++ [nl]
    end.

  (** [s.rstrip("\n")] *)
  Fixpoint drop_nl (s : text) : text :=
    match s with c :: s' => if eqb c nl then drop_nl s' else s | [] => [] end.
  Definition rstrip_nl (s : text) : text := rev (drop_nl (rev s)).

  (** exception.py:71-114 [exc_to_str] *)
  Definition exc_to_str (fuel : nat) (exc_info : option (E * T)) (exc : E) (tb : tb_arg) (chain : bool) : option text :=
    let tb := actual_tb exc_info exc tb in
    if chain then
      match exc_parts fuel tb (Some exc) tb [] with
      | Some parts => Some (rstrip_nl (join (exc_link tb) parts))
      | None => None
      end
    else Some (format_no_chain exc tb).
End Exceptions.
Arguments tb_arg T : clear implicits.

(** exception.py:117-132 [chain_exception], python 2, on a store of exception objects that are
    created one after the other; an object is named by its number. *)
Record exc_object (T : Type) := { x_text : option T -> text; x_cause : option nat; x_tb : option T }.
Arguments x_text {T}. Arguments x_cause {T}. Arguments x_tb {T}.
Section Store.
  Context {T : Type}.
  Notation store := (list (exc_object T)).
  (** the object number [k] with another traceback *)
  Fixpoint set_tb (s : store) (k : nat) (t : T) : store :=
    match s, k with
    | [], _ => []
    | o :: s', O => {| x_text := x_text o; x_cause := x_cause o; x_tb := Some t |} :: s'
    | o :: s', S k' => o :: set_tb s' k' t
    end.
  (** The message of the new exception is [fmt]; returns the store and the new number. *)
  Definition chain_exception (exc_info : option (nat * T)) (s : store) (fmt : option T -> text) (from : nat) : store * nat :=
    let s := match exc_info with
             | Some (e, t) => if Nat.eqb e from then set_tb s from t else s
             | None => s
             end in
    (s ++ [{| x_text := fmt; x_cause := Some from; x_tb := None |}], List.length s).
  (** Raising an exception without a cause. *)
  Definition new_exception (s : store) (fmt : option T -> text) : store * nat :=
    (s ++ [{| x_text := fmt; x_cause := None; x_tb := None |}], List.length s).
  Definition store_cause (s : store) (k : nat) : option nat :=
    match nth_error s k with Some o => x_cause o | None => None end.
  Definition store_text (s : store) (k : nat) (t : option T) : text :=
    match nth_error s k with Some o => x_text o t | None => [] end.
  Definition store_tb (s : store) (k : nat) : option T :=
    match nth_error s k with Some o => x_tb o | None => None end.
End Store.

(** ** text_utils.py:31-90: UTF-8 *)
(** Encoding of one code point; python 2 on a wide build encodes surrogates like other code
    points. *)
Definition encode_char (c : N) : list N :=
  (if c <? 128 then [c]
   else if c <? 2048 then [192 + c / 64; 128 + c mod 64]
   else if c <? 65536 then [224 + c / 4096; 128 + (c / 64) mod 64; 128 + c mod 64]
   else [240 + c / 262144; 128 + (c / 4096) mod 64; 128 + (c / 64) mod 64; 128 + c mod 64])%N.
Definition encode (t : text) : list N := flat_map encode_char t.

(** A continuation byte *)
Definition cont (b : N) : bool := ((128 <=? b) && (b <? 192))%N.

(** The first character of a byte string and the number of bytes it takes, if they are valid
    (the table utf8_code_length of python 2.7: start bytes C2-DF, E0-EF, F0-F4; no overlong
    forms, nothing beyond 10FFFF; surrogates are accepted). *)
Definition decode_char (s : list N) : option (N * nat) :=
  match s with
  | [] => None
  | a :: s' =>
    (if a <? 128 then Some (a, 1%nat)
     else if a <? 194 then None
     else if a <? 224 then
       match s' with
       | b :: _ => if cont b then Some ((a - 192) * 64 + (b - 128), 2%nat) else None
       | _ => None
       end
     else if a <? 240 then
       match s' with
       | b :: c :: _ =>
         if cont b && cont c && negb ((a =? 224) && (b <? 160))
         then Some ((a - 224) * 4096 + (b - 128) * 64 + (c - 128), 3%nat) else None
       | _ => None
       end
     else if a <? 245 then
       match s' with
       | b :: c :: d :: _ =>
         if cont b && cont c && cont d && negb ((a =? 240) && (b <? 144)) && negb ((a =? 244) && (143 <? b))
         then Some ((a - 240) * 262144 + (b - 128) * 4096 + (c - 128) * 64 + (d - 128), 4%nat) else None
       | _ => None
       end
     else None)%N
  end.

Section Decode.
  (** How many bytes after the first one an invalid sequence takes: arbitrary. *)
  Variable bad_more : list N -> nat.
  Definition replacement : N := 65533%N.

  (** [bytes.decode('utf-8', 'replace')]; [skip] bytes of the current character remain. *)
  Fixpoint decode_skip (s : list N) (skip : nat) : text :=
    match s with
    | [] => []
    | a :: s' =>
      match skip with
      | S k => decode_skip s' k
      | O => match decode_char s with
             | Some (c, n) => c :: decode_skip s' (n - 1)
             | None => replacement :: decode_skip s' (bad_more s)
             end
      end
    end.
  Definition decode (s : list N) : text := decode_skip s 0.

  (** Python strings: text or bytes. *)
  Inductive pystr := Text (t : text) | Bytes (b : list N).
  (** text_utils.py:31-36 and 68-73, for strings; other objects are not modelled. *)
  Definition to_str (x : pystr) : text := match x with Text t => t | Bytes b => decode b end.
  Definition to_bytes (x : pystr) : list N := match x with Text t => encode t | Bytes b => b end.

  (** ** log_utils.py:63-133, arguments.py:99-112 *)
  (** The settings of the process and what has been written; [ansi] is the table of
      terminal_color.py. *)
  Record console := {
    c_debug : bool; c_verbose : bool; c_pdb : bool; c_ansi : dict text text;
    c_out : list N; c_err : list N
  }.
  Definition with_out (c : console) (b : list N) : console :=
    {| c_debug := c_debug c; c_verbose := c_verbose c; c_pdb := c_pdb c; c_ansi := c_ansi c;
       c_out := c_out c ++ b; c_err := c_err c |}.
  Definition with_err (c : console) (b : list N) : console :=
    {| c_debug := c_debug c; c_verbose := c_verbose c; c_pdb := c_pdb c; c_ansi := c_ansi c;
       c_out := c_out c; c_err := c_err c ++ b |}.
  (** [print(to_bytes(msg), file=...)], python 2: the bytes and a line feed. *)
  Definition printed (msg : text) : list N := encode msg ++ [nl].
  Definition ansi_code (c : console) (name : string) : res text := getitem (u name) (c_ansi c).

  (** log_utils.py:63-77 *)
  Definition log_debug (msg : pystr) (c : console) : res text * console :=
    match ansi_code c "greenf", ansi_code c "reset" with
    | Ok g, Ok r => let m := g ++ to_str msg ++ r in
                    (Ok m, if c_debug c then with_err c (printed m) else c)
    | _, _ => (Err KeyError, c)
    end.
  (** log_utils.py:80-91 *)
  Definition log_info (msg : pystr) (c : console) : res text * console :=
    match ansi_code c "reset" with
    | Ok r => let m := to_str msg ++ r in (Ok m, with_out c (printed m))
    | Err e => (Err e, c)
    end.
  (** log_utils.py:94-106 *)
  Definition log_warning (msg : pystr) (c : console) : res text * console :=
    match ansi_code c "yellowf", ansi_code c "reset" with
    | Ok y, Ok r => let m := y ++ to_str msg ++ r in (Ok m, with_err c (printed m))
    | _, _ => (Err KeyError, c)
    end.
  (** log_utils.py:109-122.  [sys.exit(message)] raises SystemExit; when it reaches the top
      level, the message goes to stderr and the exit code is 1. *)
  Definition log_error (msg : pystr) (exit : bool) (c : console) : res text * console :=
    match ansi_code c "redf", ansi_code c "boldon", ansi_code c "reset" with
    | Ok x, Ok b, Ok r =>
      let m := x ++ b ++ to_str msg ++ r in
      if exit then (Err (SystemExit 1), with_err c (printed m)) else (Ok m, with_err c (printed m))
    | _, _, _ => (Err KeyError, c)
    end.
  (** log_utils.py:125-133; [file or sys.stderr] *)
  Definition log_info_v (msg : pystr) (c : console) : res text * console :=
    if c_verbose c then
      match ansi_code c "reset" with
      | Ok r => let m := to_str msg ++ r in (Ok m, with_err c (printed m))
      | Err e => (Err e, c)
      end
    else (Ok [], c).

  Inductive log_call := Debug (m : pystr) | Info (m : pystr) | Warning (m : pystr) | Error (m : pystr) | InfoV (m : pystr).
  Definition log (l : log_call) (c : console) : res text * console :=
    match l with
    | Debug m => log_debug m c
    | Info m => log_info m c
    | Warning m => log_warning m c
    | Error m => log_error m false c
    | InfoV m => log_info_v m c
    end.

  (** arguments.py:99-111: the flags and environment variables that concern the console.
      [enable_verbose] and [disable_ANSI_colors] are called only if the flag is given. *)
  Record global_flags := { g_debug : bool; g_pdb : bool; g_verbose : bool; g_no_color : bool;
                           g_env_debug : bool; g_env_pdb : bool }.
  Definition handle_global_arguments (a : global_flags) (c : console) : console :=
    {| c_debug := g_debug a || g_env_debug a;
       c_pdb := g_pdb a || g_env_pdb a;
       c_verbose := if g_verbose a then true else c_verbose c;
       c_ansi := if g_no_color a then map (fun p => (fst p, [])) (c_ansi c) else c_ansi c;
       c_out := c_out c; c_err := c_err c |}.
End Decode.

(** The state after importing the modules: colours on, debug according to the environment
    (log_utils.py:32, 60; util.py:89). *)
Definition fresh_console (env_debug : bool) : console :=
  {| c_debug := env_debug; c_verbose := false; c_pdb := false; c_ansi := ansi_enabled; c_out := []; c_err := [] |}.

(** ** util.py:193-196 [indent]; [character] is usually one blank. *)
Definition indent (s : text) (width : nat) (character : text) (exclude_first : bool) : text :=
  let indentation := List.concat (repeat character width) in
  (if exclude_first then [] else indentation) ++ join (nl :: indentation) (split_on nl s).

(** ** Context managers, util.py:36-79 *)
Section Managers.
  (** The state of the process outside of the parts named here is [W].  The operations may
      fail. *)
  Context {W : Type}.
  Variable getcwd : W -> res text.
  Variable chdir : text -> W -> res unit * W.
  Variable exists_ : text -> W -> bool.
  Variable mkdtemp : text -> W -> res text * W.
  Variable rmtree : text -> W -> res unit * W.

  (** [with manager: body]: [enter] gives the value of the manager; [exit] runs after any
      outcome of the body, whose exception is raised again unless [exit] raises itself (the
      managers return None). *)
  Definition with_ {A B} (enter : W -> res A * W) (exit : A -> W -> res unit * W)
      (body : A -> W -> res B * W) (w : W) : res B * W :=
    match enter w with
    | (Err e, w1) => (Err e, w1)
    | (Ok a, w1) =>
      let (r, w2) := body a w1 in
      match exit a w2 with
      | (Ok _, w3) => (r, w3)
      | (Err e, w3) => (Err e, w3)
      end
    end.

  (** [if original_cwd and os.path.exists(original_cwd): os.chdir(original_cwd)] *)
  Definition back_to (original : text) (w : W) : res unit * W :=
    match original with
    | [] => (Ok tt, w)
    | _ => if exists_ original w then chdir original w else (Ok tt, w)
    end.

  (** util.py:36-48 *)
  Definition change_directory {B} (directory : text) (body : W -> res B * W) : W -> res B * W :=
    with_ (fun w => match getcwd w with
                    | Err e => (Err e, w)
                    | Ok original => match chdir directory w with
                                     | (Ok _, w') => (Ok original, w')
                                     | (Err e, w') => (Err e, w')
                                     end
                    end)
          back_to (fun _ => body).

  (** util.py:64-79.  The body gets the path. *)
  Definition temporary_directory {B} (prefix : text) (body : text -> W -> res B * W) : W -> res B * W :=
    with_ (fun w => match getcwd w with
                    | Err e => (Err e, w)
                    | Ok original =>
                      match mkdtemp prefix w with
                      | (Err e, w1) => (Err e, w1)
                      | (Ok p, w1) => match chdir p w1 with
                                      | (Ok _, w2) => (Ok (original, p), w2)
                                      | (Err e, w2) => (Err e, w2)
                                      end
                      end
                    end)
          (fun a w =>
             let (original, p) := a : text * text in
             match (match p with [] => (Ok tt, w) | _ => if exists_ p w then rmtree p w else (Ok tt, w) end) with
             | (Err e, w1) => (Err e, w1)
             | (Ok _, w1) => back_to original w1
             end)
          (fun a => body (snd a)).
End Managers.

(** util.py:51-61: stdout and stderr of the process are replaced by new buffers.  A stream is a
    number, its content is in the table. *)
Record stdio := { sys_stdout : nat; sys_stderr : nat; contents : list (list N) }.
Definition write (k : nat) (b : list N) (s : stdio) : stdio :=
  {| sys_stdout := sys_stdout s; sys_stderr := sys_stderr s;
     contents := (fix go (l : list (list N)) k := match l, k with
                                    | [], _ => []
                                    | c :: l', O => (c ++ b) :: l'
                                    | c :: l', S k' => c :: go l' k'
                                    end) (contents s) k |}.
Definition redirected_stdio {B} (body : nat -> nat -> stdio -> res B * stdio) : stdio -> res B * stdio :=
  with_ (fun s => let n := List.length (contents s) in
           (Ok (sys_stdout s, sys_stderr s, n),
            {| sys_stdout := n; sys_stderr := S n; contents := contents s ++ [[]; []] |}))
        (fun a s => let '(o, e, _) := a : nat * nat * nat in
           (Ok tt, {| sys_stdout := o; sys_stderr := e; contents := contents s |}))
        (fun a => body (snd a) (S (snd a))).
