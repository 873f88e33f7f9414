(** Model of how the words of a command line become the options and keys of a command: python 2.7's argparse
    ([_parse_known_args], [_parse_optional], [_get_option_tuples], [consume_optional], [consume_positionals],
    [_SubParsersAction]) as used by commands/main.py:64-108, 117-156 and the [prepare_arguments] of the commands.
    The effect of an option on the namespace is that of CommandLine.v.  Left out: the pager of [--help], the messages of
    usage errors (on stderr), and what the namespace gets for positional arguments ([xylem_key], [cmd], [func]). *)
From Verif Require Import Base Dict PyVal Sources Paths CommandLine.

Definition dash : N := 45%N.
Definition equals_sign : N := 61%N.

(** ** The option strings of a parser *)
Definition takes_value (o : opt) : bool := match o_action o with StoreTrue => false | _ => true end.
(** arguments.py:82-85; both leave at once with status 0. *)
Definition help_option : opt := {| o_flag := u "help"; o_dest := u "help"; o_action := StoreTrue |}.
Definition version_option : opt := {| o_flag := u "version"; o_dest := u "version"; o_action := StoreTrue |}.
Definition leaves (flag : text) : bool := eqb flag (u "help") || eqb flag (u "version").
(** The one-letter strings: arguments.py:82, 86, 88, commands/update.py:35, commands/_compact_rules_file.py:47; [xylem install]
    has no short form of --dry-run. *)
Definition short_global (o : opt) : list text :=
  if eqb (o_flag o) (u "verbose") then [u "-v"] else if eqb (o_flag o) (u "debug") then [u "-d"] else [].
(** [parser._option_string_actions] for a parser with the options [p] and further strings [short]. *)
Definition option_strings (short : opt -> list text) (p : list opt) : list (text * opt) :=
  flat_map (fun o => map (fun s => (s, o)) (short o ++ [dash :: dash :: o_flag o])) p
  ++ [(u "-h", help_option); (u "--help", help_option); (u "--version", version_option)].

Section Parser.
  Variable strings : list (text * opt).

  (** ** Classification of words *)
  (** An argument; [--]; an option string, its option (none for an unknown one) and the explicit value. *)
  Inductive word_class := Plain | Sep | Opt (s : text) (o : option opt) (explicit : option text) | Ambiguous.

  (** [_get_option_tuples] for a word that begins with a dash and has another character [c]. *)
  Definition candidates (c : N) (w : text) : list word_class :=
    if eqb c dash then
      let (pre, ex) := match split_once equals_sign w with Some (a, b) => (a, Some b) | None => (w, None) end in
      map (fun p => Opt (fst p) (Some (snd p)) ex) (filter (fun p => is_prefix pre (fst p)) strings)
    else
      flat_map (fun p => if eqb (fst p) (firstn 2 w) then [Opt (fst p) (Some (snd p)) (Some (skipn 2 w))]
                         else if is_prefix w (fst p) then [Opt (fst p) (Some (snd p)) None] else []) strings.
  (** [_negative_number_matcher], ["^-\d+$|^-\d*\.\d+$"] (for ASCII digits, without a newline at the end), after the dash. *)
  Definition digit (c : N) : bool := (48 <=? c)%N && (c <=? 57)%N.
  Definition all_digits (s : text) : bool := match s with [] => false | _ => forallb digit s end.
  Definition negative_number (rest : text) : bool :=
    all_digits rest ||
    match split_once 46%N rest with Some (a, b) => forallb digit a && all_digits b | None => false end.
  (** [_parse_optional] *)
  Definition classify (w : text) : word_class :=
    match w with
    | [] => Plain
    | x :: rest =>
      if negb (eqb x dash) then Plain else
      match get w strings with
      | Some o => Opt w (Some o) None
      | None =>
        match rest with
        | [] => Plain
        | c :: _ =>
          match (match split_once equals_sign w with
                 | Some (a, b) => match get a strings with Some o => Some (Opt a (Some o) (Some b)) | None => None end
                 | None => None
                 end) with
          | Some k => k
          | None =>
            match candidates c w with
            | [k] => k
            | _ :: _ :: _ => Ambiguous
            | [] => if negative_number rest then Plain
                    else if existsb (eqb 32%N) w then Plain
                    else Opt w None None
            end
          end
        end
      end
    end.
  (** All words; an ambiguous one is a usage error before anything is done.  After [--] everything is an argument. *)
  Fixpoint classify_all (ws : list text) : res (list (text * word_class)) :=
    match ws with
    | [] => Ok []
    | w :: r =>
      if eqb w [dash; dash] then Ok ((w, Sep) :: map (fun x => (x, Plain)) r)
      else match classify w with
           | Ambiguous => Err (SystemExit 2)
           | k => let* r' := classify_all r in Ok ((w, k) :: r')
           end
    end.

  (** ** Optional arguments *)
  (** [consume_optional] for the option [o] of the string [s] with an explicit value: more one-letter options may be in it;
      the second component is an option that still needs its value from the following words. *)
  Fixpoint explicit_value (s : text) (o : opt) (value : text) : res (list occurrence * option opt) :=
    if takes_value o then Ok ([(o_flag o, Some value)], None)
    else match s with
         | _ :: c :: _ =>
           if eqb c dash then Err (SystemExit 2)
           else match value with
                | [] => Err IndexError
                | x :: value' =>
                  match get [dash; x] strings with
                  | None => Err (SystemExit 2)
                  | Some o' =>
                    match value' with
                    | [] => Ok ([(o_flag o, None)], Some o')
                    | _ => let* r := explicit_value [dash; x] o' value' in Ok ((o_flag o, None) :: fst r, snd r)
                    end
                  end
                end
         | _ => Err IndexError
         end.
  Definition consume_optional (s : text) (o : opt) (explicit : option text) (following : list (text * word_class))
    : res (list occurrence * list (text * word_class)) :=
    let* r := match explicit with Some v => explicit_value s o v | None => Ok ([], Some o) end in
    match snd r with
    | None => Ok (fst r, following)
    | Some o' =>
      if takes_value o' then
        match following with
        | (w, Plain) :: following' => Ok (fst r ++ [(o_flag o', Some w)], following')
        | _ => Err (SystemExit 2)
        end
      else Ok (fst r ++ [(o_flag o', None)], following)
    end.

  (** ** Positional arguments *)
  (** What is left to match: nothing, one argument (commands/_compact_rules_file.py:46), one or more ([nargs="+"],
      commands/install.py:40, lookup.py:35, resolve.py:61), or a command with all that follows. *)
  Inductive positional := NoPos | OnePos | ManyPos | SubPos.
  Definition is_opt (p : text * word_class) : bool := match snd p with Opt _ _ _ => true | _ => false end.
  Definition is_plain (p : text * word_class) : bool := match snd p with Plain => true | _ => false end.
  Definition is_sep (p : text * word_class) : bool := match snd p with Sep => true | _ => false end.
  Fixpoint span {A} (f : A -> bool) (l : list A) : list A * list A :=
    match l with
    | x :: l' => if f x then let (a, b) := span f l' in (x :: a, b) else ([], l)
    | [] => ([], [])
    end.
  (** [_get_values]: the first [--] is not a value. *)
  Fixpoint without_sep (l : list text) : list text :=
    match l with
    | w :: l' => if eqb w [dash; dash] then l' else w :: without_sep l'
    | [] => []
    end.
  (** [consume_positionals]: the values, if the pattern matches, and the remaining words. *)
  Definition consume_positionals (pos : positional) (ws : list (text * word_class))
    : option (list text * list (text * word_class)) :=
    match pos with
    | NoPos => None
    | OnePos =>
      let (seps, r) := span is_sep ws in
      match r with
      | (w, Plain) :: r' => let (seps', r'') := span is_sep r' in Some (without_sep (map fst seps ++ w :: map fst seps'), r'')
      | _ => None
      end
    | ManyPos =>
      let (run, r) := span (fun p => negb (is_opt p)) ws in
      if existsb is_plain run then Some (without_sep (map fst run), r) else None
    | SubPos =>
      let (seps, r) := span is_sep ws in
      match r with
      | (w, Plain) :: _ => Some (map fst ws, [])
      | _ => None
      end
    end.

  (** ** The loop of [_parse_known_args] *)
  (** What happens, in this order. *)
  Inductive event :=
  | EvOpt (oc : occurrence) | EvArgs (values : list text) | EvExtra (w : text) | EvFail (e : exn).
  Fixpoint parse_words (fuel : nat) (pos : positional) (ws : list (text * word_class)) : list event :=
    match fuel with
    | O => []
    | Datatypes.S fuel' =>
      if existsb is_opt ws then
        match ws with
        | (w, Opt s None _) :: r => EvExtra w :: parse_words fuel' pos r
        | (w, Opt s (Some o) ex) :: r =>
          match consume_optional s o ex r with
          | Err e => [EvFail e]
          | Ok (occs, r') => map EvOpt occs ++ parse_words fuel' pos r'
          end
        | _ =>
          match consume_positionals pos ws with
          | Some (values, r) => EvArgs values :: parse_words fuel' NoPos r
          | None => let (skipped, r) := span (fun p => negb (is_opt p)) ws in
                    map (fun p => EvExtra (fst p)) skipped ++ parse_words fuel' pos r
          end
        end
      else
        match consume_positionals pos ws with
        | Some (values, r) => EvArgs values :: map (fun p => EvExtra (fst p)) r
        | None => map (fun p => EvExtra (fst p)) ws ++ match pos with NoPos => [] | _ => [EvFail (SystemExit 2)] end
        end
    end.
  Definition events (pos : positional) (argv : list text) : list event :=
    match classify_all argv with
    | Err e => [EvFail e]
    | Ok ws => parse_words (Datatypes.S (List.length ws)) pos ws
    end.
End Parser.

(** ** What the events do *)
Definition take_option (p : list opt) (ns : namespace) (oc : occurrence) : res namespace :=
  if leaves (fst oc) then Err (SystemExit 0) else take p ns oc.
(** The parser of a command: the namespace, the positional arguments, and whether words were not recognised. *)
Fixpoint run_events (p : list opt) (evs : list event) (ns : namespace) (keys : list text) (extra : bool)
  : res (namespace * list text * bool) :=
  match evs with
  | [] => Ok (ns, keys, extra)
  | EvOpt oc :: r => let* ns' := take_option p ns oc in run_events p r ns' keys extra
  | EvArgs l :: r => run_events p r ns l extra
  | EvExtra _ :: r => run_events p r ns keys true
  | EvFail e :: _ => Err e
  end.

(** A command: its options, with the one-letter strings, and its positional arguments. *)
Record command := { c_options : list opt; c_short : opt -> list text; c_positional : positional }.

(** [_SubParsersAction.__call__]; [fresh] as in [call_subparser]. *)
Definition run_command (fresh : bool) (c : command) (argv : list text) (ns : namespace)
  : res (namespace * list text * bool) :=
  let evs := events (option_strings (c_short c) (c_options c)) (c_positional c) argv in
  if fresh then
    let* r := run_events (c_options c) evs (add_defaults (c_options c) []) [] false in
    let '(sns, keys, extra) := r in
    Ok (fold_left (fun ns q => set (fst q) (snd q) ns) sns ns, keys, extra)
  else run_events (c_options c) evs (add_defaults (c_options c) ns) [] false.

(** The main parser: the namespace, the command with its positional arguments, and whether words were not recognised. *)
Fixpoint main_events (fresh : bool) (top : list opt) (commands : text -> option command) (evs : list event)
    (ns : namespace) (called : option (text * list text)) (extra : bool) : res (namespace * option (text * list text) * bool) :=
  match evs with
  | [] => Ok (ns, called, extra)
  | EvOpt oc :: r => let* ns' := take_option top ns oc in main_events fresh top commands r ns' called extra
  | EvArgs (name :: rest) :: r =>
    match commands name with
    | None => Err (SystemExit 2)
    | Some c =>
      let* x := run_command fresh c rest ns in
      let '(ns', keys, extra') := x in
      main_events fresh top commands r ns' (Some (name, keys)) (extra || extra')
    end
  | EvArgs [] :: _ => Err IndexError
  | EvExtra _ :: r => main_events fresh top commands r ns called true
  | EvFail e :: _ => Err e
  end.

(** [parser.parse_args()], commands/main.py:131: usage errors leave with status 2, also for words that are not recognised. *)
Definition parse_argv (fresh : bool) (top : list opt) (commands : text -> option command) (argv : list text)
  : res (namespace * option (text * list text)) :=
  let* r := main_events fresh top commands (events (option_strings short_global top) SubPos argv) (add_defaults top []) None false in
  let '(ns, called, extra) := r in
  if extra then Err (SystemExit 2) else Ok (ns, called).

(** The bundled commands, setup.py and commands/*.py: own options, short strings and positional arguments. *)
Definition short_n (o : opt) : list text := if eqb (o_flag o) (u "dry-run") then [u "-n"] else [].
Definition short_w (o : opt) : list text := if eqb (o_flag o) (u "write") then [u "-w"] else [].
Definition bundled_command (d : Config.desc) (name : text) : option command :=
  let make own short pos := Some {| c_options := command_options d own;
                                    c_short := fun o => short o ++ short_global o; c_positional := pos |} in
  if eqb name (u "install") then make install_options (fun _ => []) ManyPos
  else if eqb name (u "resolve") then make resolve_options (fun _ => []) ManyPos
  else if eqb name (u "lookup") then make [] (fun _ => []) ManyPos
  else if eqb name (u "update") then make update_options short_n NoPos
  else if eqb name (u "_compact_rules_file") then make compact_options short_w OnePos
  else None.
