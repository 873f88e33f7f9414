(** Model of xylem/terminal_color.py: colour tables, [fmt] and [sanitize]. *)
From Verif Require Import Base Dict PyVal Sources Util.

(** [s.replace(old, new)] for non-empty [old]: leftmost, non-overlapping.  [skip]
    counts the characters of an occurrence that are still to be dropped. *)
Fixpoint replace_skip (old new : text) (s : text) (skip : nat) : text :=
  match s with
  | [] => []
  | c :: s' =>
    match skip with
    | S k => replace_skip old new s' k
    | O => if is_prefix old s then new ++ replace_skip old new s' (List.length old - 1)
           else c :: replace_skip old new s' 0
    end
  end.
Definition replace (s old new : text) : text := replace_skip old new s 0.

Definition at_ : N := 64%N.
Definition lbrace : N := 123%N.
Definition rbrace : N := 125%N.

(** string.Template (python 2.7): identifiers are [[_a-z][_a-z0-9]*], compiled with
    IGNORECASE and without UNICODE, i.e. ASCII only. *)
Definition id_start (c : N) : bool :=
  (eqb c 95 || (97 <=? c) && (c <=? 122) || (65 <=? c) && (c <=? 90))%N.
Definition id_char (c : N) : bool := (id_start c || (48 <=? c) && (c <=? 57))%N.
Fixpoint id_span (s : text) : text :=
  match s with
  | c :: s' => if id_char c then c :: id_span s' else []
  | [] => []
  end.
Definition ident (s : text) : text :=
  match s with
  | c :: _ => if id_start c then id_span s else []
  | [] => []
  end.

(** What follows the delimiter '@': result and number of characters consumed.
    The alternatives are tried in the order of the pattern: escaped, named, braced,
    invalid (ValueError). *)
Definition template_item (m : dict text text) (s : text) : res (text * nat) :=
  match s with
  | [] => Err ValueError
  | c :: s' =>
    if eqb c at_ then Ok ([at_], 1)
    else match ident s with
         | (_ :: _) as name => let* v := getitem name m in Ok (v, List.length name)
         | [] =>
           if eqb c lbrace then
             match ident s' with
             | (_ :: _) as name =>
               match skipn (List.length name) s' with
               | d :: _ => if eqb d rbrace
                           then let* v := getitem name m in Ok (v, List.length name + 2)
                           else Err ValueError
               | [] => Err ValueError
               end
             | [] => Err ValueError
             end
           else Err ValueError
         end
  end.

(** [ColorTemplate(s).substitute(m)], terminal_color.py:99-100. *)
Fixpoint substitute (m : dict text text) (s : text) (skip : nat) : res text :=
  match s with
  | [] => Ok []
  | c :: s' =>
    match skip with
    | S k => substitute m s' k
    | O =>
      if eqb c at_ then
        let* '(v, n) := template_item m s' in
        let* r := substitute m s' n in Ok (v ++ r)
      else let* r := substitute m s' 0 in Ok (c :: r)
    end
  end.

(** Decimal notation of small numbers, as in ['{0}[{1}m'.format(escape, n)]. *)
Definition dec2 (n : N) : text :=
  if (n <? 10)%N then [(48 + n)%N] else [(48 + n / 10)%N; (48 + n mod 10)%N].
Definition esc (n : N) : text := [27%N; 91%N] ++ dec2 n ++ [109%N].

(** terminal_color.py:39-80 [enable_ANSI_colors]. *)
Definition color_order : list string :=
  ["black"; "red"; "green"; "yellow"; "blue"; "purple"; "cyan"; "white"]%string.
Definition short_colors : list (string * string) :=
  [("black","k"); ("red","r"); ("green","g"); ("yellow","y"); ("blue","b");
   ("purple","p"); ("cyan","c"); ("white","w")]%string.
Definition short (c : string) : string :=
  match find (fun p => String.eqb c (fst p)) short_colors with Some p => snd p | None => EmptyString end.
Fixpoint enumerate {A} (n : N) (l : list A) : list (N * A) :=
  match l with [] => [] | x :: l' => (n, x) :: enumerate (n + 1)%N l' end.

Definition base_codes : list (string * N) :=
  [("reset",0); ("|",0); ("boldon",1); ("!",1); ("italicson",3); ("/",3); ("ulon",4);
   ("_",4); ("invon",7); ("boldoff",22); ("italicsoff",23); ("uloff",24); ("invoff",27)]%string%N.

Definition ansi_enabled : dict text text :=
  let d := (u "escape", [27%N]) :: map (fun p => (u (fst p), esc (snd p))) base_codes in
  let d := fold_left (fun d p => let c := u (snd p) in let v := esc (30 + fst p)%N in
             set (u (short (snd p)) ++ u "f") v (set (c ++ u "f") v (set c v d)))
             (enumerate 0 color_order) d in
  let d := fold_left (fun d p => let c := u (snd p) in let v := esc (40 + fst p)%N in
             set (u (short (snd p)) ++ u "b") v (set (c ++ u "b") v d))
             (enumerate 0 color_order) d in
  set (u "atbar") (u "@|") (set (u "atunderscore") (u "@_")
    (set (u "atfwdslash") (u "@/") (set (u "atexclimation") (u "@!") d))).

(** terminal_color.py:83-91 [disable_ANSI_colors]. *)
Definition ansi_disabled : dict text text := map (fun p => (fst p, [])) ansi_enabled.

(** terminal_color.py:103-112 [sanitize]. *)
Definition sanitize (msg : text) : text :=
  let msg := replace msg (u "@") (u "@@") in
  let msg := replace msg (u "{") (u "{{") in
  let msg := replace msg (u "}") (u "}}") in
  let msg := replace msg (u "@@!") (u "@{atexclimation}") in
  let msg := replace msg (u "@@/") (u "@{atfwdslash}") in
  let msg := replace msg (u "@@_") (u "@{atunderscore}") in
  replace msg (u "@@|") (u "@{atbar}").

(** terminal_color.py:115-123 [fmt]; the colour table is an argument. *)
Definition fmt (ansi : dict text text) (msg : text) : res text :=
  let msg := replace msg (u "@!") (u "@{boldon}") in
  let msg := replace msg (u "@/") (u "@{italicson}") in
  let msg := replace msg (u "@_") (u "@{ulon}") in
  let msg := replace msg (u "@|") (u "@{reset}") in
  let* t := substitute ansi msg 0 in
  let* r := getitem (u "reset") ansi in
  Ok (t ++ r).
