(** Model of [ConfigHelpFormatter] (xylem/config_utils.py:276-324): how help texts and
    descriptions are laid out for [--help], with the parts of python 2.7's [textwrap] it calls. *)
From Verif Require Import Base Dict PyVal Sources Util Paths License.

(** [\s] of a pattern without the UNICODE flag (python 2.7): blank, \t, \n, \v, \f, \r. *)
Definition ascii_space (c : N) : bool := ((9 <=? c) && (c <=? 13) || (c =? 32))%N.
Definition blank_char : N := 32%N.
Definition tab_char : N := 9%N.

(** [_paragraph_break_matcher.split(text)], config_utils.py:297, 303: split at maximal runs of three or more
    newlines.  [cur] is the current paragraph, reversed, [n] the number of newlines since. *)
Fixpoint para_split (cur : text) (n : nat) (s : text) : list text :=
  match s with
  | [] => if 3 <=? n then [rev cur; []] else [rev (repeat newline n ++ cur)]
  | c :: s' =>
    if eqb c newline then para_split cur (S n) s'
    else if 3 <=? n then rev cur :: para_split [c] 0 s'
    else para_split (c :: repeat newline n ++ cur) 0 s'
  end.

(** [_line_break_matcher.split(para)], config_utils.py:298, 310: split at every pair of newlines, from the left. *)
Fixpoint line_split (cur : text) (s : text) : list text :=
  match s with
  | [] => [rev cur]
  | c :: r =>
    match r with
    | d :: s' => if eqb c newline && eqb d newline then rev cur :: line_split [] s' else line_split (c :: cur) r
    | [] => line_split (c :: cur) r
    end
  end.

(** [_raw_marker_matcher.match(para)] and [sub], config_utils.py:299, 304-306: the paragraph with the marker
    ([^\s*R\|]) replaced by as many blanks; [None] if there is no marker. *)
Fixpoint raw_marker (n : nat) (s : text) : option text :=
  match s with
  | c :: s' =>
    if ascii_space c then raw_marker (S n) s'
    else match s' with
         | d :: s'' => if eqb c 82%N && eqb d 124%N then Some (repeat blank_char (S (S n)) ++ s'') else None
         | [] => None
         end
  | [] => None
  end.

(** ** textwrap.dedent *)

(** The lines of a text for [^] and [$] in a MULTILINE pattern. *)
Fixpoint nl_lines (cur s : text) : list text :=
  match s with
  | [] => [rev cur]
  | c :: s' => if eqb c newline then rev cur :: nl_lines [] s' else nl_lines (c :: cur) s'
  end.
Fixpoint nl_join (l : list text) : text :=
  match l with
  | [] => []
  | [x] => x
  | x :: l' => x ++ newline :: nl_join l'
  end.
Definition is_blank (c : N) : bool := eqb c blank_char || eqb c tab_char.
(** [_whitespace_only_re] *)
Definition clear_blank_line (l : text) : text := if forallb is_blank l then [] else l.
(** [_leading_whitespace_re] *)
Fixpoint indentation (l : text) : text :=
  match l with
  | c :: l' => if is_blank c then c :: indentation l' else []
  | [] => []
  end.
Fixpoint common_prefix (a b : text) : text :=
  match a, b with
  | x :: a', y :: b' => if eqb x y then x :: common_prefix a' b' else []
  | _, _ => []
  end.
(** The loop over [indents]: all branches compute the common prefix of the margin so far and
    the next indentation. *)
Definition margin_of (indents : list text) : text :=
  match indents with
  | [] => []
  | i :: l => fold_left common_prefix l i
  end.
Fixpoint strip_prefix (p l : text) : option text :=
  match p, l with
  | [], _ => Some l
  | x :: p', y :: l' => if eqb x y then strip_prefix p' l' else None
  | _, _ => None
  end.
(** [re.sub(r'(?m)^' + margin, '', text)] on one line *)
Definition remove_margin (m l : text) : text := match strip_prefix m l with Some l' => l' | None => l end.
(** [textwrap.dedent] *)
Definition dedent (s : text) : text :=
  let ls := map clear_blank_line (nl_lines [] s) in
  let margin := margin_of (map indentation (filter (fun l => negb (eqb l [])) ls)) in
  nl_join (map (remove_margin margin) ls).

(** [splitlines()]: without the line ends. *)
Definition without_end (l : text) : text :=
  match rev l with
  | c :: r => if eqb c newline then match r with
                                    | d :: r' => if eqb d carriage then rev r' else rev r
                                    | [] => []
                                    end
              else if line_end c then rev r else l
  | [] => l
  end.
Definition plain_lines (s : text) : list text := map without_end (splitlines s).

(** ** textwrap.wrap *)
Section Wrap.
  (** The pieces at whose borders [textwrap] may break lines, [TextWrapper._split] ([wordsep_re]: words, parts
      of words up to hyphens, dashes, and the space between them).  An arbitrary function here; what is
      assumed of it is stated in the theorems. *)
  Variable chunks_of : text -> list text.

  (** The inner loop of [_wrap_chunks]: the chunks that fit in the line, and the rest. *)
  Fixpoint take_line (avail used : nat) (cs : list text) : list text * list text :=
    match cs with
    | [] => ([], [])
    | c :: cs' =>
      if used + List.length c <=? avail then
        let (l, r) := take_line avail (used + List.length c) cs' in (c :: l, r)
      else ([], cs)
    end.

  (** [_handle_long_word] (break_long_words) *)
  Definition break_long (avail : nat) (l r : list text) : list text * list text :=
    match r with
    | c :: r' =>
      if avail <? List.length c then
        let left := if avail <? 1 then 1 else avail - List.length (List.concat l) in
        (l ++ [firstn left c], skipn left c :: r')
      else (l, r)
    | [] => (l, r)
    end.

  Definition all_space (c : text) : bool := eqb (strip c) [].

  (** [drop_whitespace] at the beginning of all lines but the first *)
  Definition drop_head (have_lines : bool) (cs : list text) : list text :=
    match cs with
    | c :: cs' => if have_lines && all_space c then cs' else cs
    | [] => []
    end.
  (** [drop_whitespace] at the end of a line *)
  Definition drop_last (l : list text) : list text :=
    match rev l with
    | c :: r => if all_space c then rev r else l
    | [] => []
    end.

  (** [TextWrapper._wrap_chunks] with the same indentation for all lines.  One unit of [fuel] per line; that
      it suffices is part of the theorems. *)
  Fixpoint wrap_chunks (fuel : nat) (avail : nat) (indent : text) (have_lines : bool) (cs : list text) : list text :=
    match fuel, cs with
    | S fuel', _ :: _ =>
      let (l, r) := take_line avail 0 (drop_head have_lines cs) in
      let (l, r) := break_long avail l r in
      match drop_last l with
      | [] => wrap_chunks fuel' avail indent have_lines r
      | l' => (indent ++ List.concat l') :: wrap_chunks fuel' avail indent true r
      end
    | _, _ => []
    end.

  Definition fuel_for (cs : list text) : nat := S (list_sum (map (fun c => S (List.length c)) cs)).

  (** [textwrap.wrap(text, width, initial_indent=indent, subsequent_indent=indent)]; its normalisation of white
      space has nothing left to do after config_utils.py:311. *)
  Definition textwrap_wrap (s : text) (width : nat) (indent : text) : res (list text) :=
    if Nat.eqb width 0 then Err ValueError
    else let cs := chunks_of s in
         Ok (wrap_chunks (fuel_for cs) (width - List.length indent) indent false cs).

  (** ** ConfigHelpFormatter *)

  (** [self._whitespace_matcher.sub(' ', s)] *)
  Fixpoint collapse (in_space : bool) (s : text) : text :=
    match s with
    | [] => []
    | c :: s' =>
      if ascii_space c then if in_space then collapse true s' else blank_char :: collapse true s'
      else c :: collapse false s'
    end.
  (** config_utils.py:311 *)
  Definition normal_block (s : text) : text := strip (collapse false s).

  (** config_utils.py:304-314: one paragraph *)
  Definition para_lines (width : nat) (indent : text) (para : text) : res (list text) :=
    match raw_marker 0 para with
    | Some body => Ok (map (fun l => indent ++ l) (plain_lines (dedent body)))
    | None =>
      let* ls := mapM (fun b => textwrap_wrap (normal_block b) width indent) (line_split [] para) in
      Ok (List.concat ls)
    end.

  (** [_wrap_paragraphs], config_utils.py:301-318; [_split_lines] (320-321) is the case [indent = []] and
      [_fill_text] (323-324) joins the lines. *)
  Definition wrap_paragraphs (width : nat) (indent : text) (s : text) : res (list text) :=
    let* ls := mapM (para_lines width indent) (para_split [] 0 s) in
    Ok (removelast (List.concat (map (fun l => l ++ [[]]) ls))).
  Definition split_lines (s : text) (width : nat) : res (list text) := wrap_paragraphs width [] s.
  Definition fill_text (s : text) (width : nat) (indent : text) : res text :=
    let* ls := wrap_paragraphs width indent s in Ok (nl_join ls).
End Wrap.
