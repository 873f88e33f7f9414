(** Model of maintenance_utils/update_license_headers.py (python 2). *)
From Verif Require Import Base Dict PyVal Sources Util Paths.

(** ** Lines *)
Definition newline : N := 10%N.
Definition carriage : N := 13%N.
(** Characters that end a line for [unicode.splitlines]. *)
Definition line_end (c : N) : bool :=
  existsb (N.eqb c) [10; 11; 12; 13; 28; 29; 30; 133; 8232; 8233]%N.
(** [s.splitlines(True)]; [cur] is the current line, reversed. *)
Fixpoint lines_from (cur s : text) : list text :=
  match s with
  | [] => match cur with [] => [] | _ => [rev cur] end
  | c :: s' =>
    if eqb c carriage then
      match s' with
      | c' :: s'' => if eqb c' newline then rev (c' :: c :: cur) :: lines_from [] s''
                     else rev (c :: cur) :: lines_from [] s'
      | [] => [rev (c :: cur)]
      end
    else if line_end c then rev (c :: cur) :: lines_from [] s'
    else lines_from (c :: cur) s'
  end.
Definition splitlines (s : text) : list text := lines_from [] s.
(** [s.isspace()] *)
Definition isspace (s : text) : bool := match s with [] => false | _ => forallb is_space s end.

(** [l.insert(i, x)] *)
Fixpoint list_insert {A} (l : list A) (i : nat) (x : A) : list A :=
  match i, l with
  | S i', y :: l' => y :: list_insert l' i' x
  | _, _ => x :: l
  end.

(** maintenance_utils/update_license_headers.py:109-116 [insert_header]. *)
Definition insert_header (lines : list text) (index : nat) (header : text) : list text :=
  let l1 := match nth_error lines index with
            | Some x => if isspace x then lines else list_insert lines index [newline]
            | None => lines
            end in
  let l2 := list_insert l1 index header in
  match index with
  | O => l2
  | S i => match nth_error l2 i with
           | Some x => if isspace x then l2 else list_insert l2 index [newline]
           | None => l2
           end
  end.

(** ** Files *)
(** What [os.path.islink], [isfile], [isdir] and [listdir] see: a file with the outcome of reading
    and decoding it (lines 14-17). *)
Inductive node :=
| Link
| File (content : res text)
| Dir (entries : list (text * node))
| Special.

(** What is printed for a file or directory. *)
Inductive note := Ignored | UpToDate | Replacing | Inserting | Descending.

(** The compiled arguments, lines 26-34: [license_header], [old_header.search], [except_dirs.match],
    [matching.match], [except_matching.match], [except_content.search]; [write] and [verbose]. *)
Record settings := {
  l_header : text;
  l_old : text -> option (nat * nat);
  l_except_dirs : text -> bool;
  l_matching : text -> bool;
  l_except_matching : text -> bool;
  l_except_content : text -> bool;
  l_write : bool;
  l_verbose : bool
}.

Section Tool.
  Variable st : settings.
  Definition remark (path : text) : list (text * note) := if l_verbose st then [(path, Ignored)] else [].

  (** [content[a:b]] *)
  Definition slice (a b : nat) (s : text) : text := firstn (b - a) (skipn a s).

  (** maintenance_utils/update_license_headers.py:75-106 [replace_headers_file]: the new content if the file is
      written, what is printed, and the count. *)
  Definition replace_headers_file (path : text) (content : res text) : option text * list (text * note) * res nat :=
    match content with
    | Err e => (None, [], Err e)
    | Ok s =>
      if l_except_content st s then (None, remark path, Ok 0)
      else
        match l_old st s with
        | Some (a, b) =>
          if eqb (slice a b s) (l_header st) then (None, [(path, UpToDate)], Ok 0)
          else (if l_write st then Some (firstn a s ++ l_header st ++ skipn b s) else None, [(path, Replacing)], Ok 1)
        | None =>
          let lines := splitlines s in
          match lines with
          | [] => (None, [], Err IndexError)
          | first :: _ =>
            let index := if is_prefix (u "#!") first || is_prefix (u "# -*-") first then 1 else 0 in
            let lines' := insert_header lines index (l_header st) in
            (if l_write st then Some (List.concat lines') else None, [(path, Inserting)], Ok 1)
          end
        end
    end.

  (** maintenance_utils/update_license_headers.py:44-72 [replace_headers_recursive] for the file or directory [n]
      at [path], whose last component is [name]. An exception stops the run; what was written
      before remains. *)
  Fixpoint replace_headers_recursive (path name : text) (n : node) : node * list (text * note) * res nat :=
    match n with
    | Link | Special => (n, remark path, Ok 0)
    | File content =>
      if l_matching st name then
        if l_except_matching st name then (n, remark path, Ok 0)
        else match replace_headers_file path content with
             | (Some s, out, r) => (File (Ok s), out, r)
             | (None, out, r) => (n, out, r)
             end
      else (n, remark path, Ok 0)
    | Dir entries =>
      if l_except_dirs st path then (n, remark path, Ok 0)
      else
        let '(entries', out, r) :=
          (fix go (l : list (text * node)) : list (text * node) * list (text * note) * res nat :=
             match l with
             | [] => ([], [], Ok 0)
             | (p, x) :: l' =>
               match replace_headers_recursive (path_join path p) p x with
               | (x', out, Err e) => ((p, x') :: l', out, Err e)
               | (x', out, Ok c) =>
                 let '(rest, out', r) := go l' in
                 ((p, x') :: rest, out ++ out', match r with Ok c' => Ok (c + c') | Err e => Err e end)
               end
             end) entries in
        (Dir entries', (if l_verbose st then [(path, Descending)] else []) ++ out, r)
    end.
End Tool.

(** ** Arguments *)
(** Options as argparse leaves them: [None] if an [append] option was never given. *)
Record options := {
  o_license : text;
  o_old : option (list text);
  o_except_dirs : option (list text);
  o_matching : option (list text);
  o_except_matching : option (list text);
  o_except_content : option (list text);
  o_write : bool;
  o_verbose : bool
}.

Section Arguments.
  (** [open(f).read()] with decoding, [re.escape], [fnmatch.translate], and compiled patterns:
      [search p s] and [match p s]. *)
  Variable read : text -> res text.
  Variable escape translate : text -> text.
  Variable search : text -> text -> option (nat * nat).
  Variable matches : text -> text -> bool.

  Definition bar : text := [124%N].
  Definition given (o : option (list text)) : res (list text) :=
    match o with Some l => Ok l | None => Err TypeError end.

  (** maintenance_utils/update_license_headers.py:26-34 [process_args]; invalid patterns are not modelled.  The
      default for [matching] in lines 155-156 is assigned to an unused variable. *)
  Definition process_args (o : options) : res settings :=
    let* header := read (o_license o) in
    let* old := given (o_old o) in
    let* old_patterns := mapM read old in
    let* dirs := given (o_except_dirs o) in
    let* matching := given (o_matching o) in
    let* ematching := given (o_except_matching o) in
    let* econtent := given (o_except_content o) in
    Ok {| l_header := header;
          l_old := search (join bar (old_patterns ++ [escape header]));
          l_except_dirs := matches (join bar (map translate dirs));
          l_matching := matches (join bar (map translate matching));
          l_except_matching := matches (join bar (map translate ematching));
          l_except_content := fun s => match search (join bar econtent) s with Some _ => true | None => false end;
          l_write := o_write o;
          l_verbose := o_verbose o |}.
End Arguments.

(** ** Several paths, and the command *)
(** The file or directory at a path of entry names below [n]; [Special] if there is none. *)
Fixpoint at_path (n : node) (p : list text) : node :=
  match p with
  | [] => n
  | x :: p' => match n with
               | Dir l => match get x l with Some m => at_path m p' | None => Special end
               | _ => Special
               end
  end.
(** The tree after the file or directory at [p] became [m]. *)
Fixpoint put_path (n : node) (p : list text) (m : node) : node :=
  match p with
  | [] => m
  | x :: p' => match n with
               | Dir l => match get x l with Some k => Dir (set x (put_path k p' m) l) | None => n end
               | _ => n
               end
  end.

(** [os.path.basename] *)
Definition basename (path : text) : text := List.last (split_on 47%N path) [].

(** A path argument: its text, and the entry names it stands for in the file system; a path with a
    symbolic link before its last component is given by the names it resolves to. *)
Definition argument : Type := text * list text.

(** maintenance_utils/update_license_headers.py:37-41 [replace_headers] on the file system [root].  A path that does not exist is
    an unknown directory entry, line 69-71. *)
Fixpoint replace_headers (st : settings) (root : node) (paths : list argument)
  : node * list (text * note) * res nat :=
  match paths with
  | [] => (root, [], Ok 0)
  | (path, comps) :: rest =>
    match replace_headers_recursive st path (basename path) (at_path root comps) with
    | (m, out, Err e) => (put_path root comps m, out, Err e)
    | (m, out, Ok c) =>
      let '(root', out', r) := replace_headers st (put_path root comps m) rest in
      (root', out ++ out', match r with Ok c' => Ok (c + c') | Err e => Err e end)
    end
  end.

(** What is said at the end, lines 164-171. *)
Inductive summary := NoUpdate | Updated (n : nat) | WouldUpdate (n : nat).

(** maintenance_utils/update_license_headers.py:119-173 [main] for parsed arguments (argparse itself and the printed list of arguments
    are not modelled).  [read] is used for the header and pattern files. *)
Definition main (read : text -> res text) (escape translate : text -> text)
  (search : text -> text -> option (nat * nat)) (matches : text -> text -> bool)
  (o : options) (root : node) (paths : list argument) : node * list (text * note) * res summary :=
  match process_args read escape translate search matches o with
  | Err e => (root, [], Err e)
  | Ok st =>
    let '(root', out, r) := replace_headers st root paths in
    (root', out, match r with
                 | Err e => Err e
                 | Ok O => Ok NoUpdate
                 | Ok c => Ok (if o_write o then Updated c else WouldUpdate c)
                 end)
  end.
