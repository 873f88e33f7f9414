(** Model of the other detectors of xylem/os_support/os_detect.py (those not used by the
    bundled plugins) and of the [OsDetect] object with its memory. *)
From Verif Require Import Base Dict PyVal Sources Util Paths Config OsSupport.

(** What the detectors look at.  A file is there (with its text, or the exception raised by
    reading it) or not; [h_run] is what a program prints, [None] if it can not be run (or
    anything else goes wrong, os_detect.py:37-46).  [h_lower] is [unicode.lower]. *)
Record host := {
  h_machine : machine;
  h_file : text -> option (res text);
  h_run : list text -> option text;
  h_platform : text * text * text;     (* platform.system(), .version(), .release() *)
  h_lower : text -> text
}.

Record hdetector := {
  hd_is : host -> res bool;
  hd_version : host -> res (option text);
  hd_codename : host -> res (option text)
}.

(** [s.split()]: the maximal runs of characters that are not white space. *)
Fixpoint words_from (cur : text) (s : text) : list text :=
  match s with
  | [] => match cur with [] => [] | _ => [rev cur] end
  | c :: s' =>
    if is_space c then match cur with [] => words_from [] s' | _ => rev cur :: words_from [] s' end
    else words_from (c :: cur) s'
  end.
Definition words (s : text) : list text := words_from [] s.

(** [s.split(' = ')]: non-overlapping occurrences from the left. *)
Fixpoint split_equals (s : text) : list text :=
  match s with
  | [] => [[]]
  | c1 :: s1 =>
    match s1 with
    | c2 :: c3 :: s3 =>
      if (eqb c1 32%N && eqb c2 61%N && eqb c3 32%N)%bool then [] :: split_equals s3
      else match split_equals s1 with p :: ps => (c1 :: p) :: ps | [] => [[c1]] end
    | _ => match split_equals s1 with p :: ps => (c1 :: p) :: ps | [] => [[c1]] end
    end
  end.

(** [os.path.exists] *)
Definition exists_file (h : host) (p : text) : bool := match h_file h p with Some _ => true | None => false end.

(** [_read_stdout], os_detect.py:37-46. *)
Definition read_stdout (h : host) (cmd : list text) : option text :=
  match h_run h cmd with Some s => Some (strip s) | None => None end.

(** [read_issue], os_detect.py:54-61. *)
Definition read_issue (h : host) (p : text) : res (option (list text)) :=
  match h_file h p with
  | Some r => let* s := r in Ok (Some (words s))
  | None => Ok None
  end.

(** [l[n]] *)
Definition nth_item {A} (l : list A) (n : nat) : res A :=
  match nth_error l n with Some x => Ok x | None => Err IndexError end.

(** [l.index(x)] on a list that may be None *)
Fixpoint index_of (x : text) (l : list text) : res nat :=
  match l with
  | [] => Err ValueError
  | y :: l' => if eqb y x then Ok 0 else let* n := index_of x l' in Ok (S n)
  end.
Definition index_in (x : text) (l : option (list text)) : res (nat * list text) :=
  match l with
  | None => Err AttributeError
  | Some l => let* n := index_of x l in Ok (n, l)
  end.

(** The word list is non-empty and its first word is [w]. *)
Definition first_is (w : text) (l : option (list text)) : bool :=
  match l with Some (x :: _) => eqb x w | _ => false end.

Definition guarded {A} (is : host -> res bool) (f : host -> res A) (h : host) : res A :=
  let* b := is h in if b then f h else Err OsNotDetected.

(** The version given by a list of lines: os_detect.py:136-142. *)
Definition opensuse_version (brand : text) (h : host) : res (option text) :=
  match h_file h brand with
  | None => Err OsNotDetected
  | Some r =>
    let* s := r in
    match split_on 10%N (strip s) with
    | [_; l] =>
      let kv := split_equals l in
      let* k := nth_item kv 0 in
      if eqb k (u "VERSION") then let* v := nth_item kv 1 in Ok (Some v) else Err OsNotDetected
    | _ => Err OsNotDetected
    end
  end.
(** os_detect.py:145-152 *)
Fixpoint opensuse_codename_lines (ls : list text) : res (option text) :=
  match ls with
  | [] => Err OsNotDetected
  | l :: ls' =>
    let kv := split_equals l in
    let* k := nth_item kv 0 in
    if eqb k (u "CODENAME") then let* v := nth_item kv 1 in Ok (Some v) else opensuse_codename_lines ls'
  end.
Definition opensuse_codename (release : text) (h : host) : res (option text) :=
  match h_file h release with
  | None => Err OsNotDetected
  | Some r => let* s := r in opensuse_codename_lines (split_on 10%N (strip s))
  end.

(** [OpenSuse], os_detect.py:122-153 *)
Definition opensuse (brand release : text) : hdetector :=
  let is h := let* l := read_issue h brand in Ok (first_is (u "openSUSE") l) in
  {| hd_is := is;
     hd_version := guarded is (opensuse_version brand);
     hd_codename := guarded is (opensuse_codename release) |}.

Definition open_paren : N := 40%N.
Definition close_paren : N := 41%N.

(** The codename between parentheses, os_detect.py:177-183 and 206-212: the first word that
    begins with a parenthesis, without it and without a final one, in lower case. *)
Definition paren_codename (release : text) (h : host) : res (option text) :=
  let* l := read_issue h release in
  let* '(_, l) := index_in (u "release") l in
  let* w := nth_item (filter (fun w => match w with c :: _ => eqb c open_paren | [] => false end) l) 0 in
  let name := match w with _ :: r => r | [] => [] end in
  match rev name with
  | [] => Err IndexError
  | c :: r => Ok (Some (h_lower h (if eqb c close_paren then rev r else name)))
  end.

(** [Fedora], os_detect.py:155-185 *)
Definition fedora (release issue : text) : hdetector :=
  let is h := let* l := read_issue h release in Ok (first_is (u "Fedora") l) in
  {| hd_is := is;
     hd_version := guarded is (fun h =>
       let* l := read_issue h issue in
       let* '(n, l) := index_in (u "release") l in
       match n with
       | 0 => Err OsNotDetected
       | _ => let* v := nth_item l (S n) in Ok (Some v)
       end);
     hd_codename := guarded is (paren_codename release) |}.

(** [Rhel], os_detect.py:187-213 *)
Definition rhel (release : text) : hdetector :=
  let is h := let* l := read_issue h release in
              Ok (match l with Some l => eqb (firstn 3 l) [u "Red"; u "Hat"; u "Enterprise"] | None => false end) in
  {| hd_is := is;
     hd_version := guarded is (fun h =>
       let* l := read_issue h release in
       let* '(n, l) := index_in (u "release") l in
       let* v := nth_item l (S n) in Ok (Some v));
     hd_codename := guarded is (paren_codename release) |}.

(** [is_os] of QNX and FreeBSD, os_detect.py:268-273, 349-354: [None.strip()] if the program can not be run. *)
Definition uname_is (uname name : text) (h : host) : res bool :=
  if exists_file h uname then
    match read_stdout h [uname] with
    | Some s => Ok (eqb (strip s) name)
    | None => Err AttributeError
    end
  else Ok false.
Definition uname_detector (uname name : text) : hdetector :=
  {| hd_is := uname_is uname name;
     hd_version := guarded (uname_is uname name) (fun h =>
       if exists_file h uname then Ok (read_stdout h [uname; u "-r"]) else Err OsNotDetected);
     hd_codename := guarded (uname_is uname name) (fun _ => Ok (Some [])) |}.
(** [QNX], os_detect.py:255-283 *)
Definition qnx (uname : text) : hdetector := uname_detector uname (u "QNX").
(** [FreeBSD], os_detect.py:342-364 *)
Definition freebsd (uname : text) : hdetector := uname_detector uname (u "FreeBSD").

(** [Arch], os_detect.py:286-304 *)
Definition arch (release : text) : hdetector :=
  let is h := Ok (exists_file h release) in
  {| hd_is := is; hd_version := guarded is (fun _ => Ok (Some [])); hd_codename := guarded is (fun _ => Ok (Some [])) |}.

(** [Cygwin], os_detect.py:306-321 *)
Definition cygwin : hdetector :=
  let is h := Ok (exists_file h (u "/usr/bin/cygwin1.dll")) in
  {| hd_is := is;
     hd_version := guarded is (fun h => Ok (read_stdout h [u "uname"; u "-r"]));
     hd_codename := guarded is (fun _ => Ok (Some [])) |}.

(** [Gentoo], os_detect.py:323-340: the second word is only looked at if the first one is right. *)
Definition gentoo (release : text) : hdetector :=
  let is h := let* l := read_issue h release in
              match l with
              | Some ((x :: _) as l) =>
                if eqb x (u "Gentoo") then let* y := nth_item l 1 in Ok (eqb y (u "Base")) else Ok false
              | _ => Ok false
              end in
  {| hd_is := is;
     hd_version := guarded is (fun h =>
       let* l := read_issue h release in
       match l with
       | Some l => let* v := nth_item l 4 in Ok (Some v)
       | None => Err TypeError
       end);
     hd_codename := guarded is (fun _ => Ok (Some [])) |}.

(** [Windows], os_detect.py:366-382 *)
Definition windows : hdetector :=
  let is h := Ok (eqb (fst (fst (h_platform h))) (u "Windows")) in
  {| hd_is := is;
     hd_version := guarded is (fun h => Ok (Some (snd (fst (h_platform h)))));
     hd_codename := guarded is (fun h => Ok (Some (snd (h_platform h)))) |}.

(** Detectors of OsSupport.v. *)
Definition of_machine (d : detector) : hdetector :=
  {| hd_is h := d_is d (h_machine h);
     hd_version h := d_get_version d (h_machine h);
     hd_codename h := d_get_codename d (h_machine h) |}.

(** [default_os_list] after the module is loaded, os_detect.py:498-524: every registration is put in front. *)
Definition registrations : list (text * hdetector) :=
  [ (u "arch", arch (u "/etc/arch-release"));
    (u "cygwin", cygwin);
    (u "debian", of_machine (lsb_detect (u "debian")));
    (u "fedora", fedora (u "/etc/redhat-release") (u "/etc/issue"));
    (u "freebsd", freebsd (u "/usr/bin/uname"));
    (u "gentoo", gentoo (u "/etc/gentoo-release"));
    (u "mint", of_machine (lsb_detect (u "LinuxMint")));
    (u "opensuse", opensuse (u "/etc/SuSE-brand") (u "/etc/SuSE-release"));
    (u "osx", of_machine osx_detect);
    (u "qnx", qnx (u "/bin/uname"));
    (u "rhel", rhel (u "/etc/redhat-release"));
    (u "ubuntu", of_machine (lsb_detect (u "Ubuntu")));
    (u "xubuntu", of_machine (lsb_detect (u "Xubuntu")));
    (u "windows", windows) ].
Definition default_os_list : list (text * hdetector) :=
  fold_left (fun l p => add_detector l (fst p) (snd p)) registrations [].

(** ** The [OsDetect] object, os_detect.py:387-496, with its memory *)
Record odetect := {
  od_list : list (text * hdetector);
  od_name : option text;
  od_version : option text;
  od_codename : option text;
  od_detector : option (text * hdetector)
}.
(** [__init__], os_detect.py:394-402; the list is shared with the caller, which is not modelled. *)
Definition new_odetect (l : list (text * hdetector)) : odetect :=
  {| od_list := l; od_name := None; od_version := None; od_codename := None; od_detector := None |}.

Definition truthy_text (o : option text) : bool := match o with Some (_ :: _) => true | _ => false end.

(** The loop of [detect_os], os_detect.py:441-446: attributes are assigned one after the other, an exception leaves
    those assigned so far. *)
Fixpoint od_loop (l : list (text * hdetector)) (h : host) (o : odetect) : res unit * odetect :=
  match l with
  | [] => (Ok tt, o)
  | (n, d) :: rest =>
    match hd_is d h with
    | Err e => (Err e, o)
    | Ok false => od_loop rest h o
    | Ok true =>
      let o1 := {| od_list := od_list o; od_name := Some n; od_version := od_version o;
                   od_codename := od_codename o; od_detector := od_detector o |} in
      match hd_version d h with
      | Err e => (Err e, o1)
      | Ok v =>
        let o2 := {| od_list := od_list o; od_name := Some n; od_version := v;
                     od_codename := od_codename o; od_detector := od_detector o |} in
        match hd_codename d h with
        | Err e => (Err e, o2)
        | Ok c =>
          od_loop rest h {| od_list := od_list o; od_name := Some n; od_version := v;
                            od_codename := c; od_detector := Some (n, d) |}
        end
      end
    end
  end.

(** [detect_os], os_detect.py:417-452; [override] is the value of ROS_OS_OVERRIDE. *)
Definition od_detect (override : option text) (h : host) (o : odetect)
  : res (text * option text * option text) * odetect :=
  let '(r, o') :=
    match override with
    | Some s =>
      let splits := split_on 58%N s in
      let part n := match nth_error splits n with Some x => x | None => [] end in
      (Ok tt, {| od_list := od_list o; od_name := Some (part 0); od_version := Some (part 1);
                 od_codename := Some (part 2); od_detector := od_detector o |})
    | None => od_loop (od_list o) h o
    end in
  match r with
  | Err e => (Err e, o')
  | Ok _ => match od_name o' with
            | Some ((_ :: _) as n) => (Ok (n, od_version o', od_codename o'), o')
            | _ => (Err OsNotDetected, o')
            end
  end.

(** [get_name], [get_version], [get_codename], os_detect.py:482-496. *)
Definition od_get (field : odetect -> option text) (override : option text) (h : host) (o : odetect)
  : res (option text) * odetect :=
  if truthy_text (field o) then (Ok (field o), o)
  else match od_detect override h o with
       | (Err e, o') => (Err e, o')
       | (Ok _, o') => (Ok (field o'), o')
       end.

(** [get_detector], os_detect.py:454-468. *)
Definition od_get_detector (name : option text) (override : option text) (h : host) (o : odetect)
  : res (option (text * hdetector)) * odetect :=
  match name with
  | Some n =>
    (match get_detector (od_list o) n with Ok d => Ok (Some (n, d)) | Err e => Err e end, o)
  | None =>
    match od_detector o with
    | Some _ => (Ok (od_detector o), o)
    | None => match od_detect override h o with
              | (Err e, o') => (Err e, o')
              | (Ok _, o') => (Ok (od_detector o'), o')
              end
    end
  end.

(** [add_detector], os_detect.py:470-480. *)
Definition od_add (n : text) (d : hdetector) (o : odetect) : odetect :=
  {| od_list := add_detector (od_list o) n d; od_name := od_name o; od_version := od_version o;
     od_codename := od_codename o; od_detector := od_detector o |}.
