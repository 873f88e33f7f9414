(** C107-C110: the license header tool. *)
From Verif Require Import Base Dict PyVal Sources Util Paths License.
From Coq Require Import Lia.

Section Ind.
  Variable P : node -> Prop.
  Hypothesis HL : P Link.
  Hypothesis HS : P Special.
  Hypothesis HF : forall c, P (File c).
  Hypothesis HD : forall l, Forall (fun e => P (snd e)) l -> P (Dir l).
  Fixpoint node_ind' (n : node) : P n :=
    match n with
    | Link => HL
    | Special => HS
    | File c => HF c
    | Dir l => HD l ((fix go (l : list (text * node)) : Forall (fun e => P (snd e)) l :=
                        match l with
                        | [] => Forall_nil _
                        | e :: l' => Forall_cons e (node_ind' (snd e)) (go l')
                        end) l)
    end.
End Ind.

(** The loop over the entries of a directory. *)
Fixpoint run_entries (st : settings) (path : text) (l : list (text * node)) : list (text * node) * list (text * note) * res nat :=
  match l with
  | [] => ([], [], Ok 0)
  | (p, x) :: l' =>
    match replace_headers_recursive st (path_join path p) p x with
    | (x', out, Err e) => ((p, x') :: l', out, Err e)
    | (x', out, Ok c) =>
      let '(rest, out', r) := run_entries st path l' in
      ((p, x') :: rest, out ++ out', match r with Ok c' => Ok (c + c') | Err e => Err e end)
    end
  end.

Lemma run_dir st path name l : replace_headers_recursive st path name (Dir l) =
  if l_except_dirs st path then (Dir l, remark st path, Ok 0)
  else let '(l', out, r) := run_entries st path l in
       (Dir l', (if l_verbose st then [(path, Descending)] else []) ++ out, r).
Proof.
  cbn [replace_headers_recursive]; destruct (l_except_dirs st path); [reflexivity|].
  match goal with |- (let '(_, _) := ?a in _) = (let '(_, _) := ?b in _) => assert (E : a = b) end; [|rewrite E; reflexivity].
  induction l as [|[p x] l IH]; [reflexivity|]; cbn [run_entries].
  destruct (replace_headers_recursive st (path_join path p) p x) as [[x' out] [c|e]]; [|reflexivity].
  rewrite IH; reflexivity.
Qed.

(** ** C107: without --write *)
Theorem C107_dry_run st path name n n' out r : l_write st = false ->
  replace_headers_recursive st path name n = (n', out, r) -> n' = n.
Proof.
  intros Hw; revert path name n' out r; induction n as [| |c|l IH] using node_ind'; intros path name n' out r E.
  - injection E as <- _ _; reflexivity.
  - injection E as <- _ _; reflexivity.
  - cbn [replace_headers_recursive] in E; destruct (l_matching st name); [|injection E as <- _ _; reflexivity].
    destruct (l_except_matching st name); [injection E as <- _ _; reflexivity|].
    assert (H : exists out r, replace_headers_file st path c = (None, out, r)).
    { unfold replace_headers_file; rewrite Hw; destruct c as [s|e]; [|eauto].
      destruct (l_except_content st s); [eauto|]; destruct (l_old st s) as [[a b]|].
      - destruct (eqb (slice a b s) (l_header st)); eauto.
      - destruct (splitlines s); eauto. }
    destruct H as (out0 & r0 & H); rewrite H in E; injection E as <- _ _; reflexivity.
  - rewrite run_dir in E; destruct (l_except_dirs st path); [injection E as <- _ _; reflexivity|].
    destruct (run_entries st path l) as [[l' o'] r'] eqn:El; injection E as <- _ _; f_equal.
    revert l' o' r' El; induction IH as [|[p x] l Hx Hl IHl]; intros l' o' r' El; [injection El as <- _ _; reflexivity|].
    cbn [run_entries] in El; cbn [snd] in Hx.
    destruct (replace_headers_recursive st (path_join path p) p x) as [[x' o1] [c|e]] eqn:Ex; apply Hx in Ex; subst x'.
    + destruct (run_entries st path l) as [[l1 o2] r1] eqn:E1; injection El as <- _ _; f_equal; eapply IHl; reflexivity.
    + injection El as <- _ _; reflexivity.
Qed.

Definition with_write (b : bool) (st : settings) : settings :=
  {| l_header := l_header st; l_old := l_old st; l_except_dirs := l_except_dirs st; l_matching := l_matching st;
     l_except_matching := l_except_matching st; l_except_content := l_except_content st; l_write := b; l_verbose := l_verbose st |}.

(** A run without --write prints and counts exactly what the run with --write does, and fails
    with the same exception. *)
Theorem C107_predicts st path name n :
  let dry := replace_headers_recursive (with_write false st) path name n in
  let wet := replace_headers_recursive (with_write true st) path name n in
  snd (fst dry) = snd (fst wet) /\ snd dry = snd wet.
Proof.
  revert path name; induction n as [| |c|l IH] using node_ind'; intros path name; cbv zeta.
  - split; reflexivity.
  - split; reflexivity.
  - cbn [replace_headers_recursive with_write l_matching l_except_matching].
    destruct (l_matching st name); [|split; reflexivity]; destruct (l_except_matching st name); [split; reflexivity|].
    unfold replace_headers_file; cbn [with_write l_except_content l_old l_header l_write].
    destruct c as [s|e]; [|split; reflexivity]; destruct (l_except_content st s); [split; reflexivity|].
    destruct (l_old st s) as [[a b]|].
    + destruct (eqb (slice a b s) (l_header st)); split; reflexivity.
    + destruct (splitlines s); split; reflexivity.
  - rewrite !run_dir; cbn [with_write l_except_dirs l_verbose].
    destruct (l_except_dirs st path); [split; reflexivity|].
    change {| l_header := l_header st; l_old := l_old st; l_except_dirs := l_except_dirs st; l_matching := l_matching st;
     l_except_matching := l_except_matching st; l_except_content := l_except_content st; l_write := false; l_verbose := l_verbose st |} with (with_write false st).
    change {| l_header := l_header st; l_old := l_old st; l_except_dirs := l_except_dirs st; l_matching := l_matching st;
     l_except_matching := l_except_matching st; l_except_content := l_except_content st; l_write := true; l_verbose := l_verbose st |} with (with_write true st).
    assert (H : snd (fst (run_entries (with_write false st) path l)) = snd (fst (run_entries (with_write true st) path l)) /\
                snd (run_entries (with_write false st) path l) = snd (run_entries (with_write true st) path l)).
    { induction IH as [|[p x] l Hx Hl IHl]; [split; reflexivity|]; cbn [run_entries]; cbn [snd] in Hx.
      destruct (Hx (path_join path p) p) as [H1 H2]; cbv zeta in H1, H2.
      destruct (replace_headers_recursive (with_write false st) (path_join path p) p x) as [[x1 o1] r1].
      destruct (replace_headers_recursive (with_write true st) (path_join path p) p x) as [[x2 o2] r2].
      cbn [fst snd] in H1, H2; subst o2 r2; destruct r1 as [c|e]; [|split; reflexivity].
      destruct (run_entries (with_write false st) path l) as [[a1 b1] c1], (run_entries (with_write true st) path l) as [[a2 b2] c2].
      cbn [fst snd] in IHl; destruct IHl as [-> ->]; split; reflexivity. }
    destruct (run_entries (with_write false st) path l) as [[a1 b1] c1], (run_entries (with_write true st) path l) as [[a2 b2] c2].
    cbn [fst snd] in H; destruct H as [-> ->]; split; reflexivity.
Qed.

(** The count is the number of files reported as replaced or inserted. *)
Definition changes (p : text * note) : bool := match snd p with Replacing | Inserting => true | _ => false end.

Lemma remark_no st path : filter changes (remark st path) = [].
Proof. unfold remark; destruct (l_verbose st); reflexivity. Qed.

Theorem C107_count st path name n n' out c :
  replace_headers_recursive st path name n = (n', out, Ok c) -> c = List.length (filter changes out).
Proof.
  revert path name n' out c; induction n as [| |x|l IH] using node_ind'; intros path name n' out c E.
  - injection E as _ <- <-; rewrite remark_no; reflexivity.
  - injection E as _ <- <-; rewrite remark_no; reflexivity.
  - cbn [replace_headers_recursive] in E; destruct (l_matching st name); [|injection E as _ <- <-; rewrite remark_no; reflexivity].
    destruct (l_except_matching st name); [injection E as _ <- <-; rewrite remark_no; reflexivity|].
    destruct (replace_headers_file st path x) as [[o out0] r0] eqn:Ef.
    assert (H : r0 = Ok c /\ out0 = out) by (destruct o; injection E as _ <- <-; split; reflexivity).
    destruct H as [-> ->]; clear E; unfold replace_headers_file in Ef; destruct x as [s|e]; [|discriminate].
    destruct (l_except_content st s); [injection Ef as _ <- <-; rewrite remark_no; reflexivity|].
    destruct (l_old st s) as [[a b]|].
    + destruct (eqb (slice a b s) (l_header st)); injection Ef as _ <- <-; reflexivity.
    + destruct (splitlines s); [discriminate|]; injection Ef as _ <- <-; reflexivity.
  - rewrite run_dir in E; destruct (l_except_dirs st path); [injection E as _ <- <-; rewrite remark_no; reflexivity|].
    destruct (run_entries st path l) as [[l' o'] r'] eqn:El; injection E as _ <- ->.
    rewrite filter_app, app_length.
    assert (Z : List.length (filter changes (if l_verbose st then [(path, Descending)] else [])) = 0)
      by (destruct (l_verbose st); reflexivity); rewrite Z; cbn [Nat.add]; clear Z.
    revert l' o' c El; induction IH as [|[p x] l Hx Hl IHl]; intros l' o' c El; [injection El as _ <- <-; reflexivity|].
    cbn [run_entries] in El; cbn [snd] in Hx.
    destruct (replace_headers_recursive st (path_join path p) p x) as [[x' o1] [c1|e]] eqn:Ex; [|discriminate].
    apply Hx in Ex; destruct (run_entries st path l) as [[l1 o2] [c2|e]] eqn:E1; [|discriminate].
    injection El as _ <- <-; rewrite filter_app, app_length, <- (IHl _ _ _ eq_refl); congruence.
Qed.

(** ** C108: what the tool does to a file *)
(** The text with the header put in place of the old one that was found, or, if none was
    found, at the start or after a first line with a special comment, set off by newlines. *)
Definition replaced (st : settings) (s s' : text) : Prop :=
  exists a b, l_old st s = Some (a, b) /\ slice a b s <> l_header st /\
    s' = firstn a s ++ l_header st ++ skipn b s.
Definition special_comment (line : text) : Prop := (exists r, line = u "#!" ++ r) \/ (exists r, line = u "# -*-" ++ r).
Definition inserted (st : settings) (s s' : text) : Prop :=
  l_old st s = None /\
  exists line rest before after gap1 gap2, splitlines s = line :: rest /\
    s = before ++ after /\ s' = before ++ gap1 ++ l_header st ++ gap2 ++ after /\
    (gap2 = [] \/ gap2 = [newline]) /\
    (~ special_comment line /\ before = [] /\ gap1 = [] \/
     special_comment line /\ before = line /\ gap1 = [newline]).

Lemma lines_concat s : forall cur, List.concat (lines_from cur s) = rev cur ++ s.
Proof.
  assert (H : forall n s, List.length s <= n -> forall cur, List.concat (lines_from cur s) = rev cur ++ s).
  { induction n as [|n IH]; intros [|c t] Hn cur; cbn [List.length] in Hn; try lia.
    - destruct cur; cbn [lines_from List.concat]; rewrite ?app_nil_r; reflexivity.
    - destruct cur; cbn [lines_from List.concat]; rewrite ?app_nil_r; reflexivity.
    - cbn [lines_from]; destruct (eqb_spec c carriage) as [->|Hc].
      + destruct t as [|c' t']; [cbn [List.concat rev]; rewrite app_nil_r; reflexivity|].
        destruct (eqb_spec c' newline) as [->|Hc'].
        * cbn [List.concat]; rewrite IH by (cbn [List.length] in Hn; lia); cbn [rev app]; rewrite <- !app_assoc; reflexivity.
        * cbn [List.concat]; rewrite IH by lia; cbn [rev app]; rewrite <- app_assoc; reflexivity.
      + destruct (line_end c).
        * cbn [List.concat]; rewrite IH by lia; cbn [rev app]; rewrite <- app_assoc; reflexivity.
        * rewrite IH by lia; cbn [rev]; rewrite <- app_assoc; reflexivity. }
  intros cur; apply (H (List.length s)); lia.
Qed.

Lemma splitlines_concat s : List.concat (splitlines s) = s.
Proof. unfold splitlines; rewrite lines_concat; reflexivity. Qed.

Lemma splitlines_nil s : splitlines s = [] <-> s = [].
Proof.
  split; [|intros ->; reflexivity]; intros H; rewrite <- (splitlines_concat s), H; reflexivity.
Qed.

Lemma is_prefix_app p s : is_prefix p s = true <-> exists r, s = p ++ r.
Proof.
  revert s; induction p as [|a p IH]; intros s; cbn [is_prefix]; [split; [intros _; exists s; reflexivity|intros _; reflexivity]|].
  destruct s as [|b s]; [split; [discriminate|intros [r E]; discriminate]|].
  rewrite andb_true_iff, IH; split.
  - intros [E (r & ->)]; destruct (eqb_spec a b) as [->|]; [exists r; reflexivity|discriminate].
  - intros (r & E); injection E as -> ->; split; [apply eqb_refl|eauto].
Qed.

Lemma special_spec line : is_prefix (u "#!") line || is_prefix (u "# -*-") line = true <-> special_comment line.
Proof. unfold special_comment; rewrite orb_true_iff, !is_prefix_app; reflexivity. Qed.

Lemma special_not_space line : special_comment line -> isspace line = false.
Proof. intros [[r ->]|[r ->]]; reflexivity. Qed.

Lemma file_written st path s o out r : l_write st = true -> replace_headers_file st path (Ok s) = (o, out, r) ->
  (o = None /\ (l_except_content st s = true \/ (exists a b, l_old st s = Some (a, b) /\ slice a b s = l_header st) \/
                (l_old st s = None /\ s = [] /\ r = Err IndexError))) \/
  (l_except_content st s = false /\ r = Ok 1 /\ exists s', o = Some s' /\ (replaced st s s' \/ inserted st s s')).
Proof.
  intros Hw E; unfold replace_headers_file in E; rewrite Hw in E.
  destruct (l_except_content st s); [injection E as <- _ _; left; auto|].
  destruct (l_old st s) as [[a b]|] eqn:Eo.
  - destruct (eqb_spec (slice a b s) (l_header st)) as [Es|Es].
    + injection E as <- _ _; left; split; [reflexivity|]; right; left; eauto.
    + injection E as <- _ <-; right; split; [reflexivity|]; split; [reflexivity|]; eexists; split; [reflexivity|].
      left; exists a, b; auto.
  - destruct (splitlines s) as [|line rest] eqn:El.
    + injection E as <- _ <-; left; split; [reflexivity|]; right; right; split; [reflexivity|]; split; [|reflexivity].
      apply splitlines_nil; exact El.
    + cbv zeta in E; set (i := if is_prefix (u "#!") line || is_prefix (u "# -*-") line then 1 else 0) in E.
      set (new := List.concat (insert_header (line :: rest) i (l_header st))) in E.
      injection E as <- _ <-; right; split; [reflexivity|]; split; [reflexivity|]; exists new; split; [reflexivity|].
      right; split; [exact Eo|]; unfold new, i; clear new i.
      pose proof (splitlines_concat s) as Hs; rewrite El in Hs; cbn [List.concat] in Hs.
      destruct (is_prefix (u "#!") line || is_prefix (u "# -*-") line) eqn:Ep.
      * apply special_spec in Ep; pose proof (special_not_space line Ep) as Hn.
        set (gap2 := match rest with [] => [] | x :: _ => if isspace x then [] else [newline] end).
        exists line, rest, line, (List.concat rest), [newline], gap2.
        split; [exact El|]; split; [congruence|]; split.
        { unfold insert_header, gap2; destruct rest as [|x rest']; cbn [nth_error].
          - cbn [list_insert nth_error]; rewrite Hn; cbn [list_insert List.concat]; rewrite ?app_nil_r; reflexivity.
          - destruct (isspace x); cbn [list_insert nth_error]; rewrite Hn; cbn [list_insert List.concat]; reflexivity. }
        split; [unfold gap2; destruct rest as [|x rest']; [auto|destruct (isspace x); auto]|].
        right; auto.
      * exists line, rest, [], s, [], (if isspace line then [] else [newline]).
        split; [exact El|]; split; [reflexivity|]; split.
        { unfold insert_header; cbn [nth_error]; destruct (isspace line); cbn [list_insert List.concat app];
            rewrite <- Hs; reflexivity. }
        split; [destruct (isspace line); auto|].
        left; split; [|auto]; intros H; apply special_spec in H; congruence.
Qed.

(** What the lines of a text are: each ends with the first line end in what is left of the text, with CR LF as one. *)
Definition ends_line (c : N) : Prop := In c [10; 11; 12; 13; 28; 29; 30; 133; 8232; 8233]%N.
Definition inside (w : text) : Prop := Forall (fun c => ~ ends_line c) w.
Inductive lines_of : text -> list text -> Prop :=
| lo_nil : lines_of [] []
| lo_last w : w <> [] -> inside w -> lines_of w [w]
| lo_crlf w s l : inside w -> lines_of s l -> lines_of (w ++ 13%N :: 10%N :: s) ((w ++ [13; 10]%N) :: l)
| lo_end w c s l : inside w -> ends_line c -> ~ (c = 13%N /\ exists s', s = 10%N :: s') -> lines_of s l ->
    lines_of (w ++ c :: s) ((w ++ [c]) :: l).

Lemma line_end_spec c : line_end c = true <-> ends_line c.
Proof.
  unfold line_end, ends_line; rewrite existsb_exists; split.
  - intros (x & Hx & E); apply N.eqb_eq in E; subst x; exact Hx.
  - intros H; exists c; split; [exact H|apply N.eqb_refl].
Qed.

Lemma lines_from_spec n : forall s cur, List.length s <= n -> inside (rev cur) -> lines_of (rev cur ++ s) (lines_from cur s).
Proof.
  induction n as [|n IH]; intros s cur L Hc.
  - destruct s; [|cbn in L; lia]; cbn [lines_from]; rewrite app_nil_r; destruct cur as [|x cur]; [constructor|].
    apply lo_last; [|exact Hc]; intros E; apply (f_equal (@rev N)) in E; rewrite rev_involutive in E; discriminate.
  - destruct s as [|c s]; [apply (IH [] cur); [cbn; lia|exact Hc]|]; cbn [List.length] in L; cbn [lines_from].
    destruct (eqb_spec c carriage) as [->|Hcr].
    + destruct s as [|c' s'].
      * cbn [rev]; apply lo_end; [exact Hc|unfold ends_line; cbn; tauto|intros (_ & s' & E); discriminate|constructor].
      * destruct (eqb_spec c' newline) as [->|Hnl].
        -- cbn [rev]; rewrite <- app_assoc; apply lo_crlf; [exact Hc|]; apply (IH s' []); [cbn [List.length] in L; lia|constructor].
        -- cbn [rev]; apply lo_end; [exact Hc|unfold ends_line; cbn; tauto|intros (_ & s'' & E); injection E as E _; apply Hnl; exact E|].
           apply (IH (c' :: s') []); [lia|constructor].
    + destruct (line_end c) eqn:Ee.
      * apply line_end_spec in Ee; cbn [rev]; apply lo_end; [exact Hc|exact Ee|intros (E & _); exact (Hcr E)|].
        apply (IH s []); [lia|constructor].
      * assert (Hi : inside (rev (c :: cur))).
        { cbn [rev]; apply Forall_app; split; [exact Hc|]; constructor; [|constructor]; intros H; apply line_end_spec in H; congruence. }
        specialize (IH s (c :: cur) ltac:(lia) Hi); cbn [rev] in IH; rewrite <- app_assoc in IH; exact IH.
Qed.

Theorem C108_lines s : lines_of s (splitlines s).
Proof. exact (lines_from_spec (List.length s) s [] (le_n _) (Forall_nil _)). Qed.

Example C108_lines_nonvacuous :
  splitlines (u "a" ++ [12%N] ++ u "b" ++ [13; 10]%N ++ u "c") = [u "a" ++ [12%N]; u "b" ++ [13; 10]%N; u "c"].
Proof. reflexivity. Qed.

(** Every file of the tree is as before, or has a selected name, is readable, has no excluded
    content, and its text was replaced or inserted as described.  Names, directories, links and
    everything else stay. *)
Inductive only_headers (st : settings) : text -> node -> node -> Prop :=
| oh_same name n : only_headers st name n n
| oh_file name s s' : l_matching st name = true -> l_except_matching st name = false ->
    l_except_content st s = false -> replaced st s s' \/ inserted st s s' ->
    only_headers st name (File (Ok s)) (File (Ok s'))
| oh_dir name l l' : Forall2 (fun e e' => fst e = fst e' /\ only_headers st (fst e) (snd e) (snd e')) l l' ->
    only_headers st name (Dir l) (Dir l').

(** Whatever happens, even if the run ends with an exception. *)
Theorem C108_only_headers st path name n n' out r :
  replace_headers_recursive st path name n = (n', out, r) -> only_headers st name n n'.
Proof.
  destruct (l_write st) eqn:Hw; [|intros E; apply C107_dry_run in E; [subst n'; constructor|exact Hw]].
  revert path name n' out r; induction n as [| |c|l IH] using node_ind'; intros path name n' out r E.
  - injection E as <- _ _; constructor.
  - injection E as <- _ _; constructor.
  - cbn [replace_headers_recursive] in E; destruct (l_matching st name) eqn:Em; [|injection E as <- _ _; constructor].
    destruct (l_except_matching st name) eqn:Ex; [injection E as <- _ _; constructor|].
    destruct c as [s|e].
    + destruct (replace_headers_file st path (Ok s)) as [[o out0] r0] eqn:Ef.
      destruct (file_written _ _ _ _ _ _ Hw Ef) as [[-> _]|(Hc & _ & s' & -> & H)]; injection E as <- _ _; [constructor|].
      apply oh_file; assumption.
    + cbn in E; injection E as <- _ _; constructor.
  - rewrite run_dir in E; destruct (l_except_dirs st path); [injection E as <- _ _; constructor|].
    destruct (run_entries st path l) as [[l' o'] r'] eqn:El; injection E as <- _ _; apply oh_dir.
    revert l' o' r' El; induction IH as [|[p x] l Hx Hl IHl]; intros l' o' r' El; [injection El as <- _ _; constructor|].
    cbn [run_entries] in El; cbn [snd] in Hx.
    destruct (replace_headers_recursive st (path_join path p) p x) as [[x' o1] [c|e]] eqn:Ex; apply Hx in Ex.
    + destruct (run_entries st path l) as [[l1 o2] r1] eqn:E1; injection El as <- _ _; constructor; [auto|].
      eapply IHl; reflexivity.
    + injection El as <- _ _; constructor; [auto|].
      clear; induction l as [|e l IH]; constructor; [split; [reflexivity|constructor]|exact IH].
Qed.

(** The files the tool looks at: those with a selected name in directories that are not excluded.
    [visits st path name n file c c']: [file] is such a file below [n] at [path], with content [c] in
    the tree [n] and [c'] in the tree [n']. *)
Inductive visits (st : settings) : text -> text -> node -> node -> res text -> res text -> Prop :=
| visit_file path name c c' : l_matching st name = true -> l_except_matching st name = false ->
    visits st path name (File c) (File c') c c'
| visit_dir path name l1 l1' p x x' l2 l2' c c' : l_except_dirs st path = false ->
    List.length l1 = List.length l1' -> visits st (path_join path p) p x x' c c' ->
    visits st path name (Dir (l1 ++ (p, x) :: l2)) (Dir (l1' ++ (p, x') :: l2')) c c'.

Definition has_header (st : settings) (s : text) : Prop := exists a b, s = a ++ l_header st ++ b.

Lemma skipn_add {A} a b (s : list A) : skipn a (skipn b s) = skipn (b + a) s.
Proof. revert s; induction b as [|b IH]; intros s; [reflexivity|]; destruct s; [rewrite !skipn_nil; reflexivity|apply IH]. Qed.

Lemma slice_split a b (s : text) : a <= b -> s = firstn a s ++ slice a b s ++ skipn b s.
Proof.
  intros H; unfold slice; rewrite <- (firstn_skipn a s) at 1; f_equal.
  rewrite <- (firstn_skipn (b - a) (skipn a s)) at 1; f_equal.
  rewrite skipn_add; f_equal; lia.
Qed.

(** After a complete run with --write, every file looked at has excluded content or contains the
    header.  A match ends after it starts. *)
Theorem C108_every_file st path name n n' out k c c' :
  (forall s a b, l_old st s = Some (a, b) -> a <= b) -> l_write st = true ->
  replace_headers_recursive st path name n = (n', out, Ok k) -> visits st path name n n' c c' ->
  exists s s', c = Ok s /\ c' = Ok s' /\
    (l_except_content st s = true /\ s' = s \/ l_except_content st s = false /\ has_header st s').
Proof.
  intros Hm Hw E V; revert out k E; induction V as [path name c c' M X|path name l1 l1' p x x' l2 l2' c c' D L V IH]; intros out k E.
  - cbn [replace_headers_recursive] in E; rewrite M, X in E.
    destruct c as [s|e]; [|cbn in E; discriminate].
    destruct (replace_headers_file st path (Ok s)) as [[o out0] r0] eqn:Ef.
    destruct (file_written _ _ _ _ _ _ Hw Ef) as [[-> H]|(Hc & _ & s' & -> & H)]; injection E as <- _ Er.
    + exists s, s; split; [reflexivity|]; split; [reflexivity|].
      destruct (l_except_content st s) eqn:Hx; [left; auto|right; split; [reflexivity|]].
      destruct H as [H|[(a & b & Ho & Hs)|(_ & _ & H)]]; [discriminate| |congruence].
      exists (firstn a s), (skipn b s); rewrite <- Hs; apply slice_split; eapply Hm; exact Ho.
    + exists s, s'; split; [reflexivity|]; split; [reflexivity|]; right; split; [exact Hc|].
      destruct H as [(a & b & _ & _ & ->)|(_ & line & rest & b & a & g1 & g2 & _ & _ & -> & _)].
      * exists (firstn a s), (skipn b s); reflexivity.
      * exists (b ++ g1), (g2 ++ a); rewrite <- !app_assoc; reflexivity.
  - rewrite run_dir, D in E.
    destruct (run_entries st path (l1 ++ (p, x) :: l2)) as [[l' o'] r'] eqn:El; injection E as E _ ->.
    subst l'.
    assert (G : exists o2 k2, replace_headers_recursive st (path_join path p) p x = (x', o2, Ok k2)).
    { clear IH V; revert l1' L o' k El; induction l1 as [|[q y] l1 IHl]; intros l1' L o' k El; destruct l1' as [|e' l1']; try discriminate.
      - cbn [app run_entries] in El.
        destruct (replace_headers_recursive st (path_join path p) p x) as [[x1 o1] [k1|e]]; [|discriminate].
        destruct (run_entries st path l2) as [[r2 o2] [k2|e]]; [|discriminate]; injection El as <- _ _ _; eauto.
      - cbn [app run_entries] in El.
        destruct (replace_headers_recursive st (path_join path q) q y) as [[y1 o1] [k1|e]]; [|discriminate].
        destruct (run_entries st path (l1 ++ (p, x) :: l2)) as [[r2 o2] [k2|e]] eqn:E2; [|discriminate].
        injection El as _ E3 _ _; subst r2; eapply IHl; [|reflexivity]; injection L as L; exact L. }
    destruct G as (o2 & k2 & G); eapply IH; exact G.
Qed.

(** ** C109: a second run *)
Lemma visits_back st path name m n' c1 c : visits st path name m n' c1 c -> m = n' ->
  forall n out k, replace_headers_recursive st path name n = (n', out, Ok k) -> exists c0, visits st path name n n' c0 c.
Proof.
  intros V.
  induction V as [path name c2 c3 M X|path name l1 l1' p x x' l2 l2' c2 c3 D L V IH]; intros Em n out k E.
  - destruct n as [|c0|l|].
    + discriminate.
    + exists c0; constructor; assumption.
    + rewrite run_dir in E; destruct (l_except_dirs st path); [discriminate|].
      destruct (run_entries st path l) as [[l' o'] r']; discriminate.
    + discriminate.
  - destruct n as [|c0|l|]; [discriminate| | |discriminate].
    + cbn [replace_headers_recursive] in E; destruct (l_matching st name); [|discriminate]; destruct (l_except_matching st name); [discriminate|].
      destruct (replace_headers_file st path c0) as [[[s|] o'] r']; discriminate.
    + rewrite run_dir, D in E; destruct (run_entries st path l) as [[l' o'] r'] eqn:El; injection E as E _ ->; subst l'.
      injection Em as Em'.
      assert (Q : x = x' /\ l1 = l1').
      { clear -Em' L; revert l1' L Em'; induction l1 as [|e l1 IHl]; intros [|e' l1'] L Em'; try discriminate.
        - injection Em' as ->; auto.
        - injection Em' as -> Em'; injection L as L; destruct (IHl _ L Em') as [-> ->]; auto. }
      destruct Q as [<- <-].
      assert (G : exists k1 y k2 o2 n2, l = k1 ++ (p, y) :: k2 /\ List.length k1 = List.length l1 /\
                  replace_headers_recursive st (path_join path p) p y = (x, o2, Ok n2)).
      { clear -El; revert l o' k El; induction l1 as [|e l1 IHl]; intros l o' k El.
        - destruct l as [|[q y] l]; [discriminate|]; cbn [app run_entries] in El.
          destruct (replace_headers_recursive st (path_join path q) q y) as [[y1 o1] [k1|e]] eqn:Ey; [|discriminate].
          destruct (run_entries st path l) as [[r2 o2] [k2|e]]; [|discriminate]; injection El as -> <- _ _ _.
          exists [], y, l, o1, k1; auto.
        - destruct l as [|[q y] l]; [discriminate|]; cbn [app run_entries] in El.
          destruct (replace_headers_recursive st (path_join path q) q y) as [[y1 o1] [k1|e0]] eqn:Ey; [|discriminate].
          destruct (run_entries st path l) as [[r2 o2] [k2|e0]] eqn:E2; [|discriminate]; injection El as _ -> _ _.
          destruct (IHl _ _ _ E2) as (a & y' & b & o3 & n3 & -> & Hl & Hr).
          exists ((q, y) :: a), y', b, o3, n3; cbn [List.length app]; rewrite Hl; auto. }
      destruct G as (k1 & y & k2 & o2 & n2 & -> & Hl & Hr).
      destruct (IH eq_refl _ _ _ Hr) as (c0 & V0).
      exists c0; apply visit_dir; assumption.
Qed.

Lemma visits_entry st path name p x l1 l2 c : l_except_dirs st path = false ->
  visits st (path_join path p) p x x c c -> visits st path name (Dir (l1 ++ (p, x) :: l2)) (Dir (l1 ++ (p, x) :: l2)) c c.
Proof. intros D V; apply visit_dir; auto. Qed.

(** A file that is left alone. *)
Definition settled (st : settings) (c : res text) : Prop :=
  exists s, c = Ok s /\ (l_except_content st s = true \/ exists a b, l_old st s = Some (a, b) /\ slice a b s = l_header st).

Lemma settled_run st : forall n path name, (forall c, visits st path name n n c c -> settled st c) ->
  exists out, replace_headers_recursive st path name n = (n, out, Ok 0).
Proof.
  intros n; induction n as [| |c|l IH] using node_ind'; intros path name H.
  - eexists; reflexivity.
  - eexists; reflexivity.
  - cbn [replace_headers_recursive]; destruct (l_matching st name) eqn:M; [|eexists; reflexivity].
    destruct (l_except_matching st name) eqn:X; [eexists; reflexivity|].
    destruct (H c (visit_file st path name c c M X)) as (s & -> & K); unfold replace_headers_file.
    destruct (l_except_content st s); [eexists; reflexivity|]; destruct K as [K|(a & b & -> & Hs)]; [discriminate|].
    rewrite Hs, eqb_refl; eexists; reflexivity.
  - rewrite run_dir; destruct (l_except_dirs st path) eqn:D; [eexists; reflexivity|].
    assert (G : exists out, run_entries st path l = (l, out, Ok 0)).
    { assert (H' : forall l1 p x l2 c, l = l1 ++ (p, x) :: l2 -> visits st (path_join path p) p x x c c -> settled st c)
        by (intros l1 p x l2 c -> V; apply H; apply visits_entry; assumption).
      clear H; induction IH as [|[p x] l Hx Hl IHl]; [eexists; reflexivity|]; cbn [run_entries]; cbn [snd] in Hx.
      destruct (Hx (path_join path p) p) as (o1 & E1); [intros c V; eapply (H' []); [reflexivity|exact V]|].
      rewrite E1; destruct IHl as (o2 & E2); [intros l1 q y l2 c -> V; eapply (H' ((p, x) :: l1)); [reflexivity|exact V]|].
      rewrite E2; eexists; reflexivity. }
    destruct G as (out & ->); eexists; reflexivity.
Qed.

(** What [re.search] for the old patterns or the header promises: [old s a b] says that one of the
    old patterns matches [s] from [a] to [b]. *)
Definition engine (st : settings) (old : text -> nat -> nat -> Prop) : Prop :=
  (forall s a b, l_old st s = Some (a, b) -> a <= b <= List.length s /\ (slice a b s = l_header st \/ old s a b)) /\
  (forall s, l_old st s = None -> ~ has_header st s /\ forall a b, ~ old s a b).

(** If in the files written by the first run the old patterns match at most the header itself, a
    second run changes nothing and says so. *)
Theorem C109_second_run_partial st old path name n n' out k :
  engine st old -> l_write st = true ->
  replace_headers_recursive st path name n = (n', out, Ok k) ->
  (forall s a b, visits st path name n' n' (Ok s) (Ok s) -> l_except_content st s = false -> old s a b -> slice a b s = l_header st) ->
  exists out', replace_headers_recursive st path name n' = (n', out', Ok 0).
Proof.
  intros [E1 E2] Hw E H; apply settled_run; intros c V.
  destruct (visits_back _ _ _ _ _ _ _ V eq_refl _ _ _ E) as (c0 & V0).
  assert (Hm : forall s a b, l_old st s = Some (a, b) -> a <= b) by (intros s a b Ho; apply E1 in Ho; lia).
  destruct (C108_every_file _ _ _ _ _ _ _ _ _ Hm Hw E V0) as (s & s' & -> & -> & K).
  exists s'; split; [reflexivity|]; destruct (l_except_content st s') eqn:X; [left; reflexivity|right].
  destruct K as [[K ->]|[_ K]]; [congruence|].
  destruct (l_old st s') as [[a b]|] eqn:Eo; [|apply E2 in Eo; tauto].
  exists a, b; split; [reflexivity|].
  destruct (E1 _ _ _ Eo) as [_ [G|G]]; [exact G|]; exact (H _ _ _ V X G).
Qed.

(** An engine for patterns without special characters: the leftmost match, the first
    alternative that matches there. *)
Fixpoint search_from (i : nat) (patterns : list text) (s : text) : option (nat * nat) :=
  match find (fun p => is_prefix p s) patterns with
  | Some p => Some (i, i + List.length p)
  | None => match s with [] => None | _ :: s' => search_from (S i) patterns s' end
  end.
Definition literal (header : text) (olds : list text) (write : bool) : settings :=
  {| l_header := header; l_old := search_from 0 (olds ++ [header]); l_except_dirs := fun _ => false;
     l_matching := fun _ => true; l_except_matching := fun _ => false; l_except_content := fun _ => false;
     l_write := write; l_verbose := false |}.

(** An old pattern that matches a proper start of the new header: the tool never settles; each
    run repeats the end of the header once more. *)
Theorem C109_refuted p r t path name : r <> [] ->
  replace_headers_recursive (literal (p ++ r) [p] true) path name (File (Ok (p ++ r ++ t))) =
  (File (Ok (p ++ r ++ r ++ t)), [(path, Replacing)], Ok 1).
Proof.
  intros Hr; cbn [replace_headers_recursive literal l_matching l_except_matching].
  unfold replace_headers_file; cbn [literal l_except_content l_old l_write l_header].
  assert (E : search_from 0 ([p] ++ [p ++ r]) (p ++ r ++ t) = Some (0, List.length p)).
  { assert (P : is_prefix p (p ++ r ++ t) = true) by (apply is_prefix_app; eauto).
    destruct (p ++ r ++ t) eqn:Ep; cbn [search_from app find]; rewrite P; reflexivity. }
  rewrite E; unfold slice; cbn [skipn firstn app]; rewrite Nat.sub_0_r, firstn_app, Nat.sub_diag, firstn_all.
  cbn [firstn]; rewrite app_nil_r.
  destruct (eqb_spec p (p ++ r)) as [Q|Q].
  - exfalso; apply Hr; apply (f_equal (@List.length _)) in Q; rewrite app_length in Q; destruct r; [reflexivity|cbn in Q; lia].
  - rewrite skipn_app, Nat.sub_diag, skipn_all; cbn [skipn app]; rewrite <- app_assoc; reflexivity.
Qed.

(** ** C110: which runs fail *)
Theorem C110_fails_exactly st path name n :
  (exists e, snd (replace_headers_recursive st path name n) = Err e) <->
  exists c, visits st path name n n c c /\
    ((exists e, c = Err e) \/ c = Ok [] /\ l_except_content st [] = false /\ l_old st [] = None).
Proof.
  revert path name; induction n as [| |c|l IH] using node_ind'; intros path name.
  - split; [intros [e E]; discriminate|intros (c & V & _); inversion V].
  - split; [intros [e E]; discriminate|intros (c & V & _); inversion V].
  - cbn [replace_headers_recursive]; destruct (l_matching st name) eqn:M;
      [|split; [intros [e E]; discriminate|intros (c' & V & _); inversion V; congruence]].
    destruct (l_except_matching st name) eqn:X;
      [split; [intros [e E]; discriminate|intros (c' & V & _); inversion V; congruence]|].
    assert (Q : (exists e, snd (replace_headers_file st path c) = Err e) <->
                ((exists e, c = Err e) \/ c = Ok [] /\ l_except_content st [] = false /\ l_old st [] = None)).
    { unfold replace_headers_file; destruct c as [s|e]; [|split; [left; eauto|intros _; eexists; reflexivity]].
      destruct (l_except_content st s) eqn:Xc.
      { split; [intros [e E]; discriminate|]; intros [[e E]|(E & K & _)]; [discriminate|]; injection E as ->; congruence. }
      destruct (l_old st s) as [[a b]|] eqn:Eo.
      { split; [destruct (eqb (slice a b s) (l_header st)); intros [e E]; discriminate|].
        intros [[e E]|(E & _ & K)]; [discriminate|]; injection E as ->; congruence. }
      destruct (splitlines s) as [|line rest] eqn:El; cbn [snd].
      - apply splitlines_nil in El; subst s; split; [intros _; right; auto|intros _; eexists; reflexivity].
      - split; [intros [e E]; discriminate|]; intros [[e E]|(E & _)]; [discriminate|]; injection E as ->; discriminate. }
    transitivity (exists e, snd (replace_headers_file st path c) = Err e).
    { destruct (replace_headers_file st path c) as [[[s|] o] r]; cbn [snd]; reflexivity. }
    rewrite Q; split.
    + intros K; exists c; split; [constructor; assumption|exact K].
    + intros (c' & V & K); inversion V; subst; exact K.
  - rewrite run_dir; destruct (l_except_dirs st path) eqn:D.
    { split; [intros [e E]; discriminate|]; intros (c & V & _); inversion V; congruence. }
    assert (G : (exists e, snd (run_entries st path l) = Err e) <-> exists p x c, In (p, x) l /\ visits st (path_join path p) p x x c c /\
      ((exists e, c = Err e) \/ c = Ok [] /\ l_except_content st [] = false /\ l_old st [] = None)).
    { induction IH as [|[p x] l Hx Hl IHl]; cbn [run_entries].
      - split; [intros [e E]; discriminate|intros (p & x & c & [] & _)].
      - cbn [snd] in Hx; specialize (Hx (path_join path p) p).
        destruct (replace_headers_recursive st (path_join path p) p x) as [[x' o] [k|e]]; cbn [snd] in Hx.
        + destruct (run_entries st path l) as [[r2 o2] [k2|e2]]; cbn [snd] in *; split.
          * intros [e E]; discriminate.
          * intros (q & y & c & [Q|Q] & V & K).
            { injection Q as <- <-; destruct (proj2 Hx (ex_intro _ c (conj V K))) as [e E]; discriminate. }
            { destruct (proj2 IHl) as [e E]; [exists q, y, c; auto|discriminate]. }
          * intros _; destruct (proj1 IHl (ex_intro _ _ eq_refl)) as (q & y & c & Q & V & K).
            exists q, y, c; split; [right; exact Q|auto].
          * intros _; eexists; reflexivity.
        + split; [intros _|intros _; eexists; reflexivity].
          destruct (proj1 Hx (ex_intro _ _ eq_refl)) as (c & V & K); exists p, x, c; split; [left; reflexivity|auto]. }
    transitivity (exists e, snd (run_entries st path l) = Err e).
    { destruct (run_entries st path l) as [[l' o] r]; reflexivity. }
    rewrite G; split.
    + intros (p & x & c & Hin & V & K); apply in_split in Hin; destruct Hin as (l1 & l2 & ->).
      exists c; split; [apply visits_entry; assumption|exact K].
    + intros (c & V & K); inversion V as [|? ? l1 l1' p x x' l2 l2' ? ? _ L V']; subst.
      assert (Q : x' = x).
      { match goal with H : _ = _ ++ _ |- _ => rename H into Em end.
        clear -Em L; revert l1' L Em; induction l1 as [|e l1 IHl]; intros [|e' l1'] L Em; try discriminate.
        - injection Em as -> _; reflexivity.
        - injection Em as _ Em; injection L as L; eapply IHl; eassumption. }
      subst x'; exists p, x, c; split; [apply in_elt|auto].
Qed.

(** An empty file, such as the usual __init__.py, stops the run: the files listed after it
    keep what they had. *)
Theorem C110_empty_file_refuted st path name x rest : l_except_dirs st path = false ->
  l_matching st x = true -> l_except_matching st x = false -> l_except_content st [] = false -> l_old st [] = None ->
  exists out, replace_headers_recursive st path name (Dir ((x, File (Ok [])) :: rest)) = (Dir ((x, File (Ok [])) :: rest), out, Err IndexError).
Proof.
  intros D M X C O; rewrite run_dir, D; cbn [run_entries replace_headers_recursive]; rewrite M, X.
  unfold replace_headers_file; rewrite C, O; eexists; reflexivity.
Qed.

(** ** C111: options that may be left out *)
Definition all_given (o : options) : Prop :=
  o_old o <> None /\ o_except_dirs o <> None /\ o_matching o <> None /\ o_except_matching o <> None /\ o_except_content o <> None.

(** The tool gets past its arguments only if every option that is documented as repeatable, and
    not as required, is given at least once. *)
Theorem C111_optional_refuted read escape translate search matches o st :
  process_args read escape translate search matches o = Ok st -> all_given o.
Proof.
  unfold process_args, all_given, given; destruct (read (o_license o)); [|discriminate]; cbn [bind].
  destruct (o_old o); [|discriminate]; cbn [bind]; destruct (mapM read l); [|discriminate]; cbn [bind].
  destruct (o_except_dirs o); [|discriminate]; destruct (o_matching o); [|discriminate];
    destruct (o_except_matching o); [|discriminate]; destruct (o_except_content o); [|discriminate].
  intros _; repeat split; discriminate.
Qed.

(** With all of them given and all pattern files readable, the settings are those documented: the
    header is the license file, a name is selected by the globs of --matching and left out by
    those of --except-matching, and so on. *)
Theorem C111_given_partial read escape translate search matches o header olds dirs ms ems ecs :
  read (o_license o) = Ok header ->
  (exists fs, o_old o = Some fs /\ Forall2 (fun f p => read f = Ok p) fs olds) ->
  o_except_dirs o = Some dirs -> o_matching o = Some ms -> o_except_matching o = Some ems -> o_except_content o = Some ecs ->
  exists st, process_args read escape translate search matches o = Ok st /\
    l_header st = header /\ l_write st = o_write o /\ l_verbose st = o_verbose o /\
    (forall s, l_old st s = search (join [124%N] (olds ++ [escape header])) s) /\
    (forall s, l_except_dirs st s = matches (join [124%N] (map translate dirs)) s) /\
    (forall s, l_matching st s = matches (join [124%N] (map translate ms)) s) /\
    (forall s, l_except_matching st s = matches (join [124%N] (map translate ems)) s) /\
    (forall s, l_except_content st s = true <-> search (join [124%N] ecs) s <> None).
Proof.
  intros Hr (fs & Ho & HF) Hd Hm He Hc; unfold process_args, given; rewrite Hr, Ho, Hd, Hm, He, Hc; cbn [bind].
  assert (E : mapM read fs = Ok olds).
  { clear Ho; induction HF as [|f p fs ps Hf HF IH]; [reflexivity|]; cbn [mapM]; rewrite Hf; cbn [bind]; rewrite IH; reflexivity. }
  rewrite E; cbn [bind]; eexists; split; [reflexivity|]; repeat (split; [reflexivity|]).
  cbn [l_except_content]; intros s; change bar with [124%N]; destruct (search (join [124%N] ecs) s); split; intros H; try discriminate; try reflexivity; contradiction H; reflexivity.
Qed.

(** ** Concrete cases *)
Lemma search_from_spec ps : forall s i,
  match search_from i ps s with
  | Some (a, b) => exists k p, a = i + k /\ b = a + List.length p /\ In p ps /\ is_prefix p (skipn k s) = true /\ k <= List.length s
  | None => forall k p, In p ps -> k <= List.length s -> is_prefix p (skipn k s) = false
  end.
Proof.
  induction s as [|c s IH]; intros i; cbn [search_from].
  - destruct (find (fun p => is_prefix p []) ps) as [p|] eqn:F.
    + apply find_some in F; destruct F as [Hin Hp]; exists 0, p; cbn [skipn List.length]; repeat split; auto; lia.
    + intros k p Hin Hk; destruct k; [|cbn in Hk; lia]; exact (find_none _ _ F p Hin).
  - destruct (find (fun p => is_prefix p (c :: s)) ps) as [p|] eqn:F.
    + apply find_some in F; destruct F as [Hin Hp]; exists 0, p; cbn [skipn List.length]; repeat split; auto; lia.
    + specialize (IH (S i)); destruct (search_from (S i) ps s) as [[a b]|].
      * destruct IH as (k & p & -> & -> & Hin & Hp & Hk); exists (S k), p; cbn [skipn List.length]; repeat split; auto; lia.
      * intros k p Hin Hk; destruct k as [|k]; [exact (find_none _ _ F p Hin)|]; cbn [skipn]; apply IH; [exact Hin|cbn in Hk; lia].
Qed.

(** The literal engine is an engine in the sense of C109. *)
Lemma literal_engine header olds w :
  engine (literal header olds w) (fun s a b => exists p, In p olds /\ b = a + List.length p /\ slice a b s = p /\ b <= List.length s).
Proof.
  split.
  - intros s a b E; cbn [literal l_old] in E; pose proof (search_from_spec (olds ++ [header]) s 0) as H; rewrite E in H.
    destruct H as (k & p & -> & -> & Hin & Hp & Hk); cbn [Nat.add]; apply is_prefix_app in Hp; destruct Hp as (r & Hp).
    assert (L : k + List.length p <= List.length s).
    { pose proof (skipn_length k s) as Q; rewrite Hp, app_length in Q; lia. }
    assert (Sl : slice k (k + List.length p) s = p).
    { unfold slice; rewrite Hp; replace (k + List.length p - k) with (List.length p) by lia.
      rewrite firstn_app, Nat.sub_diag, firstn_all; cbn [firstn]; apply app_nil_r. }
    split; [lia|]; rewrite Sl; apply in_app_or in Hin; destruct Hin as [Hin|[<-|[]]]; [right; exists p; auto|left; reflexivity].
  - intros s E; cbn [literal l_old] in E; pose proof (search_from_spec (olds ++ [header]) s 0) as H; rewrite E in H; split.
    + intros (a & b & Hs); cbn [literal l_header] in Hs.
      specialize (H (List.length a) header); assert (Hin : In header (olds ++ [header])) by (apply in_or_app; right; left; reflexivity); specialize (H Hin).
      assert (Q : is_prefix header (skipn (List.length a) s) = true); [|rewrite H in Q; [discriminate|rewrite Hs, app_length; lia]].
      apply is_prefix_app; exists b; rewrite Hs, skipn_app, Nat.sub_diag, skipn_all; reflexivity.
    + intros a b (p & Hin & -> & Hs & Hb).
      assert (Q : is_prefix p (skipn a s) = false) by (apply H; [apply in_or_app; left; exact Hin|lia]).
      assert (Q' : is_prefix p (skipn a s) = true); [|congruence].
      apply is_prefix_app; unfold slice in Hs; replace (a + List.length p - a) with (List.length p) in Hs by lia.
      exists (skipn (List.length p) (skipn a s)); rewrite <- Hs at 1; symmetry; apply firstn_skipn.
Qed.

Definition ex_header : text := u "# Copyright" ++ [newline].
Definition ex_tree : node :=
  Dir [(u "a.py", File (Ok (u "#!/bin/sh" ++ [newline] ++ u "x" ++ [newline]))); (u "link", Link);
       (u "sub", Dir [(u "b.py", File (Ok (u "# Old" ++ [newline] ++ u "y" ++ [newline])));
                      (u "c.py", File (Ok (ex_header ++ u "z")))])].
Definition ex_settings (w : bool) : settings := literal ex_header [u "# Old" ++ [newline]] w.

(** Two files are changed, in the dry run none; a second run changes nothing. *)
Example C107_nonvacuous :
  replace_headers_recursive (ex_settings false) (u "src") (u "src") ex_tree =
  (ex_tree, [(u "src/a.py", Inserting); (u "src/sub/b.py", Replacing); (u "src/sub/c.py", UpToDate)], Ok 2).
Proof. vm_compute; reflexivity. Qed.

Definition ex_after : node :=
  Dir [(u "a.py", File (Ok (u "#!/bin/sh" ++ [newline] ++ [newline] ++ ex_header ++ [newline] ++ u "x" ++ [newline]))); (u "link", Link);
       (u "sub", Dir [(u "b.py", File (Ok (ex_header ++ u "y" ++ [newline])));
                      (u "c.py", File (Ok (ex_header ++ u "z")))])].
Example C108_nonvacuous :
  replace_headers_recursive (ex_settings true) (u "src") (u "src") ex_tree =
  (ex_after, [(u "src/a.py", Inserting); (u "src/sub/b.py", Replacing); (u "src/sub/c.py", UpToDate)], Ok 2) /\
  visits (ex_settings true) (u "src") (u "src") ex_tree ex_after
    (Ok (u "# Old" ++ [newline] ++ u "y" ++ [newline])) (Ok (ex_header ++ u "y" ++ [newline])).
Proof.
  split; [vm_compute; reflexivity|].
  apply (visit_dir _ _ _ [_; _] [_; _] (u "sub") _ _ [] []); [reflexivity|reflexivity|].
  apply (visit_dir _ _ _ [] [] (u "b.py") _ _ [_] [_]); [reflexivity|reflexivity|].
  constructor; reflexivity.
Qed.

Lemma visits_inside st path name l c : visits st path name (Dir l) (Dir l) c c ->
  exists p x, In (p, x) l /\ visits st (path_join path p) p x x c c.
Proof.
  intros V; inversion V as [|? ? l1 l1' p x x' l2 l2' ? ? _ L V']; subst.
  assert (Q : x' = x).
  { match goal with H : _ = _ ++ _ |- _ => rename H into Em end.
    clear -Em L; revert l1' L Em; induction l1 as [|e l1 IHl]; intros [|e' l1'] L Em; try discriminate.
    - injection Em as -> _; reflexivity.
    - injection Em as _ Em; injection L as L; eapply IHl; eassumption. }
  subst x'; exists p, x; split; [apply in_elt|exact V'].
Qed.

Lemma ex_visits s : visits (ex_settings true) (u "src") (u "src") ex_after ex_after (Ok s) (Ok s) ->
  search_from 0 [u "# Old" ++ [newline]] s = None.
Proof.
  assert (H : forall c, visits (ex_settings true) (u "src") (u "src") ex_after ex_after c c ->
    c = Ok (u "#!/bin/sh" ++ [newline] ++ [newline] ++ ex_header ++ [newline] ++ u "x" ++ [newline]) \/
    c = Ok (ex_header ++ u "y" ++ [newline]) \/ c = Ok (ex_header ++ u "z")).
  { intros c V; apply visits_inside in V; destruct V as (p & x & [E|[E|[E|[]]]] & V); injection E as <- <-.
    - inversion V; subst; auto.
    - inversion V.
    - apply visits_inside in V; destruct V as (p & x & [E|[E|[]]] & V); injection E as <- <-; inversion V; subst; auto. }
  intros V; destruct (H _ V) as [E|[E|E]]; injection E as ->; vm_compute; reflexivity.
Qed.

(** All hypotheses of C109 hold of this run. *)
Example C109_nonvacuous : exists out,
  replace_headers_recursive (ex_settings true) (u "src") (u "src") ex_after = (ex_after, out, Ok 0).
Proof.
  eapply C109_second_run_partial; [apply literal_engine|reflexivity|exact (proj1 C108_nonvacuous)|].
  intros s a b V _ (p & [<-|[]] & Hb & Hs & Hl); exfalso.
  pose proof (search_from_spec [u "# Old" ++ [newline]] s 0) as Q; rewrite (ex_visits s V) in Q.
  specialize (Q a _ (or_introl eq_refl)).
  assert (Z : is_prefix (u "# Old" ++ [newline]) (skipn a s) = true); [|rewrite Q in Z; [discriminate|lia]].
  apply is_prefix_app; unfold slice in Hs; exists (skipn (b - a) (skipn a s)).
  rewrite <- Hs; symmetry; apply firstn_skipn.
Qed.

(** The header "# (c) me" and an old pattern "# (c)". *)
Example C109_grows :
  replace_headers_recursive (literal (u "# (c) me") [u "# (c)"] true) (u "a") (u "a") (File (Ok (u "# (c) me, x"))) =
  (File (Ok (u "# (c) me me, x")), [(u "a", Replacing)], Ok 1).
Proof. vm_compute; reflexivity. Qed.

Example C110_nonvacuous :
  replace_headers_recursive (ex_settings true) (u "src") (u "src")
    (Dir [(u "__init__.py", File (Ok [])); (u "a.py", File (Ok (u "x")))]) =
  (Dir [(u "__init__.py", File (Ok [])); (u "a.py", File (Ok (u "x")))], [], Err IndexError).
Proof. vm_compute; reflexivity. Qed.

Print Assumptions C107_dry_run.
Print Assumptions C107_predicts.
Print Assumptions C107_count.
Print Assumptions C108_only_headers.
Print Assumptions C108_every_file.
Print Assumptions C109_second_run_partial.
Print Assumptions C109_refuted.
Print Assumptions C110_fails_exactly.
Print Assumptions C110_empty_file_refuted.
Print Assumptions C111_optional_refuted.
Print Assumptions C111_given_partial.
Print Assumptions C108_lines.
