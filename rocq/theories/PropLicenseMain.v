(** C129: what the license header tool says at the end. *)
From Verif Require Import Base Dict PyVal Sources Util Paths License PropLicense.
From Coq Require Import Lia.

(** ** Specification *)
(** The number of files that have another content in [n'] than in [n], for two trees with the same
    directories. *)
Fixpoint changed_files (n n' : node) : nat :=
  match n, n' with
  | File (Ok s), File (Ok s') => if eqb s s' then 0 else 1
  | Dir l, Dir l' =>
    (fix go (l l' : list (text * node)) : nat :=
       match l, l' with
       | e :: l, e' :: l' => changed_files (snd e) (snd e') + go l l'
       | _, _ => 0
       end) l l'
  | _, _ => 0
  end.

(** No path leads to or into another one. *)
Definition apart (p q : list text) : Prop := ~ (exists r, q = p ++ r) /\ ~ (exists r, p = q ++ r).
Definition separate (paths : list argument) : Prop := ForallOrdPairs apart (map snd paths).

(** The header is not empty and the search answers with spans. *)
Definition sensible (st : settings) : Prop :=
  l_header st <> [] /\ (forall s a b, l_old st s = Some (a, b) -> a <= b).

(** ** Proofs *)
Fixpoint changed_list (l l' : list (text * node)) : nat :=
  match l, l' with
  | e :: l, e' :: l' => changed_files (snd e) (snd e') + changed_list l l'
  | _, _ => 0
  end.
Lemma changed_dir l l' : changed_files (Dir l) (Dir l') = changed_list l l'.
Proof. cbn [changed_files]; revert l'; induction l as [|e l IH]; intros [|e' l']; try reflexivity; cbn [changed_list]; rewrite <- (IH l'); reflexivity. Qed.

Lemma changed_refl n : changed_files n n = 0.
Proof.
  induction n as [| |c|l IH] using node_ind'; [reflexivity..| |].
  - cbn [changed_files]; destruct c; [rewrite eqb_refl; reflexivity|reflexivity].
  - rewrite changed_dir; induction IH as [|e l He Hl IHl]; [reflexivity|]; cbn [changed_list]; rewrite He, IHl; reflexivity.
Qed.

Inductive shape : node -> node -> Prop :=
| sh_link : shape Link Link
| sh_special : shape Special Special
| sh_file c c' : is_ok c = is_ok c' -> shape (File c) (File c')
| sh_dir l l' : Forall2 (fun e e' => fst e = fst e' /\ shape (snd e) (snd e')) l l' -> shape (Dir l) (Dir l').

Lemma shape_refl n : shape n n.
Proof.
  induction n as [| |c|l IH] using node_ind'; [constructor; reflexivity..|]; constructor.
  induction IH as [|e l He Hl IHl]; constructor; auto.
Qed.

Lemma shape_get (x : text) (l l' : dict text node) : Forall2 (fun e e' : text * node => fst e = fst e' /\ shape (snd e) (snd e')) l l' ->
  (get x l = None /\ get x l' = None) \/
  (exists k k', get x l = Some k /\ get x l' = Some k' /\ shape k k').
Proof.
  induction 1 as [|[y k] [y' k'] l l' [Hy Hk] Hl IH]; [left; split; reflexivity|]; cbn [fst snd] in Hy, Hk; subst y'.
  rewrite !get_cons; destruct (eqb x y); [right; eauto 6|exact IH].
Qed.

Lemma shape_put p : forall n n' m, shape n n' -> shape (at_path n p) m -> shape n (put_path n' p m).
Proof.
  induction p as [|x p IH]; intros n n' m Hn Hm; [exact Hm|]; cbn [at_path put_path] in *.
  destruct Hn as [| |c c' Hc|l l' Hl]; [constructor|constructor|constructor; exact Hc|].
  destruct (shape_get x l l' Hl) as [[E E']|(k & k' & E & E' & Hk)]; rewrite E in Hm; rewrite E'; [constructor; exact Hl|].
  constructor; specialize (IH k k' m Hk Hm); clear Hm Hk.
  revert k k' E E' IH; induction Hl as [|[y a] [y' a'] l l' [Hy Ha] Hl IHl]; intros k k' E E' Q; [discriminate|].
  cbn [fst snd] in Hy, Ha; subst y'; rewrite get_cons in E, E'; rewrite set_cons; destruct (eqb_spec x y) as [->|N].
  - injection E as ->; injection E' as ->; constructor; [split; [reflexivity|exact Q]|exact Hl].
  - constructor; [split; [reflexivity|exact Ha]|eauto].
Qed.

Lemma changed_put p : forall n0 n1 m, shape n0 n1 -> shape (at_path n0 p) m -> at_path n0 p = at_path n1 p ->
  changed_files n0 (put_path n1 p m) = changed_files n0 n1 + changed_files (at_path n0 p) m.
Proof.
  induction p as [|x p IH]; intros n0 n1 m Hn Hm He; cbn [at_path put_path] in *; [subst n1; rewrite changed_refl; reflexivity|].
  destruct Hn as [| |c c' Hc|l l' Hl]; [inversion Hm; subst; cbn [changed_files]; lia..|].
  - destruct (shape_get x l l' Hl) as [[E E']|(k & k' & E & E' & Hk)]; rewrite E, E' in *;
      [inversion Hm; cbn [changed_files]; lia|].
    specialize (IH k k' m Hk Hm He); rewrite !changed_dir.
    revert E E'; clear He Hk; induction Hl as [|[y a] [y' a'] l l' [Hy Ha] Hl IHl]; intros E E'; [discriminate|].
    cbn [fst snd] in Hy, Ha; subst y'; rewrite get_cons in E, E'; rewrite set_cons; destruct (eqb_spec x y) as [->|N].
    + injection E as ->; injection E' as ->; cbn [changed_list snd]; rewrite IH; lia.
    + cbn [changed_list snd]; rewrite (IHl E E'); lia.
Qed.

Lemma put_same p : forall n, put_path n p (at_path n p) = n.
Proof.
  induction p as [|x p IH]; intros n; [reflexivity|]; cbn [at_path put_path]; destruct n as [|c|l|]; try reflexivity.
  destruct (get x l) as [k|] eqn:E; [|reflexivity]; rewrite IH; f_equal.
  revert E; induction l as [|[y a] l IHl]; intros E; [discriminate|]; rewrite get_cons in E; rewrite set_cons.
  destruct (eqb_spec x y) as [->|N]; [injection E as ->; reflexivity|rewrite (IHl E); reflexivity].
Qed.

Lemma at_put p : forall q n m, apart p q -> at_path (put_path n p m) q = at_path n q.
Proof.
  induction p as [|x p IH]; intros q n m [H1 H2]; [exfalso; apply H1; exists q; reflexivity|].
  destruct q as [|y q]; [exfalso; apply H2; eexists; reflexivity|]; cbn [put_path].
  destruct n as [|c|l|]; try reflexivity; destruct (get x l) as [k|] eqn:E; [|reflexivity]; cbn [at_path].
  destruct (eqb_spec y x) as [->|N].
  - rewrite get_set_same, E; apply IH; split; intros [r Hr]; [apply H1|apply H2]; exists r; rewrite Hr; reflexivity.
  - rewrite get_set_other by congruence; reflexivity.
Qed.

Lemma count_changed st path name n n' out c : sensible st -> l_write st = true ->
  replace_headers_recursive st path name n = (n', out, Ok c) -> shape n n' /\ changed_files n n' = c.
Proof.
  intros [Hh Ho] Hw; revert path name n' out c; induction n as [| |x|l IH] using node_ind'; intros path name n' out c E.
  - injection E as <- _ <-; split; constructor.
  - injection E as <- _ <-; split; constructor.
  - cbn [replace_headers_recursive] in E.
    assert (Same : (File x, remark st path, Ok 0) = (n', out, Ok c) -> shape (File x) n' /\ changed_files (File x) n' = c).
    { intros Q; injection Q as <- _ <-; split; [constructor; reflexivity|apply changed_refl]. }
    destruct (l_matching st name); [|apply Same; exact E].
    destruct (l_except_matching st name); [apply Same; exact E|]; clear Same.
    destruct x as [s|e]; [|cbn in E; discriminate].
    destruct (replace_headers_file st path (Ok s)) as [[o out0] r0] eqn:Ef.
    destruct (file_written _ _ _ _ _ _ Hw Ef) as [[-> H]|(Hc & -> & s' & -> & H)]; injection E as <- _ E; (split; [constructor; reflexivity|]).
    + rewrite changed_refl; destruct (l_except_content st s) eqn:Hx; [|destruct H as [H|[(a & b & Hs & Ht)|(_ & _ & H)]]; [discriminate| |]].
      * cbn in Ef; unfold replace_headers_file in Ef; rewrite Hx in Ef; injection Ef as _ <-; congruence.
      * unfold replace_headers_file in Ef; rewrite Hx, Hs, Ht, eqb_refl in Ef; injection Ef as _ <-; congruence.
      * congruence.
    + subst c; cbn [changed_files]; destruct (eqb_spec s s') as [<-|N]; [exfalso|reflexivity].
      destruct H as [(a & b & Hs & Ht & Hr)|(_ & line & rest & b & a & g1 & g2 & _ & Hs & Hr & _)].
      * rewrite (slice_split a b s) in Hr at 1 by (eapply Ho; exact Hs).
        apply app_inv_head, app_inv_tail in Hr; congruence.
      * assert (L : List.length s = List.length b + List.length a) by (rewrite Hs, app_length; reflexivity).
        rewrite Hr, !app_length in L.
        destruct (l_header st); [congruence|cbn [List.length] in L; lia].
  - rewrite run_dir in E; destruct (l_except_dirs st path).
    + injection E as <- _ <-; split; [apply shape_refl|apply changed_refl].
    + destruct (run_entries st path l) as [[l' o'] r'] eqn:El; injection E as <- _ ->; rewrite changed_dir.
      assert (G : Forall2 (fun e e' => fst e = fst e' /\ shape (snd e) (snd e')) l l' /\ changed_list l l' = c);
        [|destruct G; split; [constructor; assumption|assumption]].
      revert l' o' c El; induction IH as [|[p x] l Hx Hl IHl]; intros l' o' c El; [injection El as <- _ <-; split; [constructor|reflexivity]|].
      cbn [run_entries] in El; cbn [snd] in Hx.
      destruct (replace_headers_recursive st (path_join path p) p x) as [[x' o1] [c1|e]] eqn:Ex; [|discriminate].
      apply Hx in Ex; destruct Ex as [Sx Cx].
      destruct (run_entries st path l) as [[l1 o2] [c2|e]] eqn:E1; [|discriminate].
      injection El as <- _ <-; destruct (IHl _ _ _ eq_refl) as [S1 C1]; split; [constructor; [split; [reflexivity|exact Sx]|exact S1]|].
      cbn [changed_list snd]; congruence.
Qed.

Lemma changed_triangle n : forall n1 n2, shape n n1 -> shape n1 n2 ->
  changed_files n n2 <= changed_files n n1 + changed_files n1 n2.
Proof.
  induction n as [| |c|l IH] using node_ind'; intros n1 n2 H1 H2; inversion H1 as [| |c0 c1 Hc|l0 l1 Hl]; subst; try (cbn [changed_files]; lia).
  - inversion H2 as [| |c2 c3 Hc'|]; subst; cbn [changed_files].
    destruct c as [s|], c1 as [s1|], c3 as [s2|]; try discriminate; try lia.
    destruct (eqb_spec s s1) as [<-|]; destruct (eqb_spec s s2); lia.
  - inversion H2 as [| | |l2 l3 Hl']; subst; rewrite !changed_dir.
    clear H1 H2; revert l1 l3 Hl Hl'; induction IH as [|e l He Hl IHl]; intros l1 l3 Hl1 Hl3; [cbn [changed_list]; lia|].
    inversion Hl1 as [|? e1 ? l1' [_ S1] Hl1']; subst; inversion Hl3 as [|? e3 ? l3' [_ S3] Hl3']; subst; cbn [changed_list].
    specialize (He _ _ S1 S3); specialize (IHl _ _ Hl1' Hl3'); lia.
Qed.

Lemma shape_trans n : forall n1 n2, shape n n1 -> shape n1 n2 -> shape n n2.
Proof.
  induction n as [| |c|l IH] using node_ind'; intros n1 n2 H1 H2; inversion H1 as [| |c0 c1 Hc|l0 l1 Hl]; subst; try exact H2.
  - inversion H2 as [| |c2 c3 Hc'|]; subst; constructor; congruence.
  - inversion H2 as [| | |l2 l3 Hl']; subst; constructor.
    clear H1 H2; revert l1 l3 Hl Hl'; induction IH as [|e l He Hl IHl]; intros l1 l3 Hl1 Hl3;
      inversion Hl1 as [|? e1 ? l1' [F1 S1] Hl1']; subst; inversion Hl3 as [|? e3 ? l3' [F3 S3] Hl3']; subst; [constructor|].
    constructor; [split; [congruence|eapply He; eassumption]|eapply IHl; eassumption].
Qed.

Lemma replace_headers_at_most st : sensible st -> l_write st = true -> forall paths root root' out c,
  replace_headers st root paths = (root', out, Ok c) -> shape root root' /\ changed_files root root' <= c.
Proof.
  intros Hs Hw; induction paths as [|[path comps] paths IH]; intros root root' out c E; cbn [replace_headers] in E.
  - injection E as <- _ <-; split; [apply shape_refl|rewrite changed_refl; lia].
  - destruct (replace_headers_recursive st path (basename path) (at_path root comps)) as [[m o1] [c1|e]] eqn:E1; [|discriminate].
    destruct (count_changed _ _ _ _ _ _ _ Hs Hw E1) as [Sm Cm].
    destruct (replace_headers st (put_path root comps m) paths) as [[root2 o2] [c2|e]] eqn:E2; [|discriminate].
    injection E as <- _ <-; destruct (IH _ _ _ _ E2) as [S2 C2].
    pose proof (shape_put comps root root m (shape_refl root) Sm) as S1.
    split; [eapply shape_trans; eassumption|].
    pose proof (changed_triangle _ _ _ S1 S2) as T.
    pose proof (changed_put comps root root m (shape_refl root) Sm eq_refl) as C1; rewrite changed_refl in C1; lia.
Qed.

Lemma replace_headers_changed st : sensible st -> l_write st = true -> forall paths root0 root1 root' out c,
  separate paths -> shape root0 root1 ->
  (forall a, In a paths -> at_path root0 (snd a) = at_path root1 (snd a)) ->
  replace_headers st root1 paths = (root', out, Ok c) ->
  changed_files root0 root' = changed_files root0 root1 + c.
Proof.
  intros Hs Hw; induction paths as [|[path comps] paths IH]; intros root0 root1 root' out c Sep Sh At E; cbn [replace_headers] in E.
  - injection E as <- _ <-; lia.
  - destruct (replace_headers_recursive st path (basename path) (at_path root1 comps)) as [[m o1] [c1|e]] eqn:E1; [|discriminate].
    destruct (count_changed _ _ _ _ _ _ _ Hs Hw E1) as [Sm Cm].
    destruct (replace_headers st (put_path root1 comps m) paths) as [[root2 o2] [c2|e]] eqn:E2; [|discriminate].
    injection E as <- _ <-; unfold separate in Sep; cbn [map snd] in Sep.
    inversion Sep as [|x l Hd Sep' Hx]; subst x l.
    pose proof (At _ (or_introl eq_refl)) as A0; cbn [snd] in A0; rewrite <- A0 in Sm, Cm.
    rewrite (IH root0 (put_path root1 comps m) root2 o2 c2 Sep' (shape_put _ _ _ _ Sh Sm)); [|clear E2|exact E2].
    + rewrite (changed_put comps root0 root1 m Sh Sm A0), Cm; lia.
    + intros a Ha; rewrite at_put; [apply At; right; exact Ha|].
      rewrite Forall_forall in Hd; apply Hd; apply in_map; exact Ha.
Qed.

Lemma replace_headers_dry st : forall paths root root' out r, l_write st = false ->
  replace_headers st root paths = (root', out, r) -> root' = root.
Proof.
  induction paths as [|[path comps] paths IH]; intros root root' out r Hw E; cbn [replace_headers] in E.
  - injection E as <- _ _; reflexivity.
  - destruct (replace_headers_recursive st path (basename path) (at_path root comps)) as [[m o1] [c1|e]] eqn:E1;
      apply C107_dry_run in E1; [|exact Hw| |exact Hw]; subst m; rewrite put_same in E; [|injection E as <- _ _; reflexivity].
    destruct (replace_headers st root paths) as [[root2 o2] r2] eqn:E2; injection E as <- _ _; eauto.
Qed.

Lemma replace_headers_predicts st : forall paths rd rw,
  separate paths -> (forall a, In a paths -> at_path rd (snd a) = at_path rw (snd a)) ->
  let dry := replace_headers (with_write false st) rd paths in
  let wet := replace_headers (with_write true st) rw paths in
  snd (fst dry) = snd (fst wet) /\ snd dry = snd wet.
Proof.
  induction paths as [|[path comps] paths IH]; intros rd rw Sep At; cbv zeta; cbn [replace_headers]; [split; reflexivity|].
  pose proof (At _ (or_introl eq_refl)) as A0; cbn [snd] in A0; rewrite <- A0.
  pose proof (C107_predicts st path (basename path) (at_path rd comps)) as P; cbv zeta in P.
  destruct (replace_headers_recursive (with_write false st) path (basename path) (at_path rd comps)) as [[m1 o1] r1] eqn:E1.
  destruct (replace_headers_recursive (with_write true st) path (basename path) (at_path rd comps)) as [[m2 o2] r2] eqn:E2.
  cbn [fst snd] in P; destruct P as [-> ->]; destruct r2 as [c|e]; [|split; reflexivity].
  apply C107_dry_run in E1; [|reflexivity]; subst m1; rewrite put_same.
  unfold separate in Sep; cbn [map snd] in Sep; inversion Sep as [|x l Hd Sep' Hx]; subst x l.
  assert (At' : forall a, In a paths -> at_path rd (snd a) = at_path (put_path rw comps m2) (snd a)).
  { intros a Ha; rewrite at_put; [apply At; right; exact Ha|]; rewrite Forall_forall in Hd; apply Hd, in_map, Ha. }
  specialize (IH rd (put_path rw comps m2) Sep' At'); cbv zeta in IH.
  destruct (replace_headers (with_write false st) rd paths) as [[a1 b1] d1].
  destruct (replace_headers (with_write true st) (put_path rw comps m2) paths) as [[a2 b2] d2].
  cbn [fst snd] in IH; destruct IH as [-> ->]; split; reflexivity.
Qed.

(** ** Theorems *)
Section Main.
  Variable read : text -> res text.
  Variable escape translate : text -> text.
  Variable search : text -> text -> option (nat * nat).
  Variable matches : text -> text -> bool.
  (** [search] answers with spans. *)
  Definition spans : Prop := forall p s a b, search p s = Some (a, b) -> a <= b.
  Notation main := (main read escape translate search matches).

  Definition writing (w : bool) (o : options) : options :=
    {| o_license := o_license o; o_old := o_old o; o_except_dirs := o_except_dirs o; o_matching := o_matching o;
       o_except_matching := o_except_matching o; o_except_content := o_except_content o; o_write := w; o_verbose := o_verbose o |}.

  Lemma settings_of w o : process_args read escape translate search matches (writing w o) =
    match process_args read escape translate search matches o with Ok st => Ok (with_write w st) | Err e => Err e end.
  Proof.
    clear; unfold process_args; cbn [writing o_license o_old o_except_dirs o_matching o_except_matching o_except_content o_write o_verbose].
    destruct (read (o_license o)); [|reflexivity]; cbn [bind].
    destruct (given (o_old o)); [|reflexivity]; cbn [bind]; destruct (mapM read _); [|reflexivity]; cbn [bind].
    destruct (given (o_except_dirs o)); [|reflexivity]; cbn [bind]; destruct (given (o_matching o)); [|reflexivity]; cbn [bind].
    destruct (given (o_except_matching o)); [|reflexivity]; cbn [bind]; destruct (given (o_except_content o)); reflexivity.
  Qed.

  Lemma settings_write o st : process_args read escape translate search matches o = Ok st -> l_write st = o_write o.
  Proof.
    clear; unfold process_args; intros E; repeat (apply bind_Ok in E; destruct E as (? & _ & E)); injection E as <-; reflexivity.
  Qed.

  Lemma settings_sensible o st header : spans -> read (o_license o) = Ok header -> header <> [] ->
    process_args read escape translate search matches o = Ok st -> sensible st.
  Proof.
    clear; intros Sp Hr Hn E; unfold process_args in E; rewrite Hr in E; cbn [bind] in E.
    repeat (apply bind_Ok in E; destruct E as (? & _ & E)); injection E as <-; split; cbn [l_header l_old]; [exact Hn|].
    intros s a b; apply Sp.
  Qed.

  (** A run with --write ends by saying how many files it changed. *)
  Theorem C129_written_partial o root paths root' out s header :
    spans -> read (o_license o) = Ok header -> header <> [] -> separate paths -> o_write o = true ->
    main o root paths = (root', out, Ok s) ->
    s = match changed_files root root' with O => NoUpdate | n => Updated n end.
  Proof.
    intros Sp Hr Hn Sep Hw E; unfold License.main in E.
    destruct (process_args read escape translate search matches o) as [st|e] eqn:Ep; [|discriminate].
    pose proof (settings_sensible _ _ _ Sp Hr Hn Ep) as Hs; pose proof (settings_write _ _ Ep) as Hst; rewrite Hw in Hst, E.
    destruct (replace_headers st root paths) as [[root2 o2] [c|e]] eqn:E2; [|discriminate].
    assert (C : changed_files root root2 = c).
    { rewrite (replace_headers_changed st Hs Hst paths root root root2 o2 c Sep (shape_refl root)), changed_refl; [reflexivity|auto|exact E2]. }
    rewrite <- C in E; destruct (changed_files root root2) eqn:En; injection E as <- _ <-; rewrite En; reflexivity.
  Qed.

  (** Whatever the paths, at most as many files as it says changed. *)
  Theorem C129_at_most o root paths root' out s header :
    spans -> read (o_license o) = Ok header -> header <> [] -> o_write o = true ->
    main o root paths = (root', out, Ok s) ->
    match s with NoUpdate => changed_files root root' = 0 | Updated n => changed_files root root' <= n | WouldUpdate _ => False end.
  Proof.
    intros Sp Hr Hn Hw E; unfold License.main in E.
    destruct (process_args read escape translate search matches o) as [st|e] eqn:Ep; [|discriminate].
    pose proof (settings_sensible _ _ _ Sp Hr Hn Ep) as Hs; pose proof (settings_write _ _ Ep) as Hst; rewrite Hw in Hst, E.
    destruct (replace_headers st root paths) as [[root2 o2] [c|e]] eqn:E2; [|discriminate].
    destruct (replace_headers_at_most st Hs Hst _ _ _ _ _ E2) as [S C].
    destruct c; injection E as <- _ <-; [lia|exact C].
  Qed.

  (** A run without --write changes nothing, and its messages, its number and its exception are
      those of the run with --write. *)
  Theorem C129_predicted_partial o root paths root1 out1 r1 root2 out2 r2 : separate paths ->
    main (writing false o) root paths = (root1, out1, r1) -> main (writing true o) root paths = (root2, out2, r2) ->
    root1 = root /\ out1 = out2 /\
    match r2 with
    | Ok (Updated n) => r1 = Ok (WouldUpdate n)
    | Ok NoUpdate => r1 = Ok NoUpdate
    | Ok (WouldUpdate _) => False
    | Err e => r1 = Err e
    end.
  Proof.
    clear; intros Sep; unfold License.main; rewrite !settings_of; cbn [o_write writing].
    destruct (process_args read escape translate search matches o) as [st|e]; [|intros E1 E2; injection E1 as <- <- <-; injection E2 as <- <- <-; auto].
    pose proof (replace_headers_predicts st paths root root Sep (fun _ _ => eq_refl)) as P; cbv zeta in P.
    destruct (replace_headers (with_write false st) root paths) as [[a1 b1] d1] eqn:Ed.
    destruct (replace_headers (with_write true st) root paths) as [[a2 b2] d2].
    apply replace_headers_dry in Ed; [|reflexivity]; subst a1.
    cbn [fst snd] in P; destruct P as [-> ->]; intros E1 E2; injection E1 as <- <- <-; injection E2 as <- <- <-.
    split; [reflexivity|]; split; [reflexivity|]; destruct d2 as [[|c]|e]; reflexivity.
  Qed.

  (** In any case, nothing is said at the end if the run failed, and then with the exception of the
      arguments or of the first path that failed; the paths after it are not looked at. *)
  Theorem C129_first_failure o root done path comps rest root1 out1 c m out2 e st :
    process_args read escape translate search matches o = Ok st ->
    replace_headers st root done = (root1, out1, Ok c) ->
    replace_headers_recursive st path (basename path) (at_path root1 comps) = (m, out2, Err e) ->
    main o root (done ++ (path, comps) :: rest) = (put_path root1 comps m, out1 ++ out2, Err e).
  Proof.
    clear; intros Ep E1 E2; unfold License.main; rewrite Ep.
    assert (H : replace_headers st root (done ++ (path, comps) :: rest) = (put_path root1 comps m, out1 ++ out2, Err e)); [|rewrite H; reflexivity].
    revert root out1 c E1; induction done as [|[q qs] done IH]; intros root out1 c E1; cbn [app replace_headers] in *.
    - injection E1 as -> <- _; rewrite E2; reflexivity.
    - destruct (replace_headers_recursive st q (basename q) (at_path root qs)) as [[k ko] [c1|e1]]; [|discriminate].
      destruct (replace_headers st (put_path root qs k) done) as [[k2 o2] [c2|e2]] eqn:E3; [|discriminate].
      injection E1 as -> <- _; rewrite (IH _ _ _ E3), app_assoc; reflexivity.
  Qed.
End Main.

(** A file given as an argument is treated according to the last component of its path. *)
Theorem C111_named_file st root dir name comps c : ~ In 47%N name -> at_path root comps = File c ->
  (forall path, path = name \/ path = dir ++ u "/" ++ name ->
    replace_headers st root [(path, comps)] =
    if l_matching st name && negb (l_except_matching st name) then
      match replace_headers_file st path c with
      | (Some s, out, r) => (put_path root comps (File (Ok s)), out, r)
      | (None, out, r) => (root, out, r)
      end
    else (root, remark st path, Ok 0)).
Proof.
  intros Hn Ha path Hp.
  assert (B : basename path = name).
  { unfold basename; destruct Hp as [->| ->]; [rewrite split_on_none by exact Hn; reflexivity|].
    assert (G : exists p l, split_on 47 (dir ++ u "/" ++ name) = p :: l ++ [name]).
    { change (u "/" ++ name) with (47%N :: name).
      induction dir as [|x dir (p & l & IH)]; cbn [app split_on].
      - rewrite eqb_refl, split_on_none by exact Hn; exists [], []; reflexivity.
      - destruct (eqb x 47%N); rewrite IH; [exists [], (p :: l)|exists (x :: p), l]; reflexivity. }
    destruct G as (p & l & ->); rewrite app_comm_cons; apply last_last. }
  cbn [replace_headers]; rewrite B, Ha; cbn [replace_headers_recursive].
  assert (P : put_path root comps (File c) = root) by (rewrite <- Ha; apply put_same).
  destruct (l_matching st name); [|cbn [andb]; rewrite P, app_nil_r; reflexivity].
  destruct (l_except_matching st name); cbn [andb negb]; [rewrite P, app_nil_r; reflexivity|].
  destruct (replace_headers_file st path c) as [[[s|] out] [k|e]]; rewrite ?P, ?app_nil_r, ?Nat.add_0_r; reflexivity.
Qed.

Example C111_named_nonvacuous :
  let root := Dir [(u "src", Dir [(u "a.py", File (Ok (u "x")))])] in
  ~ In 47%N (u "a.py") /\ at_path root [u "src"; u "a.py"] = File (Ok (u "x")) /\ basename (u "src/a.py") = u "a.py".
Proof. cbv zeta; split; [cbn; intuition discriminate|split; reflexivity]. Qed.

(** A file given twice whose header is replaced: without --write two files "would have been
    updated", with --write one is updated. *)
Theorem C129_twice_refuted st s a b a' b' path comps root :
  at_path root comps = File (Ok s) -> (forall t, at_path (put_path root comps (File (Ok t))) comps = File (Ok t)) ->
  l_matching st (basename path) = true -> l_except_matching st (basename path) = false ->
  (forall t, l_except_content st t = false) ->
  l_old st s = Some (a, b) -> slice a b s <> l_header st ->
  l_old st (firstn a s ++ l_header st ++ skipn b s) = Some (a', b') ->
  slice a' b' (firstn a s ++ l_header st ++ skipn b s) = l_header st ->
  let twice := [(path, comps); (path, comps)] in
  snd (replace_headers (with_write false st) root twice) = Ok 2 /\
  snd (replace_headers (with_write true st) root twice) = Ok 1.
Proof.
  intros Hat Hput M X C O1 N1 O2 N2; cbv zeta.
  set (s' := firstn a s ++ l_header st ++ skipn b s) in *.
  assert (F : forall w t, replace_headers_recursive (with_write w st) path (basename path) (File (Ok t)) =
    match replace_headers_file (with_write w st) path (Ok t) with
    | (Some s, out, r) => (File (Ok s), out, r) | (None, out, r) => (File (Ok t), out, r) end).
  { intros w t; cbn [replace_headers_recursive with_write l_matching l_except_matching]; rewrite M, X; reflexivity. }
  assert (F1 : forall w, replace_headers_file (with_write w st) path (Ok s) = (if w then Some s' else None, [(path, Replacing)], Ok 1)).
  { intros w; unfold replace_headers_file; cbn [with_write l_except_content l_old l_header l_write]; rewrite C, O1.
    destruct (eqb_spec (slice a b s) (l_header st)) as [E|_]; [contradiction|destruct w; reflexivity]. }
  assert (F2 : forall w, replace_headers_file (with_write w st) path (Ok s') = (None, [(path, UpToDate)], Ok 0)).
  { intros w; unfold replace_headers_file; cbn [with_write l_except_content l_old l_header l_write]; rewrite C, O2, N2, eqb_refl; reflexivity. }
  split; cbn [replace_headers].
  - rewrite Hat, F, F1, Hput, F, F1; reflexivity.
  - rewrite Hat, F, F1, Hput, F, F2; reflexivity.
Qed.

(** ** Examples *)
Definition exm_read (f : text) : res text :=
  if eqb f (u "header.txt") then Ok (u "# New" ++ [newline])
  else if eqb f (u "old.regex") then Ok (u "# Old" ++ [newline]) else Err IOError.
(** Patterns that are texts, separated by bars. *)
Definition exm_search (p s : text) : option (nat * nat) := search_from 0 (filter (fun q => negb (eqb q [])) (split_on 124%N p)) s.
Definition exm_matches (p s : text) : bool := if eqb p (u "*") then true else false.
Definition exm_options (w : bool) : options :=
  {| o_license := u "header.txt"; o_old := Some [u "old.regex"]; o_except_dirs := Some []; o_matching := Some [u "*"];
     o_except_matching := Some []; o_except_content := Some []; o_write := w; o_verbose := false |}.
Definition exm_root : node :=
  Dir [(u "a", Dir [(u "x.py", File (Ok (u "# Old" ++ [newline] ++ u "x"))); (u "y.py", File (Ok (u "# New" ++ [newline])))]);
       (u "b.py", File (Ok (u "b")))].
Definition exm_main := main exm_read (fun t => t) (fun t => t) exm_search exm_matches.

Example C129_nonvacuous :
  snd (exm_main (exm_options true) exm_root [(u "/a", [u "a"]); (u "/b.py", [u "b.py"])]) = Ok (Updated 2) /\
  snd (exm_main (exm_options false) exm_root [(u "/a", [u "a"]); (u "/b.py", [u "b.py"])]) = Ok (WouldUpdate 2) /\
  separate [(u "/a", [u "a"]); (u "/b.py", [u "b.py"])] /\
  snd (exm_main (exm_options true) exm_root [(u "/a/y.py", [u "a"; u "y.py"]); (u "/none", [u "none"])]) = Ok NoUpdate.
Proof.
  split; [vm_compute; reflexivity|]; split; [vm_compute; reflexivity|]; split; [|vm_compute; reflexivity].
  unfold separate; cbn [map snd]; constructor; [constructor; [|constructor]|constructor; constructor].
  split; intros [r E]; discriminate.
Qed.

Example exm_spans : spans exm_search.
Proof.
  intros p s a b E; unfold exm_search in E.
  pose proof (search_from_spec (filter (fun q => negb (eqb q [])) (split_on 124%N p)) s 0) as Q; rewrite E in Q.
  destruct Q as (k & q & -> & -> & _); lia.
Qed.

(** The same file twice. *)
Example C129_twice_nonvacuous :
  snd (exm_main (exm_options false) exm_root [(u "/a", [u "a"]); (u "/a/x.py", [u "a"; u "x.py"])]) = Ok (WouldUpdate 2) /\
  snd (exm_main (exm_options true) exm_root [(u "/a", [u "a"]); (u "/a/x.py", [u "a"; u "x.py"])]) = Ok (Updated 1).
Proof. split; vm_compute; reflexivity. Qed.

Print Assumptions C129_written_partial.
Print Assumptions C129_at_most.
Print Assumptions C129_predicted_partial.
Print Assumptions C129_first_failure.
Print Assumptions C129_twice_refuted.
Print Assumptions C111_named_file.
