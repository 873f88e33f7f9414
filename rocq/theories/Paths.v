(** Text helpers and posix path functions (python 2.7 [posixpath]) used by
    xylem/config_utils.py and xylem/config.py. *)
From Verif Require Import Base Dict PyVal Sources Util.

(** [s.split(c)] for a one-character separator. *)
Fixpoint split_on (c : N) (s : text) : list text :=
  match s with
  | [] => [[]]
  | x :: s' =>
    if eqb x c then [] :: split_on c s'
    else match split_on c s' with
         | p :: ps => (x :: p) :: ps
         | [] => [[x]]
         end
  end.

(** [s.split(c, 1)]: [None] if [c] does not occur. *)
Fixpoint split_once (c : N) (s : text) : option (text * text) :=
  match s with
  | [] => None
  | x :: s' =>
    if eqb x c then Some ([], s')
    else match split_once c s' with
         | Some (a, b) => Some (x :: a, b)
         | None => None
         end
  end.

(** [s.replace(c, d)] for single characters. *)
Definition replace_char (c d : N) (s : text) : text := map (fun x => if eqb x c then d else x) s.

(** [unicode.isspace] of one character, python 2.7. *)
Definition is_space (c : N) : bool :=
  ((9 <=? c) && (c <=? 13) || (28 <=? c) && (c <=? 32) || (c =? 133) || (c =? 160) || (c =? 5760)
   || (c =? 6158) || (8192 <=? c) && (c <=? 8202) || (c =? 8232) || (c =? 8233) || (c =? 8239)
   || (c =? 8287) || (c =? 12288))%N.

Fixpoint lstrip (s : text) : text :=
  match s with
  | c :: s' => if is_space c then lstrip s' else s
  | [] => []
  end.

(** [text_type.strip] *)
Definition strip (s : text) : text := rev (lstrip (rev (lstrip s))).

(** [s.rstrip('/')] *)
Fixpoint drop_slashes (s : text) : text :=
  match s with
  | c :: s' => if eqb c slash then drop_slashes s' else s
  | [] => []
  end.
Definition rstrip_slash (s : text) : text := rev (drop_slashes (rev s)).

(** What the path functions take from the process environment. [home []] is the current
    user's home directory ($HOME or the password database), [home name] that of another
    user, [None] if there is no such user. *)
Record penv := { home : text -> option text; cwd : text }.

Definition dot : N := 46%N.
Definition tilde : N := 126%N.

(** One step of the loop in [posixpath.normpath]; [abs] is [initial_slashes != 0];
    [acc] is [new_comps] reversed. *)
Definition norm_step (abs : bool) (acc : list text) (comp : text) : list text :=
  if eqb comp [] || eqb comp [dot] then acc
  else if negb (eqb comp [dot; dot])
          || (negb abs && match acc with [] => true | _ => false end)
          || match acc with c :: _ => eqb c [dot; dot] | [] => false end
       then comp :: acc
       else match acc with _ :: acc' => acc' | [] => [] end.

(** [posixpath.normpath] (CPython 2.7): two leading slashes are kept, three or more are
    one. *)
Definition initial_slashes (p : text) : text :=
  if is_prefix [slash] p then
    if is_prefix [slash; slash] p && negb (is_prefix [slash; slash; slash] p)
    then [slash; slash] else [slash]
  else [].

Definition normpath (p : text) : text :=
  match p with
  | [] => [dot]
  | _ =>
    let ini := initial_slashes p in
    let comps := rev (fold_left (norm_step (negb (eqb ini []))) (split_on slash p) []) in
    match ini ++ join [slash] comps with
    | [] => [dot]
    | r => r
    end
  end.

(** [posixpath.expanduser] *)
Definition expanduser (env : penv) (p : text) : text :=
  match p with
  | c :: p' =>
    if eqb c tilde then
      let (user, rest) := match split_once slash p' with
                          | Some (a, b) => (a, slash :: b)
                          | None => (p', [])
                          end in
      match home env user with
      | None => p
      | Some h => match rstrip_slash h ++ rest with [] => [slash] | r => r end
      end
    else p
  | [] => p
  end.

(** [posixpath.abspath] *)
Definition abspath (env : penv) (p : text) : text :=
  normpath (if is_prefix [slash] p then p else path_join (cwd env) p).

(** xylem/config_utils.py:201-205 [expand_input_path] for a value that is not [None]. *)
Definition expand_input_path (env : penv) (p : text) : text := abspath env (expanduser env p).

(** ** Specification and facts *)

(** Absolute normalised paths: one or two slashes, followed by components that are
    non-empty, contain no slash and are neither "." nor "..", separated by one slash. *)
Definition normal_comp (c : text) : Prop :=
  c <> [] /\ ~ In slash c /\ c <> [dot] /\ c <> [dot; dot].
Definition normal_abs (p : text) : Prop :=
  exists ini comps, (ini = [slash] \/ ini = [slash; slash]) /\ Forall normal_comp comps /\
                    p = ini ++ join [slash] comps.

(** The process's current directory is an absolute path. *)
Definition env_ok (env : penv) : Prop := is_prefix [slash] (cwd env) = true.

Lemma split_on_no_sep c s p : In p (split_on c s) -> ~ In c p.
Proof.
  revert p; induction s as [|x s IH]; simpl; intros p.
  - intros [<-|[]]; simpl; tauto.
  - destruct (eqb_spec x c) as [->|Hn].
    + simpl; intros [<-|Hp]; [simpl; tauto|auto].
    + destruct (split_on c s) as [|q qs].
      * intros [<-|[]]; simpl; intros [E|[]]; congruence.
      * simpl; intros [<-|Hp].
        -- intros [E|Hin]; [congruence|]; apply (IH q); [left; reflexivity|assumption].
        -- apply IH; right; assumption.
Qed.

Lemma split_on_none c s : ~ In c s -> split_on c s = [s].
Proof.
  induction s as [|x s IH]; simpl; [reflexivity|]; intros Hn.
  destruct (eqb_spec x c) as [->|_]; [tauto|]; rewrite IH; tauto.
Qed.

Lemma split_on_app c s r : ~ In c s -> split_on c (s ++ c :: r) = s :: split_on c r.
Proof.
  induction s as [|x s IH]; simpl; intros Hn; [rewrite eqb_refl; reflexivity|].
  destruct (eqb_spec x c) as [->|_]; [tauto|]; rewrite IH; tauto.
Qed.

(** Splitting a joined list gives the list back. *)
Lemma split_on_join c l :
  l <> [] -> Forall (fun p => ~ In c p) l -> split_on c (join [c] l) = l.
Proof.
  induction l as [|x l IH]; [congruence|]; intros _ Hall.
  inversion Hall as [|? ? Hx Hl]; subst; clear Hall; simpl.
  destruct l as [|y l]; [apply split_on_none; assumption|].
  cbn [app]; rewrite split_on_app by assumption; f_equal; apply IH; [congruence|assumption].
Qed.

Lemma norm_step_normal acc comp :
  ~ In slash comp -> Forall normal_comp acc -> Forall normal_comp (norm_step true acc comp).
Proof.
  intros Hs Hacc; unfold norm_step.
  destruct (eqb_spec comp []) as [->|H1]; [assumption|].
  destruct (eqb_spec comp [dot]) as [->|H2]; [assumption|].
  destruct (eqb_spec comp [dot; dot]) as [->|H3]; cbn [orb negb andb].
  - destruct acc as [|c acc]; [constructor|].
    inversion Hacc as [|? ? (_ & _ & _ & Hc) Hacc']; subst.
    destruct (eqb_spec c [dot; dot]) as [->|_]; [congruence|assumption].
  - constructor; [repeat split; assumption|assumption].
Qed.

Lemma norm_fold_normal l acc :
  Forall (fun c => ~ In slash c) l -> Forall normal_comp acc ->
  Forall normal_comp (fold_left (norm_step true) l acc).
Proof.
  revert acc; induction l as [|c l IH]; intros acc Hl Hacc; [assumption|].
  inversion Hl; subst; simpl; apply IH; [assumption|]; apply norm_step_normal; assumption.
Qed.

Lemma norm_fold_id l acc :
  Forall normal_comp l -> fold_left (norm_step true) l acc = rev l ++ acc.
Proof.
  revert acc; induction l as [|c l IH]; intros acc Hl; [reflexivity|].
  inversion Hl as [|? ? (H1 & H2 & H3 & H4) Hl']; subst; simpl; rewrite IH by assumption.
  rewrite <- app_assoc; simpl; f_equal; unfold norm_step.
  destruct (eqb_spec c []) as [->|_]; [congruence|].
  destruct (eqb_spec c [dot]) as [->|_]; [congruence|].
  destruct (eqb_spec c [dot; dot]) as [->|_]; [congruence|reflexivity].
Qed.

Lemma normpath_abs_normal p : is_prefix [slash] p = true -> normal_abs (normpath p).
Proof.
  intros Hp; unfold normpath, initial_slashes.
  destruct p as [|x p]; [discriminate|]; rewrite Hp.
  set (ini := if is_prefix [slash; slash] (x :: p) && negb (is_prefix [slash; slash; slash] (x :: p))
              then [slash; slash] else [slash]).
  assert (Hini : ini = [slash] \/ ini = [slash; slash])
    by (unfold ini; destruct (_ && _); auto).
  assert (Habs : negb (eqb ini []) = true) by (destruct Hini as [->| ->]; reflexivity).
  rewrite Habs.
  set (comps := rev _).
  assert (Hc : Forall normal_comp comps).
  { unfold comps; apply Forall_rev, norm_fold_normal; [|constructor].
    apply Forall_forall; intros c; apply split_on_no_sep. }
  assert (E : match ini ++ join [slash] comps with [] => [dot] | r => r end = ini ++ join [slash] comps)
    by (destruct Hini as [->| ->]; reflexivity).
  exists ini, comps; split; [assumption|]; split; [assumption|].
  destruct (ini ++ join [slash] comps); [|reflexivity]; simpl in E; exact E.
Qed.

Lemma normal_join_head comps :
  Forall normal_comp comps -> is_prefix [slash] (join [slash] comps) = false.
Proof.
  intros H; destruct comps as [|c comps]; [reflexivity|].
  inversion H as [|? ? (H1 & H2 & _) _]; subst.
  destruct c as [|x c]; [congruence|].
  assert (Hx : x <> slash) by (intros ->; apply H2; left; reflexivity).
  destruct comps; cbn [join app is_prefix]; destruct (eqb_spec slash x); [congruence|reflexivity|congruence|reflexivity].
Qed.

Lemma normpath_normal p : normal_abs p -> normpath p = p.
Proof.
  intros (ini & comps & Hini & Hc & ->).
  pose proof (normal_join_head comps Hc) as Hh.
  assert (Hs : fold_left (norm_step true) (split_on slash (ini ++ join [slash] comps)) [] = rev comps).
  { assert (Hj : fold_left (norm_step true) (split_on slash (join [slash] comps)) [] = rev comps).
    { destruct comps as [|c comps]; [reflexivity|].
      rewrite split_on_join; [|congruence|].
      - rewrite norm_fold_id by assumption; apply app_nil_r.
      - eapply Forall_impl; [|exact Hc]; intros a (_ & Ha & _); exact Ha. }
    destruct Hini as [->| ->]; cbn [app split_on]; rewrite eqb_refl; exact Hj. }
  assert (Hi : initial_slashes (ini ++ join [slash] comps) = ini).
  { unfold initial_slashes; destruct Hini as [->| ->]; cbn [app];
      destruct (join [slash] comps) as [|x r]; try reflexivity;
        cbn [is_prefix] in *; destruct (eqb_spec slash x) as [->|_]; try discriminate;
          reflexivity. }
  unfold normpath.
  destruct (ini ++ join [slash] comps) as [|y r] eqn:E;
    [destruct Hini as [->| ->]; discriminate|].
  rewrite Hi; assert (Ha : negb (eqb ini []) = true) by (destruct Hini as [->| ->]; reflexivity).
  rewrite Ha, Hs, rev_involutive, E; reflexivity.
Qed.

Lemma normal_abs_prefix p : normal_abs p -> is_prefix [slash] p = true.
Proof. intros (ini & comps & [->| ->] & _ & ->); reflexivity. Qed.

Lemma path_join_abs a b :
  is_prefix [slash] a = true -> is_prefix [slash] (path_join a b) = true.
Proof.
  intros Ha; destruct a as [|x a]; [discriminate|].
  cbn [is_prefix] in Ha; destruct (eqb_spec slash x) as [<-|]; [|discriminate].
  unfold path_join; destruct b as [|c b].
  - destruct (eqb _ slash); reflexivity.
  - destruct (eqb_spec c slash) as [->|]; [reflexivity|].
    destruct (eqb _ slash); reflexivity.
Qed.

Lemma expand_input_path_normal env p : env_ok env -> normal_abs (expand_input_path env p).
Proof.
  intros He; unfold expand_input_path, abspath; apply normpath_abs_normal.
  destruct (is_prefix [slash] (expanduser env p)) eqn:E; [assumption|].
  apply path_join_abs; assumption.
Qed.

Lemma expand_input_path_id env p : normal_abs p -> expand_input_path env p = p.
Proof.
  intros Hp; pose proof (normal_abs_prefix _ Hp) as Hs.
  assert (E : expanduser env p = p).
  { destruct p as [|x p]; [reflexivity|]; unfold expanduser.
    cbn [is_prefix] in Hs; destruct (eqb_spec slash x) as [<-|]; [|discriminate].
    reflexivity. }
  unfold expand_input_path, abspath; rewrite E, Hs; apply normpath_normal; assumption.
Qed.
