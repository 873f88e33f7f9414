(** C128: what the resolve and lookup commands print. *)
From Verif Require Import Base Dict PyVal RulesDict Verify Sources Util Paths Installer Installers Resolve Terminal Commands PropCommands.

(** [t] is the text [p] with colour codes put in. *)
Inductive coloured (ansi : text -> text) : text -> text -> Prop :=
| col_nil : coloured ansi [] []
| col_char c p t : coloured ansi p t -> coloured ansi (c :: p) (c :: t)
| col_code name p t : coloured ansi p t -> coloured ansi p (ansi name ++ t).

(** Texts separated by a comma and a space. *)
Inductive commas : list text -> text -> Prop :=
| commas_none : commas [] []
| commas_one x : commas [x] x
| commas_more x y l t : commas (y :: l) t -> commas (x :: y :: l) (x ++ u ", " ++ t).

(** Whether the installer is named: it is not the default installer, or this was asked for. *)
Definition named (default : option text) (flag : bool) (installer : text) : Prop :=
  flag = true \/ default <> Some installer.

(** "key --> installer: item, item" or "key --> item, item". *)
Definition result_text (default : option text) (flag : bool) (key installer : text) (items : list text) (t : text) : Prop :=
  exists tag list_, t = key ++ u " --> " ++ tag ++ list_ /\
    (named default flag installer -> tag = installer ++ u ": ") /\
    (~ named default flag installer -> tag = []) /\
    commas items list_.

(** "Rules for 'key' on 'os':" and, on the lines below, the value as YAML. *)
Definition lookup_text (dump : pyval -> text) (os key : text) (v : pyval) (t : text) : Prop :=
  exists yaml, dump v = yaml ++ [10%N] /\ t = u "Rules for '" ++ key ++ u "' on '" ++ os ++ u "':" ++ [10%N] ++ yaml.

Section Colours.
  Variable ansi : text -> text.
  Lemma coloured_refl p : coloured ansi p p.
  Proof. induction p; constructor; assumption. Qed.
  Lemma coloured_app p p' t t' : coloured ansi p t -> coloured ansi p' t' -> coloured ansi (p ++ p') (t ++ t').
  Proof.
    intros H H'. induction H as [|c p t _ IH|name p t _ IH]; cbn [app]; [exact H'|constructor; exact IH|].
    rewrite <- app_assoc. constructor. exact IH.
  Qed.
  Lemma coloured_off p t : (forall name, ansi name = []) -> coloured ansi p t -> t = p.
  Proof.
    intros A. induction 1 as [|c p t _ IH|name p t _ IH]; [reflexivity|f_equal; exact IH|rewrite A; exact IH].
  Qed.
End Colours.
Ltac col := repeat (apply col_code || (apply coloured_app; [apply coloured_refl|])); apply coloured_refl.

Lemma commas_join l : commas l (join (u ", ") l).
Proof.
  induction l as [|x l IH]; [constructor|]. destruct l as [|y l]; [constructor|]. constructor. exact IH.
Qed.

Lemma named_dec default flag installer : named default flag installer \/ ~ named default flag installer.
Proof.
  unfold named. destruct flag; [left; left; reflexivity|].
  destruct (eqb_spec default (Some installer)) as [E|E]; [right; intros [F|F]; [discriminate F|apply F, E]|left; right; exact E].
Qed.

Definition is_line (o : output) : list text := match o with Line t => [t] | _ => [] end.

(** [resolve] prints one line for each resolved key, in order: the text above, coloured; without
    colours it is the text. *)
Theorem C128_resolve {R} ansi (show : R -> text) flag default results errors :
  let out := fst (resolve_command ansi show flag (Ok default) (Ok (results, errors))) in
  Forall2 (fun r line => exists plain,
      result_text default flag (fst r) (fst (snd r)) (map show (snd (snd r))) plain /\
      coloured ansi plain line /\ ((forall name, ansi name = []) -> line = plain))
    results (flat_map is_line out).
Proof.
  cbv zeta. unfold resolve_command, exit_on_interrupt.
  assert (L : forall l, flat_map is_line (map (fun r => Line (result_line ansi show default flag r)) l) = map (result_line ansi show default flag) l).
  { induction l as [|r l IH]; cbn [map flat_map app is_line]; [reflexivity|rewrite IH; reflexivity]. }
  assert (M : forall pre, flat_map is_line (match errors with [] => [] | _ => [ErrorReport (map snd errors)] end ++ pre) = flat_map is_line pre).
  { intros pre. destruct errors; reflexivity. }
  match goal with |- Forall2 _ _ (flat_map is_line (fst ?x)) => assert (X : flat_map is_line (fst x) = map (result_line ansi show default flag) results) end.
  { destruct errors; cbn [snd fst]; rewrite M; apply L. }
  rewrite X. clear.
  induction results as [|[key [installer rs]] results IH]; [constructor|]. cbn [map]. constructor; [|exact IH].
  cbn [fst snd].
  assert (E : exists plain, result_text default flag key installer (map show rs) plain /\
     coloured ansi plain (result_line ansi show default flag (key, (installer, rs)))).
  { exists (key ++ u " --> " ++ (if negb (eqb (Some installer) default) || flag then installer ++ u ": " else []) ++
      join (u ", ") (map show rs)). split.
    - eexists _, _. split; [reflexivity|]. split; [|split; [|apply commas_join]].
      + intros [->|N]; [rewrite orb_true_r; reflexivity|].
        destruct (eqb_spec (Some installer) default) as [E|_]; [exfalso; apply N; symmetry; exact E|reflexivity].
      + intros N. destruct flag; [exfalso; apply N; left; reflexivity|]. rewrite orb_false_r.
        destruct (eqb_spec (Some installer) default) as [E|E]; [reflexivity|].
        exfalso. apply N. right. intros F. apply E. symmetry. exact F.
    - unfold result_line. col. }
  destruct E as (plain & E1 & E2). exists plain. split; [exact E1|]. split; [exact E2|].
  intros A. apply (coloured_off ansi); assumption.
Qed.

(** [lookup] prints for each key, in order, the text above, coloured; without colours it is the
    text. *)
Theorem C128_lookup uni sha1 loads ansi dump ic os sources cache_dir f keys vs :
  (forall v, exists yaml, dump v = yaml ++ [10%N]) ->
  Forall2 (fun k v => lookup uni sha1 loads sources cache_dir f ic k true = Ok v) keys vs ->
  let out := fst (lookup_command uni sha1 loads ansi dump (Ok (ic, os)) sources cache_dir f keys) in
  Forall2 (fun kv o => exists plain line, o = Line line /\ lookup_text dump os (fst kv) (snd kv) plain /\
      coloured ansi plain line /\ ((forall name, ansi name = []) -> line = plain))
    (combine keys vs) out.
Proof.
  intros Hd F. cbv zeta. unfold lookup_command.
  assert (L1 : forall look, Forall2 (fun k v => look k = Ok v) keys vs ->
     lookup_loop ansi dump look os keys = (map (fun p => Line (rules_line ansi dump os (fst p) (snd p))) (combine keys vs), Ok tt)).
  { clear F. intros look F. induction F as [|k v ks vs Hk F IH]; cbn [lookup_loop combine map]; [reflexivity|].
    rewrite Hk, IH; reflexivity. }
  rewrite (L1 _ F). unfold exit_on_interrupt. cbn [snd fst]. clear - Hd.
  induction (combine keys vs) as [|[k v] l IH]; [constructor|]. cbn [map]. constructor; [|exact IH]. cbn [fst snd].
  destruct (Hd v) as (yaml & E).
  exists (u "Rules for '" ++ k ++ u "' on '" ++ os ++ u "':" ++ [10%N] ++ yaml). eexists. split; [reflexivity|].
  split; [exists yaml; split; [exact E|reflexivity]|].
  assert (C : coloured ansi (u "Rules for '" ++ k ++ u "' on '" ++ os ++ u "':" ++ [10%N] ++ yaml) (rules_line ansi dump os k v)).
  { unfold rules_line. rewrite E, removelast_last. col. }
  split; [exact C|]. intros A. apply (coloured_off ansi); assumption.
Qed.

(** A key that cannot be looked up, or an interrupt: what is printed for the keys before it is printed as without it;
    an interrupt adds an empty line and makes the exit code 1, other errors are for the main program. *)
Definition interrupt (e : exn) : bool := match e with KeyboardInterrupt | EOFError => true | _ => false end.
Theorem C128_lookup_stopped uni sha1 loads ansi dump ic os sources cache_dir f keys vs key rest e :
  Forall2 (fun k v => lookup uni sha1 loads sources cache_dir f ic k true = Ok v) keys vs ->
  lookup uni sha1 loads sources cache_dir f ic key true = Err e ->
  let run ks := lookup_command uni sha1 loads ansi dump (Ok (ic, os)) sources cache_dir f ks in
  List.length (fst (run keys)) = List.length keys /\
  run (keys ++ key :: rest) =
    (if interrupt e then (fst (run keys) ++ [Line []], Err (SystemExit 1)) else (fst (run keys), Err e)).
Proof.
  intros F He run; subst run; unfold lookup_command; cbv beta.
  assert (L1 : forall look, Forall2 (fun k v => look k = Ok v) keys vs ->
     lookup_loop ansi dump look os keys = (map (fun p => Line (rules_line ansi dump os (fst p) (snd p))) (combine keys vs), Ok tt)).
  { clear F. intros look F. induction F as [|k v ks vs Hk F IH]; cbn [lookup_loop combine map]; [reflexivity|].
    rewrite Hk, IH; reflexivity. }
  assert (L2 : forall look, Forall2 (fun k v => look k = Ok v) keys vs -> look key = Err e ->
     lookup_loop ansi dump look os (keys ++ key :: rest) =
       (map (fun p => Line (rules_line ansi dump os (fst p) (snd p))) (combine keys vs), Err e)).
  { clear F He L1. intros look F He. induction F as [|k v ks vs Hk F IH]; cbn [app lookup_loop combine map]; [rewrite He; reflexivity|].
    rewrite Hk, IH; reflexivity. }
  rewrite (L1 _ F), (L2 _ F He). unfold exit_on_interrupt; cbn [fst snd]. split.
  - rewrite map_length, combine_length. assert (E : List.length keys = List.length vs) by (clear -F; induction F; cbn [List.length]; congruence). rewrite <- E. apply Nat.min_id.
  - destruct e; reflexivity.
Qed.

(** ** The texts can be read back *)
Lemma split_at (c : N) a : forall b x y, ~ In c a -> ~ In c b -> a ++ c :: x = b ++ c :: y -> a = b /\ x = y.
Proof.
  induction a as [|h a IH]; intros b x y Ha Hb E; destruct b as [|k b]; cbn [app] in E.
  - injection E as <-. auto.
  - injection E as -> _. exfalso. apply Hb. left. reflexivity.
  - injection E as -> _. exfalso. apply Ha. left. reflexivity.
  - injection E as -> E. destruct (IH b x y) as [-> ->]; auto; intros H; [apply Ha|apply Hb]; right; exact H.
Qed.

Notation no_space t := (~ In 32%N t).

Lemma commas_nil t : commas [] t -> t = [].
Proof. inversion 1; reflexivity. Qed.

Lemma commas_inj : forall l l' t, Forall (fun x => no_space x /\ x <> []) l -> Forall (fun x => no_space x /\ x <> []) l' ->
  commas l t -> commas l' t -> l = l'.
Proof.
  assert (S1 : forall x y l t, Forall (fun x => no_space x /\ x <> []) (x :: y :: l) -> commas (x :: y :: l) t ->
     exists t', t = (x ++ [44%N]) ++ 32%N :: t' /\ no_space (x ++ [44%N]) /\ commas (y :: l) t').
  { intros x y l t F H. inversion H as [| |x' y' l' t' H']; subst. exists t'. split; [rewrite <- app_assoc; reflexivity|].
    split; [|exact H']. intros Hi. apply in_app_or in Hi. destruct Hi as [Hi|[Hi|[]]]; [|discriminate Hi].
    apply (proj1 (Forall_inv F)), Hi. }
  induction l as [|x l IH]; intros l' t F F' H H'.
  - inversion H; subst. destruct l' as [|x' [|y' l']]; [reflexivity| |].
    + inversion H'; subst. exfalso. apply (proj2 (Forall_inv F')). reflexivity.
    + apply S1 in H'; [|exact F']. destruct H' as (t' & E & _). exfalso. destruct x'; discriminate E.
  - destruct l as [|y l].
    + inversion H; subst. destruct l' as [|x' [|y' l']].
      * inversion H'; subst. exfalso. apply (proj2 (Forall_inv F)). reflexivity.
      * inversion H'; subst. reflexivity.
      * apply S1 in H'; [|exact F']. destruct H' as (t' & -> & _). exfalso.
        apply (proj1 (Forall_inv F)), in_or_app. right. left. reflexivity.
    + apply S1 in H; [|exact F]. destruct H as (t1 & -> & N1 & C1).
      destruct l' as [|x' [|y' l']].
      * apply commas_nil in H'. exfalso. destruct x; discriminate H'.
      * inversion H'; subst. exfalso. apply (proj1 (Forall_inv F')), in_or_app. right. left. reflexivity.
      * apply S1 in H'; [|exact F']. destruct H' as (t2 & E & N2 & C2).
        apply split_at in E; [|assumption|assumption]. destruct E as [E ->]. apply app_inj_tail in E as [-> _].
        f_equal. apply (IH (y' :: l') t2); auto; eapply Forall_inv_tail; eassumption.
Qed.

(** The line of [resolve] determines the key, the installer and the items, if keys and items
    contain no spaces, items are not empty, and installer names contain no colons and spaces. *)
Theorem C128_resolve_readable default flag key installer items key' installer' items' t :
  no_space key -> no_space key' ->
  no_space installer -> no_space installer' -> ~ In 58%N installer -> ~ In 58%N installer' ->
  Forall (fun x => no_space x /\ x <> []) items -> Forall (fun x => no_space x /\ x <> []) items' ->
  result_text default flag key installer items t -> result_text default flag key' installer' items' t ->
  key = key' /\ installer = installer' /\ items = items'.
Proof.
  intros K K' I I' J J' F F' (tag & l & E & T1 & T2 & C) (tag' & l' & E' & T1' & T2' & C').
  assert (Q : key = key' /\ tag ++ l = tag' ++ l').
  { subst t. change (u " --> ") with (32%N :: [45%N; 45%N; 62%N; 32%N]) in E'. cbn [app] in E'.
    apply split_at in E'; [|assumption|assumption]. destruct E' as [-> E']. injection E' as E'. auto. }
  destruct Q as [-> Q]. split; [reflexivity|]. clear E E'.
  assert (X : forall i it l0, no_space i -> ~ In 58%N i -> Forall (fun x => no_space x /\ x <> []) it -> commas it l0 ->
     forall rest, (i ++ u ": ") ++ rest = l0 -> False).
  { clear. intros i it l0 Hi Hc F C rest E.
    assert (Q : (i ++ [58%N]) ++ 32%N :: rest = l0).
    { rewrite <- E. change (u ": ") with [58%N; 32%N]. rewrite <- !app_assoc. reflexivity. }
    clear E.
    assert (N : no_space (i ++ [58%N])) by (intros H; apply in_app_or in H; destruct H as [H|[H|[]]]; [exact (Hi H)|discriminate H]).
    inversion C as [H0 H1|x H0 H1|x y l1 t1 C1 H0 H1]; subst it.
    - rewrite <- H1 in Q. destruct i; discriminate Q.
    - subst x. apply (proj1 (Forall_inv F)). rewrite <- Q. apply in_or_app. right. left. reflexivity.
    - assert (Q' : (i ++ [58%N]) ++ 32%N :: rest = (x ++ [44%N]) ++ 32%N :: t1).
      { rewrite Q, <- H1. change (u ", ") with [44%N; 32%N]. rewrite <- app_assoc. reflexivity. }
      apply split_at in Q'; [|exact N|].
      + destruct Q' as [Q' _]. apply app_inj_tail in Q' as [_ Q']. discriminate Q'.
      + intros H. apply in_app_or in H. destruct H as [H|[H|[]]]; [exact (proj1 (Forall_inv F) H)|discriminate H]. }
  destruct (named_dec default flag installer) as [N|N]; destruct (named_dec default flag installer') as [N'|N'].
  - rewrite (T1 N), (T1' N') in Q. rewrite <- !app_assoc in Q. change (u ": ") with (58%N :: [32%N]) in Q. cbn [app] in Q.
    apply split_at in Q; [|assumption|assumption]. destruct Q as [-> Q]. injection Q as <-.
    split; [reflexivity|]. apply (commas_inj _ _ l); assumption.
  - exfalso. rewrite (T1 N), (T2' N') in Q. apply (X installer items' l' I J F' C' l Q).
  - exfalso. rewrite (T2 N), (T1' N') in Q. symmetry in Q. apply (X installer' items l I' J' F C l' Q).
  - rewrite (T2 N), (T2' N') in Q. cbn [app] in Q. subst l'. split.
    + assert (D : forall i, ~ named default flag i -> default = Some i).
      { intros i H. destruct (eqb_spec default (Some i)) as [D|D]; [exact D|]. exfalso. apply H. right. exact D. }
      pose proof (D _ N). pose proof (D _ N'). congruence.
    + apply (commas_inj _ _ l); assumption.
Qed.

(** The text of [lookup] determines the key, the system and the YAML, if keys and systems
    contain no quotes. *)
Theorem C128_lookup_readable dump os os' key key' v v' t :
  ~ In 39%N key -> ~ In 39%N key' -> ~ In 39%N os -> ~ In 39%N os' ->
  lookup_text dump os key v t -> lookup_text dump os' key' v' t ->
  key = key' /\ os = os' /\ dump v = dump v'.
Proof.
  intros K K' O O' (y & D & ->) (y' & D' & E).
  apply app_inv_head in E. change (u "' on '") with (39%N :: u " on '") in E. cbn [app] in E.
  apply split_at in E; [|assumption|assumption]. destruct E as [-> E].
  apply app_inv_head in E. change (u "':") with (39%N :: u ":") in E. cbn [app] in E.
  apply split_at in E; [|assumption|assumption]. destruct E as [-> E]. apply app_inv_head in E. injection E as ->.
  split; [reflexivity|]. split; [reflexivity|congruence].
Qed.

(** Without these conditions it does not: an item of the default installer can look like another installer. *)
Theorem C128_conditions_needed :
  exists default key i1 items1 i2 items2 t,
    result_text default false key i1 items1 t /\ result_text default false key i2 items2 t /\ i1 <> i2.
Proof.
  exists (Some (u "apt")), (u "boost"), (u "pip"), [u "boost"], (u "apt"), [u "pip: boost"], (u "boost --> pip: boost").
  split; [|split; [|discriminate]].
  - exists (u "pip: "), (u "boost"). split; [reflexivity|]. split; [reflexivity|].
    split; [intros N; exfalso; apply N; right; discriminate|constructor].
  - exists [], (u "pip: boost"). split; [reflexivity|].
    split; [intros [N|N]; [discriminate N|exfalso; apply N; reflexivity]|]. split; [reflexivity|constructor].
Qed.

(** ** Non-vacuity *)
Example C128_nonvacuous :
  let show := fun t : text => t in
  let off := fun _ : text => [] : text in
  fst (resolve_command off show false (Ok (Some (u "apt")))
    (Ok ([(u "boost", (u "apt", [u "libboost"; u "libboost-dev"])); (u "six", (u "pip", [u "six"]))], []))) =
  [Line (u "boost --> libboost, libboost-dev"); Line (u "six --> pip: six")] /\
  result_text (Some (u "apt")) false (u "boost") (u "apt") [u "libboost"; u "libboost-dev"] (u "boost --> libboost, libboost-dev") /\
  lookup_text (fun _ => u "[libboost]" ++ [10%N]) (u "ubuntu:xenial") (u "boost") (VList [VStr (u "libboost")])
    (u "Rules for 'boost' on 'ubuntu:xenial':" ++ [10%N] ++ u "[libboost]").
Proof.
  cbv zeta. split; [reflexivity|]. split.
  - exists [], (u "libboost, libboost-dev"). split; [reflexivity|].
    split; [intros [N|N]; [discriminate N|exfalso; apply N; reflexivity]|]. split; [reflexivity|].
    apply (commas_more (u "libboost") (u "libboost-dev") [] (u "libboost-dev")). constructor.
  - exists (u "[libboost]"). split; reflexivity.
Qed.

Print Assumptions C128_resolve.
Print Assumptions C128_lookup_stopped.
Print Assumptions C128_lookup.
Print Assumptions C128_resolve_readable.
Print Assumptions C128_lookup_readable.
Print Assumptions C128_conditions_needed.
