(** C124-C126: what is said about plugins, about the detection of the operating system, and about unknown
    options and rule keys. *)
From Verif Require Import Base Dict PyVal RulesDict Verify Paths Sources Config ConfigSpec ConfigProofs PropConfig XylemConfig
  Plugins PropPlugins Util Installers PropInstallers OsSupport PropOs Output SourcesLog PluginsLog.
From Verif Require CacheProofs.
From Coq Require Import Lia.

(** * C124 *)
(** ** Specification *)
(** A message that is shown without --verbose. *)
Definition always_shown (m : log_call) : bool := match m with Warning _ | Error _ => true | _ => false end.

Section Told.
  Context {P : Type}.
  Variable name_of : P -> res pkey.
  Variables kind group : text.
  Variable show_definition : definition P -> text.
  Variable show_key : pkey -> text.
  Variable show_problem : P -> text.
  Variable disabled : list text.

  (** The definition is not of the required form. *)
  Definition malformed (d : definition P) : Prop :=
    match d with
    | DOther e => In e [TypeError; KeyError; ValueError; InvalidPluginError]
    | DDict n de c => (forall s, n <> Some (VStr s)) \/ (forall s, de <> Some (VStr s)) \/
                      (forall k, c = Some (AClass k) -> pc_derived k = false)
    end.
  (** The definition is [name]'s, with class [k]. *)
  Definition defines (d : definition P) (name : text) (k : plugin_class P) : Prop :=
    exists de, d = DDict (Some (VStr name)) (Some (VStr de)) (Some (AClass k)) /\ pc_derived k = true.

  (** [told taken eps ms ps]: if the names [taken] are taken, the entry points [eps] (name and what it refers
      to) lead to the messages [ms], one for each, and to the plugins [ps]. *)
  Inductive told : list pkey -> list (text * res (definition P)) -> list log_call -> list P -> Prop :=
  | told_nil taken : told taken [] [] []
  | told_malformed taken ep d eps ms ps : malformed d -> told taken eps ms ps ->
      told taken ((ep, Ok d) :: eps)
        (Error (Text (u "Skipping " ++ kind ++ u " plugin. Failed to load from '" ++ group ++
                      u "' entry point with name '" ++ ep ++ u "':" ++ [nl] ++
                      u "The following definition of " ++ kind ++ u " plugin is invalid:" ++ [nl] ++ show_definition d))
         :: ms) ps
  | told_disabled taken ep d name k eps ms ps : defines d name k -> In name disabled -> told taken eps ms ps ->
      told taken ((ep, Ok d) :: eps)
        (InfoV (Text (u "Skipping disabled " ++ kind ++ u " plugin '" ++ name ++ u "'.")) :: ms) ps
  | told_invalid taken ep d name k p n eps ms ps : defines d name k -> ~ In name disabled ->
      pc_new k = Ok p -> name_of p = Ok n -> pc_verify k p = Err InvalidPluginError -> told taken eps ms ps ->
      told taken ((ep, Ok d) :: eps)
        (Error (Text (u "Skipping " ++ kind ++ u " plugin '" ++ name ++ u "'. Plugin is invalid:" ++ [nl] ++ show_problem p))
         :: ms) ps
  | told_duplicate taken ep d name k p n eps ms ps : defines d name k -> ~ In name disabled ->
      pc_new k = Ok p -> name_of p = Ok n -> pc_verify k p = Ok tt -> In n taken -> told taken eps ms ps ->
      told taken ((ep, Ok d) :: eps)
        (Warning (Text (u "Ignoring " ++ kind ++ u " plugin '" ++ name ++ u "' with duplicate name '" ++ name ++ u "'")) :: ms) ps
  | told_loaded taken ep d name k p n eps ms ps : defines d name k -> ~ In name disabled ->
      pc_new k = Ok p -> name_of p = Ok n -> pc_verify k p = Ok tt -> ~ In n taken -> told (n :: taken) eps ms ps ->
      told taken ((ep, Ok d) :: eps)
        (InfoV (Text (u "Loaded " ++ kind ++ u " plugin '" ++ name ++ u "' with " ++ kind ++ u " name '" ++ show_key n ++ u "'."))
         :: ms) (p :: ps).
End Told.

(** ** Proofs *)
Section LoadProofs.
  Context {P : Type}.
  Variable name_of : P -> res pkey.
  Variables kind group : text.
  Variable show_definition : definition P -> text.
  Variable show_key : pkey -> text.
  Variable show_problem : P -> text.
  Variable disabled : list text.
  Notation run := (load_plugins_run name_of kind group show_definition show_key show_problem).
  Notation loop := (load_loop name_of kind group show_definition show_key show_problem disabled).
  Notation step := (load_said name_of kind group show_definition show_key show_problem disabled).
  Notation told := (told name_of kind group show_definition show_key show_problem disabled).

  Lemma step_same st ep : snd (step st ep) = load_step name_of disabled st (snd ep).
  Proof.
    destruct st as [l s], ep as [n r]. unfold load_said, load_step. cbn [snd fst].
    destruct r as [d|e]; cbn [bind]; [|reflexivity].
    destruct (verify_plugin_definition d) as [[pn c]|e]; [|destruct e; reflexivity].
    destruct (mem pn disabled); [reflexivity|].
    destruct (pc_new c) as [obj|e]; cbn [bind]; [|reflexivity].
    destruct (name_of obj) as [on|e]; cbn [bind]; [|reflexivity].
    destruct (pc_verify c obj) as [x|e]; [|destruct e; reflexivity].
    destruct (mem on s); reflexivity.
  Qed.

  Lemma loop_same eps st : snd (loop eps st) = foldM (load_step name_of disabled) (map snd eps) st.
  Proof.
    revert st; induction eps as [|ep eps IH]; intros st; [reflexivity|]. cbn [load_loop map foldM].
    pose proof (step_same st ep) as H. destruct (step st ep) as [said [st'|e]]; cbn [snd] in H; rewrite <- H; cbn [bind].
    - rewrite <- IH. destruct (loop eps st') as [s r]. reflexivity.
    - reflexivity.
  Qed.

  Lemma definition_cases (d : definition P) :
    (exists name k, defines d name k /\ verify_plugin_definition d = Ok (name, k)) \/
    (malformed d /\ verify_plugin_definition d = Err InvalidPluginError) \/
    (exists e, verify_plugin_definition d = Err e /\ e <> InvalidPluginError).
  Proof.
    unfold verify_plugin_definition. destruct d as [n de c|e]; cbn [check_definition].
    - destruct n as [[| | |n| | |]|]; cbn [item_of bind verify_plugin_text];
        try (right; left; split; [left; congruence|reflexivity]).
      destruct de as [[| | |de| | |]|]; cbn [item_of bind verify_plugin_text];
        try (right; left; split; [right; left; congruence|reflexivity]).
      destruct c as [[|k]|]; cbn [item_of bind verify_plugin_class];
        try (right; left; split; [right; right; congruence|reflexivity]).
      destruct (pc_derived k) eqn:E; cbn [bind].
      + left. exists n, k. split; [exists de; split; [reflexivity|exact E]|reflexivity].
      + right; left. split; [right; right; congruence|reflexivity].
    - destruct e; try (right; left; split; [cbn; tauto|reflexivity]);
        right; right; eexists; split; try reflexivity; congruence.
  Qed.

  Lemma loop_told eps : forall l taken said l' taken', loop eps (l, taken) = (said, Ok (l', taken')) ->
    exists ps, l' = l ++ ps /\ told taken eps said ps.
  Proof.
    induction eps as [|[ep r] eps IH]; intros l taken said l' taken'; cbn [load_loop].
    { intros H; injection H as <- <- <-. exists []. rewrite app_nil_r. split; [reflexivity|constructor]. }
    unfold load_said; cbn [fst snd]. destruct r as [d|e]; [|discriminate].
    destruct (definition_cases d) as [(name & k & Hd & ->)|[(Hm & ->)|(e & -> & Hne)]].
    - destruct (mem name disabled) eqn:Edis.
      { destruct (loop eps (l, taken)) as [s x] eqn:E. intros H; injection H as <- ->.
        destruct (IH _ _ _ _ _ E) as (ps & -> & Ht). exists ps. split; [reflexivity|].
        eapply told_disabled; [exact Hd| |exact Ht]. apply (proj1 (mem_In _ _)); exact Edis. }
      apply (proj1 (mem_not_In _ _)) in Edis.
      destruct (pc_new k) as [obj|e] eqn:En; [|discriminate].
      destruct (name_of obj) as [on|e] eqn:Eo; [|discriminate].
      destruct (pc_verify k obj) as [[]|e] eqn:Ev.
      + destruct (mem on taken) eqn:Em.
        * destruct (loop eps (l, taken)) as [s x] eqn:E. intros H; injection H as <- ->.
          destruct (IH _ _ _ _ _ E) as (ps & -> & Ht). exists ps. split; [reflexivity|].
          eapply told_duplicate; eauto. apply (proj1 (mem_In _ _)); exact Em.
        * destruct (loop eps (l ++ [obj], on :: taken)) as [s x] eqn:E. intros H; injection H as <- ->.
          destruct (IH _ _ _ _ _ E) as (ps & -> & Ht). exists (obj :: ps). rewrite <- app_assoc. split; [reflexivity|].
          eapply told_loaded; eauto. apply (proj1 (mem_not_In _ _)); exact Em.
      + destruct e; try discriminate.
        destruct (loop eps (l, taken)) as [s x] eqn:E. intros H; injection H as <- ->.
        destruct (IH _ _ _ _ _ E) as (ps & -> & Ht). exists ps. split; [reflexivity|].
        eapply told_invalid; eauto.
    - destruct (loop eps (l, taken)) as [s x] eqn:E. intros H; injection H as <- ->.
      destruct (IH _ _ _ _ _ E) as (ps & -> & Ht). exists ps. split; [reflexivity|].
      apply told_malformed; assumption.
    - destruct e; try discriminate. contradiction Hne; reflexivity.
  Qed.

  Lemma loop_app a b st : loop (a ++ b) st =
    match loop a st with
    | (said, Err e) => (said, Err e)
    | (said, Ok st') => let (said', r) := loop b st' in (said ++ said', r)
    end.
  Proof.
    revert st; induction a as [|ep a IH]; intros st; cbn [app load_loop].
    - destruct (loop b st); reflexivity.
    - destruct (step st ep) as [said [st'|e]]; [|reflexivity]. rewrite IH.
      destruct (loop a st') as [s [st''|e]]; [|reflexivity].
      destruct (loop b st'') as [s' r]. rewrite app_assoc. reflexivity.
  Qed.
  Lemma step_err st ep said e : step st ep = (said, Err e) -> said = [].
  Proof.
    destruct st as [l s], ep as [n r]. unfold load_said. cbn [snd fst].
    destruct r as [d|e']; [|congruence].
    destruct (verify_plugin_definition d) as [[pn c]|e']; [|destruct e'; congruence].
    destruct (mem pn disabled); [congruence|].
    destruct (pc_new c) as [obj|e']; [|congruence].
    destruct (name_of obj) as [on|e']; [|congruence].
    destruct (pc_verify c obj) as [x|e']; [|destruct e'; congruence].
    destruct (mem on s); congruence.
  Qed.
  Lemma loop_err eps : forall st said e, loop eps st = (said, Err e) ->
    exists before ep after st', eps = before ++ ep :: after /\ loop before st = (said, Ok st') /\ snd (step st' ep) = Err e.
  Proof.
    induction eps as [|ep eps IH]; intros st said e; cbn [load_loop]; [discriminate|].
    destruct (step st ep) as [s [st'|e']] eqn:Es.
    - destruct (loop eps st') as [s' r] eqn:El. intros H; injection H as <- ->.
      destruct (IH _ _ _ El) as (b & ep' & a & st2 & -> & Hb & Hs).
      exists (ep :: b), ep', a, st2. split; [reflexivity|]. split; [|exact Hs].
      cbn [load_loop]. rewrite Es, Hb. reflexivity.
    - intros H; injection H as <- ->. rewrite (step_err _ _ _ _ Es) in *.
      exists [], ep, eps, st. split; [reflexivity|]. split; [reflexivity|]. rewrite Es. reflexivity.
  Qed.
End LoadProofs.

(** ** Theorems *)
(** The messages change nothing about what is loaded. *)
Theorem C124_same_plugins {P} name_of kind group sd sk sp (eps : list (text * res (definition P))) disabled :
  snd (load_plugins_run name_of kind group sd sk sp eps disabled) = load_plugins name_of (map snd eps) disabled.
Proof.
  unfold load_plugins_run, load_plugins.
  rewrite <- (loop_same name_of kind group sd sk sp disabled eps ([], [])).
  destruct (load_loop name_of kind group sd sk sp disabled eps ([], [])) as [s r]. reflexivity.
Qed.

(** One message for each entry point, in order, that says what became of it and why. *)
Theorem C124_messages {P} name_of kind group sd sk sp (eps : list (text * res (definition P))) disabled said ps :
  load_plugins_run name_of kind group sd sk sp eps disabled = (said, Ok ps) ->
  told name_of kind group sd sk sp disabled [] eps said ps.
Proof.
  unfold load_plugins_run. destruct (load_loop name_of kind group sd sk sp disabled eps ([], [])) as [s [[l t]|e]] eqn:E;
    [|discriminate]. intros H; injection H as <- <-. cbn [fst].
  destruct (loop_told name_of kind group sd sk sp disabled _ _ _ _ _ _ E) as (qs & -> & Ht). exact Ht.
Qed.

(** If an entry point raises, those before it have got their messages and there are no others. *)
Theorem C124_before_failure {P} name_of kind group sd sk sp (eps : list (text * res (definition P))) disabled said e :
  load_plugins_run name_of kind group sd sk sp eps disabled = (said, Err e) ->
  exists before ep after ps, eps = before ++ ep :: after /\ raises name_of disabled (snd ep) e /\
    told name_of kind group sd sk sp disabled [] before said ps.
Proof.
  unfold load_plugins_run. destruct (load_loop name_of kind group sd sk sp disabled eps ([], [])) as [s [[l t]|e']] eqn:E;
    [discriminate|]. cbn [bind]. intros H; injection H as <- <-.
  destruct (loop_err name_of kind group sd sk sp disabled _ _ _ _ E) as (b & ep & a & [l t] & -> & Hb & Hs).
  destruct (loop_told name_of kind group sd sk sp disabled _ _ _ _ _ _ Hb) as (qs & _ & Ht).
  exists b, ep, a, qs. split; [reflexivity|]. split; [|exact Ht].
  rewrite step_same in Hs.
  destruct (step_cases name_of disabled (l, t) (snd ep)) as [(n & p & _ & E1)|[(_ & _ & _ & E1)|(e'' & Hr & _ & E1)]].
  - rewrite E1 in Hs. destruct (mem n t); discriminate.
  - rewrite E1 in Hs. discriminate.
  - rewrite E1 in Hs. injection Hs as ->. exact Hr.
Qed.

Lemma told_length {P} name_of kind group sd sk sp disabled taken (eps : list (text * res (definition P))) ms ps :
  told name_of kind group sd sk sp disabled taken eps ms ps -> List.length ms = List.length eps.
Proof. induction 1; cbn; congruence. Qed.

(** Without --verbose nothing is shown exactly if every plugin is disabled or loaded: a plugin that is neither
    never goes unreported. *)
Theorem C124_silent_exactly {P} name_of kind group sd sk sp (eps : list (text * res (definition P))) disabled said ps :
  load_plugins_run name_of kind group sd sk sp eps disabled = (said, Ok ps) ->
  ((forall m, In m said -> always_shown m = false) <->
   List.length ps + List.length (filter (fun ep => match snd ep with
                                                   | Ok (DDict (Some (VStr n)) (Some (VStr _)) (Some (AClass k))) => pc_derived k && mem n disabled
                                                   | _ => false
                                                   end) eps) = List.length eps).
Proof.
  intros H. apply C124_messages in H.
  assert (B : List.length ps + List.length (filter (fun ep : text * res (definition P) => match snd ep with
                                                   | Ok (DDict (Some (VStr n)) (Some (VStr _)) (Some (AClass k))) => pc_derived k && mem n disabled
                                                   | _ => false
                                                   end) eps) + List.length (filter always_shown said) = List.length eps).
  { clear -H. induction H; cbn [filter List.length always_shown snd]; [reflexivity|..].
    - (* malformed *)
      match goal with |- context [if ?c then _ else _] => assert (E : c = false); [|rewrite E; cbn [List.length]; lia] end.
      destruct d as [[[| | |x| | |]|] [[| | |y| | |]|] [[|k]|]|]; try reflexivity.
      destruct H as [H|[H|H]]; try (exfalso; eapply H; reflexivity). rewrite (H k eq_refl). reflexivity.
    - destruct H as (de & -> & Hd). rewrite Hd, (proj2 (mem_In _ _) H0). cbn [andb List.length]. lia.
    - destruct H as (de & -> & Hd). rewrite (proj2 (mem_not_In _ _) H0), andb_false_r. cbn [List.length]. lia.
    - destruct H as (de & -> & Hd). rewrite (proj2 (mem_not_In _ _) H0), andb_false_r. cbn [List.length]. lia.
    - destruct H as (de & -> & Hd). rewrite (proj2 (mem_not_In _ _) H0), andb_false_r. cbn [List.length]. lia. }
  split.
  - intros Hq. assert (E : filter always_shown said = []).
    { clear -Hq. induction said as [|m l IH]; [reflexivity|]. cbn [filter]. rewrite (Hq m (or_introl eq_refl)).
      apply IH. intros; apply Hq; right; assumption. }
    rewrite E in B. cbn [List.length] in B. lia.
  - intros Hq m Hm. destruct (always_shown m) eqn:E; [|reflexivity]. exfalso.
    assert (In m (filter always_shown said)) by (apply filter_In; split; assumption).
    destruct (filter always_shown said); [contradiction|]. cbn [List.length] in B. lia.
Qed.

(** False: that the warning about a plugin with a taken name says which name that is.  The message does not
    depend on the name: the plugin name is shown in its place. *)
Theorem C124_taken_name_refuted {P} name_of kind group sd sk sp disabled (taken : list pkey) (l : list P) ep name de k p n :
  ~ In name disabled -> pc_derived k = true -> pc_new k = Ok p -> name_of p = Ok n -> pc_verify k p = Ok tt -> In n taken ->
  fst (load_said name_of kind group sd sk sp disabled (l, taken) (ep, Ok (DDict (Some (VStr name)) (Some (VStr de)) (Some (AClass k))))) =
  [Warning (Text (u "Ignoring " ++ kind ++ u " plugin '" ++ name ++ u "' with duplicate name '" ++ name ++ u "'"))].
Proof.
  intros Hd Hk Hp Hn Hv Ht. unfold load_said. cbn [snd fst].
  unfold verify_plugin_definition. cbn [check_definition item_of bind verify_plugin_text verify_plugin_class]. rewrite Hk. cbn [bind].
  rewrite (proj2 (mem_not_In _ _) Hd), Hp, Hn, Hv, (proj2 (mem_In _ _) Ht). reflexivity.
Qed.

(** A loaded plugin, a disabled one, a broken definition, a plugin with an invalid name and a second one of
    the same name. *)
Example C124_nonvacuous :
  let c (t : text) (v : res unit) := AClass {| pc_derived := true; pc_new := Ok t; pc_verify := fun _ => v |} in
  let def (n : text) (k : class_value text) : res (definition text) := Ok (DDict (Some (VStr n)) (Some (VStr [])) (Some k)) in
  let r := load_plugins_run (fun t => Ok (KStr t)) (u "installer") (u "xylem.installers") (fun _ => u "{}")
             (fun k => match k with KStr t => t | _ => [] end) (fun _ => u "bad name")
             [(u "a", def (u "apt") (c (u "apt") (Ok tt))); (u "b", def (u "brew") (c (u "brew") (Ok tt)));
              (u "c", Ok (DDict None None None)); (u "d", def (u "any") (c (u "any_os") (Err InvalidPluginError)));
              (u "e", def (u "apt2") (c (u "apt") (Ok tt)))] [u "brew"] in
  snd r = Ok [u "apt"] /\
  fst r = [InfoV (Text (u "Loaded installer plugin 'apt' with installer name 'apt'."));
           InfoV (Text (u "Skipping disabled installer plugin 'brew'."));
           Error (Text (u "Skipping installer plugin. Failed to load from 'xylem.installers' entry point with name 'c':" ++ [nl] ++
                        u "The following definition of installer plugin is invalid:" ++ [nl] ++ u "{}"));
           Error (Text (u "Skipping installer plugin 'any'. Plugin is invalid:" ++ [nl] ++ u "bad name"));
           Warning (Text (u "Ignoring installer plugin 'apt2' with duplicate name 'apt2'"))].
Proof. vm_compute. split; reflexivity. Qed.

(** * C125 *)
(** ** Specification *)
(** The lists of names of the plugins go from the system itself to more and more general ones: a system
    derived from another one has the names of that one at the end of its own. *)
Definition family {W} (plugins : list (os_plugin W)) : Prop :=
  NoDup (map os_name plugins) /\
  (forall a b, In a plugins -> In b plugins -> derives a b -> exists more, os_all_names a = more ++ os_all_names b).
(** [m] is detected and derived from all other systems that are detected. *)
Definition single_most_specific {W} (plugins : list (os_plugin W)) (w : W) (m : os_plugin W) : Prop :=
  detected plugins w m /\ forall o, detected plugins w o -> o <> m -> derives m o.
(** Neither is derived from the other. *)
Definition unrelated {W} (o r : os_plugin W) : Prop := os_name o <> os_name r /\ ~ derives o r /\ ~ derives r o.

(** ** Proofs *)
Section DetectProofs.
  Context {W : Type}.
  Implicit Types (o p r m : os_plugin W) (plugins l : list (os_plugin W)) (w : W).

  Lemma detect_said_same l w : forall res0, snd (detect_said res0 l w) = detect_loop res0 l w.
  Proof.
    induction l as [|o l IH]; intros res0; [reflexivity|]. cbn [detect_said detect_loop].
    destruct (os_is o w) as [[]|e]; cbn [bind]; [|apply IH|reflexivity].
    destruct res0 as [r|]; [|apply IH].
    destruct (mem (os_name o) (os_all_names r)); [apply IH|].
    destruct (mem (os_name r) (os_all_names o)); [apply IH|].
    rewrite <- IH. destruct (detect_said (Some r) l w); reflexivity.
  Qed.

  Lemma said_unrelated l w plugins : forall res0 said x, (forall o, In o l -> In o plugins) ->
    (forall r, res0 = Some r -> detected plugins w r) ->
    detect_said res0 l w = (said, x) ->
    forall c, In c said -> exists o r, detected plugins w o /\ detected plugins w r /\ unrelated o r /\ c = said_ignored o r.
  Proof.
    induction l as [|o l IH]; intros res0 said x Hl Hr; cbn [detect_said].
    { intros H; injection H as <- <-. intros c []. }
    assert (Hl' : forall q, In q l -> In q plugins) by (intros; apply Hl; right; assumption).
    destruct (os_is o w) as [[]|e] eqn:Eo; [|apply IH; assumption|intros H; injection H as <- <-; intros c []].
    assert (Ho : detected plugins w o) by (split; [apply Hl; left; reflexivity|exact Eo]).
    destruct res0 as [r|]; [|apply IH; [exact Hl'|intros r E; injection E as <-; exact Ho]].
    destruct (mem (os_name o) (os_all_names r)) eqn:M1; [apply IH; assumption|].
    destruct (mem (os_name r) (os_all_names o)) eqn:M2; [apply IH; [exact Hl'|intros r' E; injection E as <-; exact Ho]|].
    destruct (detect_said (Some r) l w) as [s y] eqn:E. intros H; injection H as <- <-.
    apply (proj1 (mem_not_In _ _)) in M1. apply (proj1 (mem_not_In _ _)) in M2.
    intros c [<-|Hc]; [|exact (IH _ _ _ Hl' Hr E c Hc)].
    exists o, r. split; [exact Ho|]. split; [apply Hr; reflexivity|]. split; [|reflexivity].
    split; [intros En; apply M1; left; congruence|].
    split; intros D; [apply M2|apply M1]; right; exact D.
  Qed.

  (** Without a message the result carries the names of all detected systems. *)
  Lemma silent_names plugins w : family plugins -> forall l seen res0 res,
    (forall o, In o l -> In o plugins) -> (forall r, res0 = Some r -> In r plugins) ->
    (forall o, In o seen -> exists r, res0 = Some r /\ In (os_name o) (os_all_names r)) ->
    detect_said res0 l w = ([], Ok res) ->
    (forall r, res = Some r -> res0 = Some r \/ detected l w r) /\
    (forall o, In o seen \/ detected l w o -> exists r, res = Some r /\ In (os_name o) (os_all_names r)).
  Proof.
    intros (ND & Fam). induction l as [|o l IH]; intros seen res0 res Hl Hr Hs; cbn [detect_said].
    { intros H; injection H as <-. split; [intros r ->; left; reflexivity|]. intros o [Ho|[[] _]]. apply Hs; exact Ho. }
    assert (Hl' : forall q, In q l -> In q plugins) by (intros; apply Hl; right; assumption).
    assert (Ho : In o plugins) by (apply Hl; left; reflexivity).
    assert (Later : forall q, detected l w q -> detected (o :: l) w q) by (intros q [A B]; split; [right|]; assumption).
    destruct (os_is o w) as [[]|e] eqn:Eo; [| |discriminate].
    - assert (Now : detected (o :: l) w o) by (split; [left; reflexivity|exact Eo]).
      assert (G : forall res1, detect_said res1 l w = ([], Ok res) -> (forall r, res1 = Some r -> In r plugins) ->
          (forall r, res1 = Some r -> res0 = Some r \/ r = o) ->
          (forall q, In q (o :: seen) -> exists r, res1 = Some r /\ In (os_name q) (os_all_names r)) ->
          (forall r, res = Some r -> res0 = Some r \/ detected (o :: l) w r) /\
          (forall q, In q seen \/ detected (o :: l) w q -> exists r, res = Some r /\ In (os_name q) (os_all_names r))).
      { intros res1 E1 P1 P2 P3. destruct (IH (o :: seen) res1 res Hl' P1 P3 E1) as [A B]. split.
        - intros r Er. destruct (A r Er) as [X|X]; [|right; apply Later; exact X].
          destruct (P2 r X) as [Y| ->]; [left; exact Y|right; exact Now].
        - intros q [Hq|[[<-|Hq] Hqt]]; apply B; [left; right; exact Hq|left; left; reflexivity|right; split; assumption]. }
      destruct res0 as [r|].
      + specialize (Hr r eq_refl).
        destruct (mem (os_name o) (os_all_names r)) eqn:M1.
        * intros E. apply (G _ E); [intros r' X; injection X as <-; exact Hr|intros r' X; left; exact X|].
          intros q [<-|Hq]; [exists r; split; [reflexivity|apply (proj1 (mem_In _ _)); exact M1]|apply Hs; exact Hq].
        * destruct (mem (os_name r) (os_all_names o)) eqn:M2.
          -- intros E. apply (G _ E); [intros r' X; injection X as <-; exact Ho|intros r' X; injection X as <-; right; reflexivity|].
             intros q [<-|Hq]; [exists o; split; [reflexivity|left; reflexivity]|].
             destruct (Hs q Hq) as (r' & X & Hin). injection X as <-. exists o. split; [reflexivity|].
             apply (proj1 (mem_In _ _)) in M2. destruct M2 as [M2|M2].
             ++ exfalso. apply (proj1 (mem_not_In _ _)) in M1. apply M1. left. congruence.
             ++ destruct (Fam o r Ho Hr M2) as (more & ->). apply in_or_app. right. exact Hin.
          -- destruct (detect_said (Some r) l w). intros H; discriminate H.
      + intros E. apply (G _ E); [intros r' X; injection X as <-; exact Ho|intros r' X; injection X as <-; right; reflexivity|].
        intros q [<-|Hq]; [exists o; split; [reflexivity|left; reflexivity]|]. destruct (Hs q Hq) as (r' & X & _). discriminate.
    - intros E. destruct (IH seen res0 res Hl' Hr Hs E) as [A B]. split.
      + intros r Er. destruct (A r Er) as [X|X]; [left; exact X|right; apply Later; exact X].
      + intros q [Hq|[[<-|Hq] Hqt]]; [apply B; left; exact Hq|congruence|apply B; right; split; assumption].
  Qed.

  Lemma said_silent plugins w :
    (forall a b, detected plugins w a -> detected plugins w b -> In (os_name a) (os_all_names b) \/ In (os_name b) (os_all_names a)) ->
    forall l res0, (forall o, In o l -> In o plugins) -> (forall r, res0 = Some r -> detected plugins w r) ->
    fst (detect_said res0 l w) = [].
  Proof.
    intros Hc. induction l as [|o l IH]; intros res0 Hl Hr; [reflexivity|]. cbn [detect_said].
    assert (Hl' : forall q, In q l -> In q plugins) by (intros; apply Hl; right; assumption).
    destruct (os_is o w) as [[]|e] eqn:Eo; [|apply IH; assumption|reflexivity].
    assert (Ho : detected plugins w o) by (split; [apply Hl; left; reflexivity|exact Eo]).
    assert (Hso : forall r, Some o = Some r -> detected plugins w r) by (intros r X; injection X as <-; exact Ho).
    destruct res0 as [r|]; [|apply IH; assumption].
    destruct (mem (os_name o) (os_all_names r)) eqn:M1; [apply IH; assumption|].
    destruct (mem (os_name r) (os_all_names o)) eqn:M2; [apply IH; assumption|].
    exfalso. apply (proj1 (mem_not_In _ _)) in M1. apply (proj1 (mem_not_In _ _)) in M2.
    destruct (Hc o r Ho (Hr r eq_refl)); contradiction.
  Qed.

  Lemma comparable plugins w m : family plugins -> single_most_specific plugins w m ->
    forall a b, detected plugins w a -> detected plugins w b -> In (os_name a) (os_all_names b) \/ In (os_name b) (os_all_names a).
  Proof.
    intros (ND & Fam) [[Hm Hmt] Hder].
    assert (S : forall a, detected plugins w a -> exists more, os_all_names m = more ++ os_all_names a).
    { intros a [Ha Hat]. destruct (eqb_spec (os_name a) (os_name m)) as [E|N].
      - rewrite (name_inj plugins a m ND Ha Hm E). exists []. reflexivity.
      - apply Fam; [exact Hm|exact Ha|]. apply Hder; [split; assumption|congruence]. }
    intros a b Ha Hb. destruct (S a Ha) as (x & Ex), (S b Hb) as (y & Ey).
    assert (E : x ++ os_all_names a = y ++ os_all_names b) by congruence.
    apply app_eq_app in E. destruct E as (t & [[_ E]|[_ E]]).
    - left. rewrite E. apply in_or_app. right. left. reflexivity.
    - right. rewrite E. apply in_or_app. right. left. reflexivity.
  Qed.
End DetectProofs.

(** ** Theorems *)
(** The messages change nothing about what is detected. *)
Theorem C125_same_os {W} (s : os_support W) w : snd (detect_run s w) = detect_os s w.
Proof.
  unfold detect_run, detect_os. rewrite <- detect_said_same. destruct (detect_said None (s_plugins s) w) as [said [[o|]|e]]; reflexivity.
Qed.

(** Each warning names two systems that are both detected, neither derived from the other. *)
Theorem C125_warnings {W} (s : os_support W) w c :
  In c (fst (detect_run s w)) ->
  exists o r, detected (s_plugins s) w o /\ detected (s_plugins s) w r /\ unrelated o r /\
    c = Warning (Text (u "ignoring detection of OS '" ++ os_name o ++ u "'; '" ++ os_name r ++ u "' already detected")).
Proof.
  unfold detect_run. destruct (detect_said None (s_plugins s) w) as [said x] eqn:E. cbn [fst]. intros Hc.
  refine (said_unrelated (s_plugins s) w (s_plugins s) None said x (fun _ H => H) _ E c Hc). intros r H; discriminate H.
Qed.

(** Something is said exactly if there is no single most specific system among the detected ones. *)
Theorem C125_warned_exactly {W} (s s' : os_support W) w said :
  family (s_plugins s) -> detect_run s w = (said, (Ok tt, s')) ->
  (said = [] <-> exists m, single_most_specific (s_plugins s) w m).
Proof.
  intros Fam. unfold detect_run. destruct (detect_said None (s_plugins s) w) as [said0 r] eqn:E.
  intros H. injection H as <- H. split.
  - intros ->. destruct r as [[m|]|e]; [|discriminate|discriminate].
    destruct (silent_names (s_plugins s) w Fam (s_plugins s) [] None (Some m) (fun _ H => H)) as [A B];
      [intros r X; discriminate X|intros o []|exact E|].
    exists m. destruct (A m eq_refl) as [X|Hm]; [discriminate|]. split; [exact Hm|].
    intros o Ho Hne. destruct (B o (or_intror Ho)) as (r & X & Hin). injection X as <-.
    destruct Hin as [En|Hin]; [|exact Hin]. exfalso. apply Hne. symmetry.
    destruct Fam as (ND & _). apply (name_inj (s_plugins s)); [exact ND|apply Hm|apply Ho|exact En].
  - intros (m & Hm). change said0 with (fst (said0, r)). rewrite <- E.
    apply (said_silent (s_plugins s) w (comparable _ w m Fam Hm) (s_plugins s) None (fun _ H => H)).
    intros r' X; discriminate X.
Qed.

(** ... and then it is that system that is used (with C42). *)
Theorem C125_silent_choice {W} (s s' : os_support W) w :
  family (s_plugins s) -> detect_run s w = ([], (Ok tt, s')) ->
  exists m, single_most_specific (s_plugins s) w m /\ s_os s' = Some (Plugin m).
Proof.
  intros Fam. unfold detect_run. destruct (detect_said None (s_plugins s) w) as [said0 r] eqn:E.
  intros H. injection H as -> H. destruct r as [[m|]|e]; [|discriminate|discriminate]. injection H as <-.
  destruct (silent_names (s_plugins s) w Fam (s_plugins s) [] None (Some m) (fun _ H => H)) as [A B];
    [intros r X; discriminate X|intros o []|exact E|].
  exists m. split; [|reflexivity]. destruct (A m eq_refl) as [X|Hm]; [discriminate|]. split; [exact Hm|].
  intros o Ho Hne. destruct (B o (or_intror Ho)) as (r & X & Hin). injection X as <-.
  destruct Hin as [En|Hin]; [|exact Hin]. exfalso. apply Hne. symmetry.
  destruct Fam as (ND & _). apply (name_inj (s_plugins s)); [exact ND|apply Hm|apply Ho|exact En].
Qed.

(** The bundled plugins are a family. *)
Definition bundled_plugins : list (os_plugin machine) :=
  flat_map (fun b => match plugin_of b with Some o => [o] | None => [] end) builtin_oses.
Theorem C125_bundled : family bundled_plugins.
Proof.
  split.
  - apply (proj1 (CacheProofs.distinct_NoDup _)). vm_compute. reflexivity.
  - intros a b Ha Hb. unfold derives.
    repeat (destruct Ha as [<-|Ha]); [..|destruct Ha];
      (repeat (destruct Hb as [<-|Hb]); [..|destruct Hb]); intros D;
      first [ (exists []; reflexivity) | (exists [u "ubuntu"]; reflexivity) | (exists [u "xubuntu"]; reflexivity)
            | (exists [u "xubuntu"; u "ubuntu"]; reflexivity)
            | (exfalso; vm_compute in D; intuition discriminate) ].
Qed.

(** A machine that looks like OS X and like Ubuntu: a warning, and the first one is used.  A system derived
    from two unrelated ones (no family): a warning although it is the single most specific one. *)
Example C125_nonvacuous :
  let both := {| m_lsb := Some (u "Ubuntu", u "14.04", u "trusty"); m_sw_vers := Some (Some (u "10.9")); m_strict_version := fun _ => None |} in
  let only := {| m_lsb := Some (u "Ubuntu", u "14.04", u "trusty"); m_sw_vers := None; m_strict_version := fun _ => None |} in
  let s := {| s_plugins := bundled_plugins; s_os := None |} in
  fst (detect_run s both) = [Warning (Text (u "ignoring detection of OS 'osx'; 'ubuntu' already detected"))] /\
  fst (detect_run s only) = [] /\
  let a := ex_os "a" [] [] in let b := ex_os "b" [] [] in let c := ex_os "c" [u "a"; u "b"] [] in
  fst (detect_run {| s_plugins := [a; b; c]; s_os := None |} [u "a"; u "b"; u "c"]) =
  [Warning (Text (u "ignoring detection of OS 'b'; 'a' already detected"))].
Proof. vm_compute. repeat split. Qed.

(** * C126 *)
(** ** Specification *)
(** The entries a description knows: its options, and the groups its options are in. *)
Definition known (d : desc) (k : pkey) : Prop :=
  exists name it, In (name, it) (d_items d) /\
    ((~ In slash name /\ k = KStr name) \/ exists g s, name = g ++ slash :: s /\ ~ In slash s /\ k = KStr g).
(** [unused] are the entries of [v] that are not known to [d]. *)
Definition unknown_entries (d : desc) (v : pydict) (unused : list pkey) : Prop :=
  forall k, In k unused <-> In k (keys v) /\ ~ known d k.

(** ** Proofs *)
Lemma fset_keys {A} (kf : A -> pkey) vf l : forall c c', foldM (fset kf vf) l c = Ok c' ->
  forall k, In k (keys c') <-> In k (keys c) \/ In k (map kf l).
Proof.
  induction l as [|x l IH]; intros c c'; cbn [foldM].
  - intros H; injection H as <-. intros k; cbn; tauto.
  - intros H. apply bind_Ok in H. destruct H as (c1 & H1 & H2). unfold fset in H1. apply bind_Ok in H1.
    destruct H1 as (v & _ & H1). injection H1 as <-. intros k. rewrite (IH _ _ H2 k), in_keys_set. cbn [map In].
    intuition.
Qed.

Lemma known_iff d k : names_ok d -> (known d k <-> In k (map (fun g : text * dict text item => KStr (fst g)) (d_groups d)) \/
    In k (map (fun p : text * item => KStr (fst p)) (top_items d))).
Proof.
  intros Hd. split.
  - intros (name & it & Hin & [[Hs ->]|(g & s & -> & Hs & ->)]).
    + right. apply in_map_iff. exists (name, it). split; [reflexivity|]. apply (top_items_In d _ _ Hd).
      split; [apply items_In; assumption|exact Hs].
    + left. apply items_In in Hin; [|exact Hd]. apply (group_of_item _ _ _ _ Hd Hs) in Hin.
      unfold keys in Hin. apply in_map_iff in Hin. destruct Hin as (p & <- & Hp). apply in_map_iff. exists p. split; [reflexivity|exact Hp].
  - intros [H|H]; apply in_map_iff in H; destruct H as (p & <- & Hp).
    + destruct p as [g gd]. cbn [fst]. assert (Hg : get g (d_groups d) = Some gd) by (apply In_get; [apply (ok_groups _ Hd)|exact Hp]).
      destruct (ok_group _ Hd _ _ Hg) as [Hw Hne]. destruct gd as [|[s it] gd]; [congruence|].
      assert (Hs : get s ((s, it) :: gd) = Some it) by (rewrite get_cons, eqb_refl; reflexivity).
      pose proof (ok_subname _ Hd _ _ _ _ Hg Hs) as Hns.
      assert (Hit : get (g ++ slash :: s) (d_items d) = Some it) by (apply (ok_sub _ Hd); eauto).
      exists (g ++ slash :: s), it. split; [apply get_In; exact Hit|]. right. eauto.
    + destruct p as [n it]. cbn [fst]. apply (top_items_In d _ _ Hd) in Hp. destruct Hp as [Hi Hs].
      exists n, it. split; [apply get_In; exact Hi|]. left. split; [exact Hs|reflexivity].
Qed.

Lemma build_keys d fg fi c : names_ok d -> build d (fun _ => Ok tt) fg fi = Ok c -> forall k, In k (keys c) <-> known d k.
Proof.
  intros Hd. rewrite build_eq. intros E. apply bind_Ok in E. destruct E as (c1 & E1 & E2). intros k.
  rewrite (fset_keys _ _ _ _ _ E2 k), (fset_keys _ _ _ _ _ E1 k), (known_iff d k Hd). cbn. tauto.
Qed.

Lemma keys_set_known (k k' : pkey) (v : pyval) (c : pydict) : In k' (keys c) -> (In k (keys (set k' v c)) <-> In k (keys c)).
Proof. intros H. rewrite in_keys_set. split; [intros [->|]; assumption|tauto]. Qed.

Lemma merge_item_keys b r p r' : merge_item b r p = Ok r' -> forall k, In k (keys r') <-> In k (keys r).
Proof.
  destruct p as [name it]. unfold merge_item. destruct (is_group_name name).
  - destruct (split_group name) as [g s]. intros H.
    apply bind_Ok in H. destruct H as (rg & E1 & H). apply (proj1 (getitem_Ok _ _ _)) in E1.
    apply bind_Ok in H. destruct H as (x & _ & H). apply bind_Ok in H. destruct H as (bg & _ & H).
    apply bind_Ok in H. destruct H as (y & _ & H). apply bind_Ok in H. destruct H as (m & _ & H).
    destruct rg; try discriminate. injection H as <-. intros k. apply keys_set_known. apply get_Some_keys. eauto.
  - intros H. apply bind_Ok in H. destruct H as (x & E1 & H). apply (proj1 (getitem_Ok _ _ _)) in E1.
    apply bind_Ok in H. destruct H as (y & _ & H). apply bind_Ok in H. destruct H as (m & _ & H). injection H as <-.
    intros k. apply keys_set_known. apply get_Some_keys. eauto.
Qed.

Lemma merge_items_keys b l : forall r r', foldM (merge_item b) l r = Ok r' -> forall k, In k (keys r') <-> In k (keys r).
Proof.
  induction l as [|p l IH]; intros r r'; cbn [foldM]; [intros H; injection H as <-; tauto|].
  intros H. apply bind_Ok in H. destruct H as (r1 & H1 & H2). intros k. rewrite (IH _ _ H2 k). apply (merge_item_keys _ _ _ _ H1).
Qed.

Lemma parsed_keys env d v c : reachable d -> config_from_parsed_yaml env v d true = Ok c -> forall k, In k (keys c) <-> known d k.
Proof.
  intros Hd H. apply reachable_names_ok in Hd. unfold config_from_parsed_yaml in H.
  apply bind_Ok in H. destruct H as (c0 & Hb & H). apply bind_Ok in H. destruct H as (df & _ & H).
  pose proof (build_keys _ _ _ _ Hd Hb) as Hk. pose proof (build_complete _ _ _ _ Hd Hb) as Hc.
  unfold merge_configs in H. rewrite (copy_config_id d c0 Hd Hc) in H. cbn [bind foldM] in H.
  apply bind_Ok in H. destruct H as (r1 & H1 & H2). injection H2 as <-.
  intros k. rewrite (merge_items_keys _ _ _ _ H1 k). apply Hk.
Qed.

Lemma unused_unknown env d v c : reachable d -> config_from_parsed_yaml env v d true = Ok c -> unknown_entries d v (unused_keys v c).
Proof.
  intros Hd H k. unfold unused_keys. rewrite filter_In, <- (parsed_keys env d v c Hd H k), negb_true_iff.
  rewrite <- (has_keys k c). destruct (has k c); split; intros [A B]; (split; [exact A|]); try congruence.
Qed.

(** ** Theorems *)
(** The options of a plugin: the value is as without messages; a warning is given exactly if there are
    unknown entries, and names them and the known options. *)
Theorem C126_options env show_keys whose name d v said r : reachable d ->
  set_options_run env show_keys whose name d (VDict v) = (said, r) ->
  r = set_options env d (VDict v) /\
  match r with
  | Err _ => said = []
  | Ok c =>
    exists unused, unknown_entries d v unused /\ (forall k, In k (keys c) <-> known d k) /\
      said = match unused with
             | [] => []
             | _ => [Warning (Text (u "ignoring the following unknown options for " ++ whose ++ u " '" ++ name ++ u "': " ++
                                    show_keys unused ++ u " -- known options are: " ++ show_keys (keys c)))]
             end
  end.
Proof.
  intros Hd. unfold set_options_run, set_options. destruct (config_from_parsed_yaml env v d true) as [c|e] eqn:E;
    intros H; injection H as <- <-; (split; [reflexivity|]); [|reflexivity].
  exists (unused_keys v c). split; [exact (unused_unknown env d v c Hd E)|]. split; [exact (parsed_keys env d v c Hd E)|].
  reflexivity.
Qed.

(** Installer rules (the rule description always has [packages]). *)
Theorem C126_rules env show_keys show name extra v said r :
  parse_rule_run env show_keys show name (rule_description extra) (VDict v) = (said, r) ->
  r = parse_installer_rule env (rule_description extra) (VDict v) /\
  match r with
  | Err _ => said = []
  | Ok c =>
    exists unused packages, unknown_entries (rule_description extra) v unused /\ option_at (u "packages") c packages /\
      said = match unused with
             | [] => []
             | _ => [Warning (Text (u "ignoring the following unknown installer rule keys for installer '" ++ name ++
                                    u "' while parsing installer rule with packages " ++ show packages ++ u ": " ++ show_keys unused))]
             end
  end.
Proof.
  pose proof (rule_desc_reachable extra) as Hd.
  assert (Kp : known (rule_description extra) (KStr (u "packages"))).
  { exists (u "packages"), (make_item (u "packages") (TList TString) (VList []) None None None).
    split; [|left; split; [intros X; vm_compute in X; intuition discriminate|reflexivity]].
    apply get_In. unfold rule_description, add_items, rule_items. cbn [app fold_left].
    apply add_items_keeps, add_keeps. vm_compute. reflexivity. }
  unfold parse_rule_run, parse_installer_rule.
  destruct (config_from_parsed_yaml env v (rule_description extra) true) as [c|e] eqn:E.
  2:{ destruct e; intros H; injection H as <- <-; split; reflexivity. }
  assert (Hp : exists p, get (KStr (u "packages")) c = Some p).
  { apply get_Some_keys. apply (parsed_keys env _ _ _ Hd E). exact Kp. }
  destruct Hp as (p & Hp).
  assert (Ho : option_at (u "packages") c p).
  { left. split; [intros X; vm_compute in X; intuition discriminate|exact Hp]. }
  pose proof (unused_unknown env _ v c Hd E) as Hu. revert Hu.
  destruct (unused_keys v c) as [|k0 ks]; intros Hu.
  - intros H; injection H as <- <-. split; [reflexivity|]. exists [], p. split; [exact Hu|]. split; [exact Ho|reflexivity].
  - rewrite Hp. intros H; injection H as <- <-. split; [reflexivity|]. exists (k0 :: ks), p. split; [exact Hu|]. split; [exact Ho|reflexivity].
Qed.

(** Unknown entries make no difference to the value. *)
Theorem C126_ignored env d v v' : reachable d ->
  (forall k, known d k -> get k v = get k v') ->
  config_from_parsed_yaml env v d true = config_from_parsed_yaml env v' d true.
Proof.
  intros Hd Hv. pose proof (reachable_names_ok _ Hd) as Hok. unfold config_from_parsed_yaml. rewrite !build_eq.
  assert (E1 : forall l c, (forall g, In g l -> In g (d_groups d)) ->
    foldM (fset (fun g : text * dict text item => KStr (fst g)) (gval (fun g s it => yaml_value env (match get (KStr g) v with Some x => x | None => VDict [] end) s it))) l c =
    foldM (fset (fun g : text * dict text item => KStr (fst g)) (gval (fun g s it => yaml_value env (match get (KStr g) v' with Some x => x | None => VDict [] end) s it))) l c).
  { intros l c Hl. apply foldM_ext. intros g a Hg. unfold fset, gval.
    rewrite (Hv (KStr (fst g))); [reflexivity|]. apply (known_iff d _ Hok). left. apply in_map_iff. exists g. auto. }
  rewrite E1 by auto. f_equal.
  assert (E2 : forall c,
    foldM (fset (fun p : text * item => KStr (fst p)) (fun p => yaml_value env (VDict v) (fst p) (snd p))) (top_items d) c =
    foldM (fset (fun p : text * item => KStr (fst p)) (fun p => yaml_value env (VDict v') (fst p) (snd p))) (top_items d) c).
  { intros c. apply foldM_ext. intros p a Hp. unfold fset, yaml_value.
    rewrite (Hv (KStr (fst p))); [reflexivity|]. apply (known_iff d _ Hok). right. apply in_map_iff. exists p. auto. }
  destruct (foldM _ (d_groups d) []) as [c|e]; cbn [bind]; [apply E2|reflexivity].
Qed.

(** The options of the fake installer with two unknown entries, and a rule with one. *)
Example C126_nonvacuous :
  let env := root_env in
  let show_keys l := Util.join (u ", ") (map (fun k => match k with KStr t => t | _ => u "?" end) l) in
  let v := [(KStr (u "as_root"), VBool false); (KStr (u "color"), VNone); (KInt 3%Z, VNone)] in
  fst (set_options_run env show_keys (u "installer") (u "apt") (options_description true []) (VDict v)) =
    [Warning (Text (u "ignoring the following unknown options for installer 'apt': color, ? -- known options are: as_root"))] /\
  fst (set_options_run env show_keys (u "os plugin") (u "debian") os_options_base (VDict [])) = [] /\
  fst (parse_rule_run env show_keys (fun _ => u "[vim]") (u "apt") (rule_description [])
         (VDict [(KStr (u "packages"), VList [VStr (u "vim")]); (KStr (u "pkgs"), VNone)])) =
    [Warning (Text (u "ignoring the following unknown installer rule keys for installer 'apt' while parsing installer rule with packages [vim]: pkgs"))].
Proof. vm_compute. repeat split. Qed.

Print Assumptions C124_same_plugins.
Print Assumptions C124_messages.
Print Assumptions C124_before_failure.
Print Assumptions C124_silent_exactly.
Print Assumptions C124_taken_name_refuted.
Print Assumptions C125_same_os.
Print Assumptions C125_warnings.
Print Assumptions C125_warned_exactly.
Print Assumptions C125_silent_choice.
Print Assumptions C125_bundled.
Print Assumptions C126_options.
Print Assumptions C126_rules.
Print Assumptions C126_ignored.
