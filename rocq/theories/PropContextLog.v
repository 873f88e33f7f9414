(** C130: what setting up the installer context says. *)
From Verif Require Import Base Dict PyVal RulesDict Verify Sources Util Paths Config ConfigSpec ConfigProofs ConfigTypeProofs PropConfig XylemConfig
  Installer Installers PropInstallers Plugins PropPlugins OsSupport PropOs Context PropContext Output SourcesLog PluginsLog PropPluginsLog ContextLog.
From Verif Require CacheProofs.
From Coq Require Import Lia.

Section C130.
  Context {W R : Type}.
  Variable env : penv.
  Variable show_os_definition : definition (os_plugin W) -> text.
  Variable show_inst_definition : definition (inst_plugin W R) -> text.
  Variable show_key : pkey -> text.
  Variable show_os_problem : os_plugin W -> text.
  Variable show_inst_problem : inst_plugin W R -> text.
  Variable show_keys : list pkey -> text.
  Variable describes : inst_plugin W R -> desc.

  Notation run := (make_context_run env show_os_definition show_inst_definition show_key show_os_problem show_inst_problem show_keys describes).
  Notation load_oses_run := (load_plugins_run (fun o : os_plugin W => Ok (KStr (os_name o))) (u "os") (u "xylem.os")
                           show_os_definition show_key show_os_problem).
  Notation load_insts_run := (load_plugins_run (fun i : inst_plugin W R => Ok (KStr (ip_name i))) (u "installer") (u "xylem.installers")
                                 show_inst_definition show_key show_inst_problem).

  (** ** Lemmas *)
  Lemma set_options_same whose name d v : snd (set_options_run env show_keys whose name d v) = set_options env d v.
  Proof.
    clear; unfold set_options_run, set_options; destruct v; try reflexivity.
    destruct (config_from_parsed_yaml env d0 d true) as [c|[]]; reflexivity.
  Qed.

  Lemma os_options_same config (x : os_object W) : snd (os_options_run env show_keys config x) =
    (let* oo := attr config (u "os_options") in
     let* o := set_options env (os_options_description (delegate x)) oo in Ok (x, o)).
  Proof.
    clear; unfold os_options_run; destruct (attr config (u "os_options")) as [oo|e]; [|reflexivity]; cbn [bind].
    pose proof (set_options_same (u "os plugin") (obj_name x) (os_options_description (delegate x)) oo) as S.
    destruct (set_options_run env show_keys _ _ _ oo) as [said r]; cbn [snd] in *; rewrite S; reflexivity.
  Qed.

  Lemma setup_os_same config (plugins : list (os_plugin W)) w : snd (setup_os_run env show_keys config plugins w) = setup_os env config plugins w.
  Proof.
    clear; unfold setup_os_run, setup_os; destruct (attr config (u "os_override")) as [ov|e]; [|reflexivity]; cbn [bind].
    set (s := {| s_plugins := plugins; s_os := None |}).
    assert (O : forall t, snd (let (r, s0) := override_os s (Some t) w in
        match (let* _ := r in let* x := fst (current_os s0 w) in let* t' := obj_tuple x w in Ok (x, t')) with
        | Err e => ([said_overriding t], Err e)
        | Ok (x, t') =>
          let (said', r0) := os_options_run env show_keys config x in
          ([said_overriding t] ++ match snd t with None => [said_detected (u " version") t'] | Some _ => [] end ++ said', r0)
        end) =
      (let* x := (let (r, s0) := override_os s (Some t) w in let* _ := r in let* x := fst (current_os s0 w) in let* _ := obj_tuple x w in Ok x) in
       let* oo := attr config (u "os_options") in
       let* o := set_options env (os_options_description (delegate x)) oo in Ok (x, o))).
    { intros t; destruct (override_os s (Some t) w) as [[[]|e] s0]; [|reflexivity]; cbn [bind].
      destruct (fst (current_os s0 w)) as [x|e]; [|reflexivity]; cbn [bind].
      destruct (obj_tuple x w) as [t'|e]; [|reflexivity]; cbn [bind].
      rewrite <- os_options_same; destruct (os_options_run env show_keys config x); reflexivity. }
    destruct ov; try (cbn [override_tuple]; reflexivity).
    - pose proof (C125_same_os s w) as D; destruct (detect_run s w) as [said rs]; cbn [snd] in D; rewrite <- D.
      destruct rs as [[[]|e] s0]; cbn [fst snd bind]; [|reflexivity].
      destruct (fst (current_os s0 w)) as [x|e]; [|reflexivity]; cbn [bind].
      destruct (obj_tuple x w) as [t'|e]; [|reflexivity]; cbn [bind].
      rewrite <- os_options_same; destruct (os_options_run env show_keys config x); reflexivity.
    - destruct (override_tuple (VList l)) as [t|e]; [|reflexivity]; cbn [bind]; apply O.
  Qed.

  Lemma configure_same d plugins : snd (configure_run env show_keys describes d plugins) =
    mapM (fun p : inst_plugin W R => ip_set_options p (match get (KStr (ip_name p)) d with Some v => v | None => VDict [] end)) plugins.
  Proof.
    clear; induction plugins as [|p plugins IH]; [reflexivity|]; cbn [configure_run mapM].
    destruct (ip_set_options p _) as [i|e]; [|reflexivity]; cbn [bind]; rewrite <- IH.
    destruct (configure_run env show_keys describes d plugins) as [said r]; reflexivity.
  Qed.

  Lemma configure_installers_same config plugins :
    snd (configure_installers_run env show_keys describes config plugins) = configure_installers config plugins.
  Proof.
    clear; unfold configure_installers_run, configure_installers; destruct (attr config (u "installer_options")) as [io|e]; [|reflexivity].
    cbn [bind]; destruct io; try reflexivity; apply configure_same.
  Qed.

  Lemma core_names_same config (x : os_object W) version oo :
    snd (core_names_run config x version oo) = core_names config x version oo.
  Proof.
    clear; unfold core_names_run, core_names; destruct (attr config (u "core_installers")) as [c|e]; [|reflexivity]; cbn [bind].
    destruct c; try reflexivity; destruct (names_of _); reflexivity.
  Qed.

  Lemma setup_installers_same config (x : os_object W) oo plugins w :
    snd (setup_installers_run env show_keys describes config x oo plugins w) = setup_installers config x oo plugins w.
  Proof.
    clear; unfold setup_installers_run, setup_installers; destruct (obj_tuple x w) as [[os version]|e]; [|reflexivity]; cbn [bind].
    pose proof (configure_installers_same config plugins) as C.
    destruct (configure_installers_run env show_keys describes config plugins) as [said1 r1]; cbn [snd] in C; rewrite <- C.
    destruct r1 as [insts|e]; [|reflexivity]; cbn [bind].
    pose proof (core_names_same config x version oo) as N.
    destruct (core_names_run config x version oo) as [said2 r2]; cbn [snd] in N; rewrite <- N.
    destruct r2 as [names|e]; [|reflexivity]; cbn [bind].
    destruct (attr config (u "use_additional_installers")) as [ua|e]; reflexivity.
  Qed.

  (** The context is the same whether or not the messages are looked at. *)
  Theorem C130_same_context config os_eps inst_eps w :
    snd (run config os_eps inst_eps w) = make_context env config (map snd os_eps) (map snd inst_eps) w.
  Proof.
    unfold make_context_run, make_context.
    destruct (attr2 config (u "disabled_plugins") (u "os")) as [v|e]; [|reflexivity]; cbn [bind].
    destruct (texts_of v) as [dos|e]; [|reflexivity]; cbn [bind].
    rewrite <- (C124_same_plugins _ (u "os") (u "xylem.os") show_os_definition show_key show_os_problem os_eps dos).
    destruct (load_oses_run os_eps dos) as [said1 [oses|e]]; [|reflexivity]; cbn [snd bind].
    pose proof (setup_os_same config oses w) as S.
    destruct (setup_os_run env show_keys config oses w) as [said2 [xo|e]]; cbn [snd] in S; rewrite <- S; [|reflexivity]; cbn [bind].
    destruct (attr2 config (u "disabled_plugins") (u "installer")) as [v'|e]; [|reflexivity]; cbn [bind].
    destruct (texts_of v') as [di|e]; [|reflexivity]; cbn [bind].
    rewrite <- (C124_same_plugins _ (u "installer") (u "xylem.installers") show_inst_definition show_key show_inst_problem inst_eps di).
    destruct (load_insts_run inst_eps di) as [said3 [insts|e]]; [|reflexivity]; cbn [snd bind].
    pose proof (setup_installers_same config (fst xo) (snd xo) insts w) as I.
    destruct (setup_installers_run env show_keys describes config (fst xo) (snd xo) insts w) as [said4 r4]; cbn [snd] in *; exact I.
  Qed.

  (** ** Specification *)
  (** Nothing is written unless --verbose is given. *)
  Definition silent (said : list log_call) : Prop := forall m, In m said -> always_shown m = false.
  (** The disabled plugins of a kind. *)
  Definition disables config (kind : text) (names : list text) : Prop :=
    exists g l, get (KStr (u "disabled_plugins")) config = Some (VDict g) /\ get (KStr kind) g = Some (VList l) /\
      names = flat_map (fun x => match x with VStr s => [s] | _ => [] end) l.
  (** The core installers asked for: those of the configuration, or those of the operating system [m] for its
      version and options. *)
  Inductive asked_core config (m : os_plugin W) (version : text) (options : pydict) : text -> list text -> Prop :=
  | asked_config names : get (KStr (u "core_installers")) config = Some (VList (map VStr names)) ->
      asked_core config m version options (u "config") names
  | asked_os : get (KStr (u "core_installers")) config = Some VNone ->
      asked_core config m version options (u "os plugin") (os_core m version options).
  (** The core installers asked for, with the operating system plugins [oses]. *)
  Definition asked config (oses : list (os_plugin W)) (ctx : context W R) (from : text) (names : list text) : Prop :=
    exists m v options, In m oses /\ os_name m = ic_os (cx_ic ctx) /\ get (KStr (u "os_options")) config = Some v /\
      set_options env (os_options_description m) v = Ok options /\
      asked_core config m (ic_version (cx_ic ctx)) options from names.
  (** All entry points gave a plugin, except those of disabled plugins. *)
  Definition all_used {P} (disabled : list text) (eps : list (text * res (definition P))) (plugins : list P) : Prop :=
    List.length plugins + List.length (filter (fun ep => match snd ep with
                                                   | Ok (DDict (Some (VStr n)) (Some (VStr _)) (Some (AClass k))) => pc_derived k && mem n disabled
                                                   | _ => false
                                                   end) eps) = List.length eps.
  (** The configured options of an installer plugin. *)
  Definition configured config (p : inst_plugin W R) (v : pyval) : Prop :=
    exists d, get (KStr (u "installer_options")) config = Some (VDict d) /\
      v = match get (KStr (ip_name p)) d with Some v => v | None => VDict [] end.
  (** The plugin takes the options it declares. *)
  Definition described (p : inst_plugin W R) : Prop :=
    reachable (describes p) /\ forall v i, ip_set_options p v = Ok i -> exists o, set_options env (describes p) v = Ok o.

  (** ** More lemmas *)
  Lemma names_of_inv c names : names_of c = Ok names -> c = VList (map VStr names).
  Proof.
    clear; unfold names_of; destruct c; try discriminate; intros H; f_equal.
    revert names H; induction l as [|x l IH]; intros names H; cbn [mapM] in H; [injection H as <-; reflexivity|].
    destruct x; cbn [bind] in H; try discriminate.
    apply bind_Ok in H; destruct H as (r & Hr & H); injection H as <-; cbn [map]; rewrite (IH _ Hr); reflexivity.
  Qed.

  Lemma attr_get c name v : attr c name = Ok v -> get (KStr name) c = Some v.
  Proof. clear; unfold attr; destruct (get (KStr name) c); [intros H; injection H as <-; reflexivity|discriminate]. Qed.

  Lemma core_names_inv config (x : os_object W) version oo said names :
    core_names_run config x version oo = (said, Ok names) ->
    exists from, asked_core config (delegate x) version oo from names /\ said = [said_core from names].
  Proof.
    clear; unfold core_names_run; destruct (attr config (u "core_installers")) as [c|e] eqn:E; [|discriminate]; apply attr_get in E.
    destruct (eqb_spec c VNone) as [->|N].
    - intros H; injection H as <- <-; exists (u "os plugin"); split; [constructor; exact E|reflexivity].
    - intros H; assert (H' : match names_of c with Err e => ([], Err e) | Ok names => ([said_core (u "config") names], Ok names) end = (said, Ok names))
        by (destruct c; try exact H; congruence); clear H.
      destruct (names_of c) as [l|e] eqn:En; [|discriminate]; injection H' as <- ->; apply names_of_inv in En; subst c.
      exists (u "config"); split; [constructor; exact E|reflexivity].
  Qed.

  Lemma setup_installers_inv config (x : os_object W) oo plugins w said ctx :
    setup_installers_run env show_keys describes config x oo plugins w = (said, Ok ctx) ->
    exists version said1 insts from names, obj_tuple x w = Ok (obj_name x, version) /\
      configure_installers_run env show_keys describes config plugins = (said1, Ok insts) /\
      asked_core config (delegate x) version oo from names /\
      cx_ic ctx = {| ic_os := obj_name x; ic_version := version; ic_default := os_default (delegate x) |} /\ cx_plugins ctx = insts /\
      cx_core ctx = at_indices insts (core_indices insts names) /\
      said = said1 ++ [said_core from names] ++ missing_said insts names ++ [said_additional (map in_name (cx_additional ctx))].
  Proof.
    clear; unfold setup_installers_run; destruct (obj_tuple x w) as [[os version]|e] eqn:Et; [|discriminate].
    assert (os = obj_name x) by (unfold obj_tuple in Et; apply bind_Ok in Et; destruct Et as (v & _ & Et); injection Et as -> _; reflexivity); subst os.
    destruct (configure_installers_run env show_keys describes config plugins) as [said1 [insts|e]] eqn:Ec; [|discriminate].
    destruct (core_names_run config x version oo) as [said2 [names|e]] eqn:En; [|discriminate].
    destruct (attr config (u "use_additional_installers")) as [ua|e]; [|discriminate].
    intros H; injection H as <- <-; destruct (core_names_inv _ _ _ _ _ _ En) as (from & Ha & ->).
    exists version, said1, insts, from, names; cbn [cx_ic cx_plugins cx_core cx_additional]; auto 10.
  Qed.

  Lemma texts_of_inv config kind names : (let* v := attr2 config (u "disabled_plugins") kind in texts_of v) = Ok names ->
    disables config kind names.
  Proof.
    clear; unfold attr2; intros H; apply bind_Ok in H; destruct H as (v & Hv & H); apply bind_Ok in Hv; destruct Hv as (g & Hg & Hv).
    apply attr_get in Hg; destruct g as [ | | | | | |g]; try discriminate; apply attr_get in Hv.
    destruct v as [ | | | | |l| ]; try discriminate; injection H as <-; exists g, l; auto.
  Qed.

  Lemma run_inv config os_eps inst_eps w said ctx : run config os_eps inst_eps w = (said, Ok ctx) ->
    exists dos di said1 oses said2 x oo said3 insts said4,
      disables config (u "os") dos /\ disables config (u "installer") di /\
      load_oses_run os_eps dos = (said1, Ok oses) /\ setup_os_run env show_keys config oses w = (said2, Ok (x, oo)) /\
      load_insts_run inst_eps di = (said3, Ok insts) /\
      setup_installers_run env show_keys describes config x oo insts w = (said4, Ok ctx) /\
      said = said1 ++ said2 ++ said3 ++ said4.
  Proof.
    unfold make_context_run.
    destruct (let* v := attr2 config (u "disabled_plugins") (u "os") in texts_of v) as [dos|e] eqn:Ed; [|discriminate].
    destruct (load_oses_run os_eps dos) as [said1 [oses|e]] eqn:E1; [|discriminate].
    destruct (setup_os_run env show_keys config oses w) as [said2 [[x oo]|e]] eqn:E2; [|discriminate].
    destruct (let* v := attr2 config (u "disabled_plugins") (u "installer") in texts_of v) as [di|e] eqn:Ei; [|discriminate].
    destruct (load_insts_run inst_eps di) as [said3 [insts|e]] eqn:E3; [|discriminate]; cbn [fst snd].
    destruct (setup_installers_run env show_keys describes config x oo insts w) as [said4 r4] eqn:E4.
    intros H; injection H as <- ->; exists dos, di, said1, oses, said2, x, oo, said3, insts, said4.
    apply texts_of_inv in Ed, Ei; auto 10.
  Qed.

  Lemma disables_unique config kind a b : disables config kind a -> disables config kind b -> a = b.
  Proof. clear; intros (g & l & H1 & H2 & ->) (g' & l' & H3 & H4 & ->); congruence. Qed.
  Lemma load_same {P} name_of kind group sd sk sp (eps : list (text * res (definition P))) disabled said ps :
    load_plugins_run name_of kind group sd sk sp eps disabled = (said, Ok ps) ->
    forall ps', load_plugins name_of (map snd eps) disabled = Ok ps' -> ps = ps'.
  Proof. clear; intros E ps'; rewrite <- (C124_same_plugins name_of kind group sd sk sp), E; cbn [snd]; congruence. Qed.

  Lemma missing_In insts names n : In (said_no_core n) (missing_said insts names) <-> In n names /\ ~ In n (map in_name (insts : list (installer W R))).
  Proof.
    clear; unfold missing_said; rewrite in_flat_map; split.
    - intros (k & Hk & H); destruct (find_index (fun i => eqb (in_name i) k) insts) as [j|] eqn:E; [destruct H|destruct H as [H|[]]].
      unfold said_no_core in H; injection H as H; apply app_inv_tail in H; subst k.
      split; [exact Hk|]; rewrite in_map_iff; intros (i & Hi & Hin).
      pose proof (find_index_None _ _ E i Hin) as F; cbn beta in F; rewrite Hi, eqb_refl in F; discriminate.
    - intros [Hn Hi]; exists n; split; [exact Hn|].
      destruct (find_index (fun i => eqb (in_name i) n) insts) as [j|] eqn:E; [|left; reflexivity].
      destruct (find_index_nth _ _ _ E) as (i & Hj & Hf & _); apply (proj1 (eqb_eq _ _)) in Hf.
      exfalso; apply Hi; rewrite <- Hf; apply in_map; apply nth_error_In in Hj; exact Hj.
  Qed.

  Lemma missing_only insts names m : In m (missing_said (insts : list (installer W R)) names) -> exists n, m = said_no_core n.
  Proof.
    clear; unfold missing_said; rewrite in_flat_map; intros (k & _ & H).
    destruct (find_index (fun i => eqb (in_name i) k) insts); [destruct H|destruct H as [<-|[]]; eauto].
  Qed.

  (** Errors about plugins start differently, and the rest gives no errors. *)
  Definition no_error (said : list log_call) : Prop := forall m, ~ In (Error m) said.
  Lemma no_error_app a b : no_error a -> no_error b -> no_error (a ++ b).
  Proof. intros Ha Hb m H; apply in_app_iff in H; destruct H as [H|H]; [exact (Ha m H)|exact (Hb m H)]. Qed.
  Lemma load_errors {P} name_of kind group sd sk sp (eps : list (text * res (definition P))) disabled m :
    In (Error m) (fst (load_plugins_run name_of kind group sd sk sp eps disabled)) -> exists rest, m = Text (u "Skipping " ++ rest).
  Proof.
    clear; unfold load_plugins_run.
    assert (G : forall eps st, In (Error m) (fst (load_loop name_of kind group sd sk sp disabled eps st)) -> exists rest, m = Text (u "Skipping " ++ rest));
      [|specialize (G eps ([], [])); destruct (load_loop name_of kind group sd sk sp disabled eps ([], [])); exact G].
    clear; intros eps; induction eps as [|[ep d] eps IH]; intros st H; cbn [load_loop] in H; [destruct H|].
    assert (S : In (Error m) (fst (load_said name_of kind group sd sk sp disabled st (ep, d))) -> exists rest, m = Text (u "Skipping " ++ rest)).
    { clear; unfold load_said; destruct st as [l t]; cbn [snd fst].
      destruct d as [d|e]; [|intros []]; destruct (verify_plugin_definition d) as [[n k]|[]]; cbn [fst];
        try (intros [H|[]]; unfold said_definition in H; injection H as H; eexists; symmetry; exact H);
        try (intros []; fail).
      destruct (mem n disabled); [intros [H|[]]; discriminate|].
      destruct (pc_new k) as [p|e]; [|intros []]; destruct (name_of p) as [nm|e]; [|intros []].
      destruct (pc_verify k p) as [[]|[]]; try (intros []; fail);
        try (intros [H|[]]; unfold said_invalid in H; injection H as H; eexists; symmetry; exact H).
      destruct (mem nm t); intros [H|[]]; discriminate. }
    destruct (load_said name_of kind group sd sk sp disabled st (ep, d)) as [said [st'|e]]; cbn [fst] in *; [|exact (S H)].
    specialize (IH st'); destruct (load_loop name_of kind group sd sk sp disabled eps st') as [said' r]; cbn [fst] in *.
    apply in_app_iff in H; destruct H; auto.
  Qed.
  Lemma detect_no_error (l : list (os_plugin W)) w : forall r, no_error (fst (detect_said r l w)).
  Proof.
    clear; induction l as [|o l IH]; intros r m; cbn [detect_said]; [intros []|].
    destruct (os_is o w) as [[]|e]; [|apply IH|intros []]; destruct r as [r|]; [|apply IH].
    destruct (mem (os_name o) (os_all_names r)); [apply IH|]; destruct (mem (os_name r) (os_all_names o)); [apply IH|].
    specialize (IH (Some r)); destruct (detect_said (Some r) l w) as [said x]; cbn [fst] in *.
    intros [H|H]; [discriminate|exact (IH m H)].
  Qed.
  Lemma options_no_error whose name d v : no_error (fst (set_options_run env show_keys whose name d v)).
  Proof.
    clear; unfold set_options_run; intros m; destruct v; try (intros []; fail).
    destruct (config_from_parsed_yaml env d0 d true) as [c|e]; [|intros []]; cbn [fst].
    unfold warn_unless_empty; destruct (unused_keys d0 c); [intros []|intros [H|[]]; discriminate].
  Qed.
  Lemma os_options_no_error config (x : os_object W) : no_error (fst (os_options_run env show_keys config x)).
  Proof.
    clear; unfold os_options_run; destruct (attr config (u "os_options")) as [oo|e]; [|intros m []].
    pose proof (options_no_error (u "os plugin") (obj_name x) (os_options_description (delegate x)) oo) as S.
    destruct (set_options_run env show_keys _ _ _ oo) as [said r]; exact S.
  Qed.
  Lemma one_info s : no_error [InfoV s].
  Proof. intros m [H|[]]; discriminate. Qed.

  Lemma detect_loop_In (l : list (os_plugin W)) w : forall r m, detect_loop r l w = Ok (Some m) -> r = Some m \/ In m l.
  Proof.
    clear; induction l as [|o l IH]; intros r m; cbn [detect_loop]; [intros H; injection H as ->; auto|].
    destruct (os_is o w) as [[]|e]; [|intros H; destruct (IH _ _ H); cbn [In]; auto|discriminate]; cbn [bind]; destruct r as [r|].
    - destruct (mem (os_name o) (os_all_names r)); [intros H; destruct (IH _ _ H); cbn [In]; auto|].
      destruct (mem (os_name r) (os_all_names o)); intros H; destruct (IH _ _ H) as [E|E]; cbn [In]; auto; injection E as ->; auto.
    - intros H; destruct (IH _ _ H) as [E|E]; cbn [In]; auto; injection E as ->; auto.
  Qed.

  Lemma setup_os_shape config (oses : list (os_plugin W)) w said (x : os_object W) oo : setup_os_run env show_keys config oses w = (said, Ok (x, oo)) ->
    no_error said /\ In (delegate x) oses /\
    exists version, obj_tuple x w = Ok (obj_name x, version) /\
    ((get (KStr (u "os_override")) config = Some VNone /\ exists m, x = Plugin m /\
      said = fst (detect_run {| s_plugins := oses; s_os := None |} w) ++ [said_detected [] (obj_name x, version)] ++ fst (os_options_run env show_keys config x) /\
      snd (detect_run {| s_plugins := oses; s_os := None |} w) = (Ok tt, {| s_plugins := oses; s_os := Some (Plugin m) |})) \/
     (exists v, get (KStr (u "os_override")) config = Some (VList [VStr (obj_name x); v]) /\
      ((v = VStr version /\ said = [said_overriding (obj_name x, Some version)] ++ fst (os_options_run env show_keys config x)) \/
       (v = VNone /\ said = [said_overriding (obj_name x, None)] ++ [said_detected (u " version") (obj_name x, version)] ++
                            fst (os_options_run env show_keys config x))))) /\
    exists v, get (KStr (u "os_options")) config = Some v /\ set_options env (os_options_description (delegate x)) v = Ok oo /\
      fst (os_options_run env show_keys config x) = fst (set_options_run env show_keys (u "os plugin") (obj_name x) (os_options_description (delegate x)) v).
  Proof.
    unfold setup_os_run; set (s := {| s_plugins := oses; s_os := None |}).
    destruct (attr config (u "os_override")) as [ov|e] eqn:Eo; [|discriminate]; apply attr_get in Eo.
    assert (Opt : forall y said' r, os_options_run env show_keys config y = (said', r) -> r = Ok (x, oo) -> y = x /\
      exists v, get (KStr (u "os_options")) config = Some v /\ set_options env (os_options_description (delegate x)) v = Ok oo /\
      fst (os_options_run env show_keys config x) = fst (set_options_run env show_keys (u "os plugin") (obj_name x) (os_options_description (delegate x)) v)).
    { intros y said' r E ->; pose proof (os_options_same config y) as S; rewrite E in S; cbn [snd] in S.
      destruct (attr config (u "os_options")) as [v|e] eqn:Ea; [|discriminate]; cbn [bind] in S.
      destruct (set_options env (os_options_description (delegate y)) v) as [o|e] eqn:Es; [|discriminate]; injection S as <- <-.
      split; [reflexivity|]; exists v; split; [apply attr_get; exact Ea|]; split; [exact Es|].
      unfold os_options_run; rewrite Ea; destruct (set_options_run env show_keys _ _ _ v); reflexivity. }
    assert (Tup : forall (y : os_object W) t, obj_tuple y w = Ok t -> t = (obj_name y, snd t)).
    { intros y t E; unfold obj_tuple in E; apply bind_Ok in E; destruct E as (v & _ & E); injection E as <-; reflexivity. }
    destruct (eqb_spec ov VNone) as [->|N].
    - destruct (detect_run s w) as [said0 rs] eqn:Ed.
      assert (D : forall t, fst rs = Ok t -> exists m, snd rs = {| s_plugins := oses; s_os := Some (Plugin m) |} /\ In m oses).
      { intros t Ht; pose proof (C125_same_os s w) as Q; rewrite Ed in Q; cbn [snd] in Q; unfold detect_os in Q; subst rs.
        destruct (detect_loop None (s_plugins s) w) as [[m|]|e] eqn:Eq; try discriminate; exists m; split; [reflexivity|].
        destruct (detect_loop_In _ _ _ _ Eq) as [X|X]; [discriminate|exact X]. }
      destruct (let* _ := fst rs in let* x := fst (current_os (snd rs) w) in let* t := obj_tuple x w in Ok (x, t)) as [[y t]|e] eqn:E; [|discriminate].
      apply bind_Ok in E; destruct E as (tt0 & Hr & E); apply bind_Ok in E; destruct E as (y' & Hy & E); apply bind_Ok in E; destruct E as (t' & Ht & E).
      injection E as -> ->; destruct (D _ Hr) as (m & Hm & Hin); rewrite Hm in Hy; cbn [current_os s_os fst] in Hy; injection Hy as <-.
      destruct (os_options_run env show_keys config (Plugin m)) as [said' r] eqn:Er; intros H; injection H as <- ->.
      destruct (Opt _ _ _ Er eq_refl) as (<- & Hv); split; [|split; [exact Hin|]].
      + apply no_error_app; [|apply (no_error_app [_]); [apply one_info|]].
        * change said0 with (fst (said0, rs)); rewrite <- Ed; unfold detect_run.
          pose proof (detect_no_error (s_plugins s) w None) as Q; destruct (detect_said None (s_plugins s) w); exact Q.
        * change said' with (fst (said', @Ok (os_object W * pydict) (Plugin m, oo))); rewrite <- Er; apply os_options_no_error.
      + destruct t as [nm v]; pose proof (Tup _ _ Ht) as Tt; cbn [snd] in Tt; injection Tt as ->.
        exists v; split; [exact Ht|]; split; [|exact Hv].
        left; split; [exact Eo|]; exists m; split; [reflexivity|]; rewrite Er; cbn [fst snd].
        split; [reflexivity|]; destruct rs as [r0 s0]; cbn [fst snd] in *; subst s0 r0; destruct tt0; reflexivity.
    - assert (Q : match override_tuple ov with
      | Err e => ([], Err e)
      | Ok t =>
        let (r, s) := override_os s (Some t) w in
        match (let* _ := r in let* x := fst (current_os s w) in let* t' := obj_tuple x w in Ok (x, t')) with
        | Err e => ([said_overriding t], Err e)
        | Ok (x, t') =>
          let (said', r) := os_options_run env show_keys config x in
          ([said_overriding t] ++ match snd t with None => [said_detected (u " version") t'] | Some _ => [] end ++ said', r)
        end
      end = (said, Ok (x, oo)) -> (no_error said /\ In (delegate x) oses /\
    exists version, obj_tuple x w = Ok (obj_name x, version) /\
     (exists v, get (KStr (u "os_override")) config = Some (VList [VStr (obj_name x); v]) /\
      ((v = VStr version /\ said = [said_overriding (obj_name x, Some version)] ++ fst (os_options_run env show_keys config x)) \/
       (v = VNone /\ said = [said_overriding (obj_name x, None)] ++ [said_detected (u " version") (obj_name x, version)] ++
                            fst (os_options_run env show_keys config x)))) /\
    exists v, get (KStr (u "os_options")) config = Some v /\ set_options env (os_options_description (delegate x)) v = Ok oo /\
      fst (os_options_run env show_keys config x) = fst (set_options_run env show_keys (u "os plugin") (obj_name x) (os_options_description (delegate x)) v))).
      2: { intros H; destruct Q as (Q1 & Q0 & version & Q2 & Q3 & Q4); [destruct ov; try exact H; congruence|].
           split; [exact Q1|]; split; [exact Q0|]; exists version; auto. }
      destruct (override_tuple ov) as [[n v]|e] eqn:Et; [|discriminate].
      unfold override_os; destruct (lookup_os (s_plugins s) n) as [o|] eqn:El; [|cbn [bind]; discriminate].
      assert (Hn : os_name o = n) by (unfold lookup_os in El; apply find_some in El; destruct El as [_ El]; apply (proj1 (eqb_eq _ _)) in El; congruence).
      destruct (make_override o v w) as [y|e] eqn:Em; [|cbn [bind]; discriminate].
      cbn [bind with_os s_os current_os fst]; destruct (obj_tuple y w) as [t'|e] eqn:Ht; [|discriminate]; cbn [bind].
      destruct (os_options_run env show_keys config y) as [said' r] eqn:Er; intros H; injection H as <- ->.
      destruct (Opt _ _ _ Er eq_refl) as (-> & Hv); rewrite Er; cbn [fst].
      assert (Ho : obj_name x = n /\ (forall k, v = Some k -> snd t' = k) /\ delegate x = o).
      { unfold make_override in Em; destruct v as [k|].
        - destruct (mem k (os_known o)); [|discriminate]; injection Em as <-; split; [exact Hn|]; split; [|reflexivity].
          intros k' E; injection E as <-; cbn in Ht; injection Ht as <-; reflexivity.
        - apply bind_Ok in Em; destruct Em as (k & _ & Em); injection Em as <-; split; [exact Hn|split; [discriminate|reflexivity]]. }
      destruct Ho as (Ho & Hk & Hdel); destruct t' as [nm vr]; pose proof (Tup _ _ Ht) as Tt; cbn [snd] in Tt, Hk; injection Tt as ->; split; [|split].
      + apply (no_error_app [_]); [apply one_info|]; apply no_error_app; [destruct v; [intros m []|apply one_info]|].
        change said' with (fst (said', @Ok (os_object W * pydict) (x, oo))); rewrite <- Er; apply os_options_no_error.
      + rewrite Hdel; unfold lookup_os in El; apply find_some in El; apply El.
      + exists vr; split; [exact Ht|]; split; [|rewrite Er in Hv; exact Hv].
        rewrite Ho in *; assert (Hov : ov = VList [VStr n; match v with Some k => VStr k | None => VNone end]).
        { clear -Et; unfold override_tuple in Et; destruct ov as [ | | | | |l| ]; try discriminate.
          repeat (match type of Et with context [match ?x with _ => _ end] => destruct x; try discriminate end);
            injection Et as <- <-; reflexivity. }
        rewrite Hov in Eo; eexists; split; [exact Eo|]; destruct v as [k|]; [left|right].
        * rewrite (Hk k eq_refl); split; reflexivity.
        * split; reflexivity.
  Qed.

  Lemma configure_no_error d plugins : no_error (fst (configure_run env show_keys describes d plugins)).
  Proof.
    clear; induction plugins as [|p plugins IH]; [intros m []|]; cbn [configure_run].
    set (v := match get (KStr (ip_name p)) d with Some v => v | None => VDict [] end).
    destruct (ip_set_options p v) as [i|e] eqn:E; [|intros m []].
    destruct (configure_run env show_keys describes d plugins) as [said r]; cbn [fst] in *.
    apply no_error_app; [|exact IH]; unfold set_options_said; rewrite E; apply options_no_error.
  Qed.
  Lemma configure_installers_no_error config plugins : no_error (fst (configure_installers_run env show_keys describes config plugins)).
  Proof.
    clear; unfold configure_installers_run; destruct (attr config (u "installer_options")) as [[]|e]; try (intros m []; fail).
    apply configure_no_error.
  Qed.

  (** ** Theorems *)
  (** The core installers asked for are named with --verbose; those that are not loaded, and no others, are
      always reported as errors, and the other ones are used. *)
  Theorem C130_core_installers config os_eps inst_eps w said ctx dos oses : run config os_eps inst_eps w = (said, Ok ctx) ->
    disables config (u "os") dos -> load_plugins (fun o : os_plugin W => Ok (KStr (os_name o))) (map snd os_eps) dos = Ok oses ->
    exists from names, asked config oses ctx from names /\
      In (InfoV (Text (u "setting up core installers from " ++ from ++ u ": '" ++ join (u ", ") names ++ u "'"))) said /\
      map in_name (cx_core ctx) = filter (fun n => mem n (map in_name (cx_plugins ctx))) names /\
      forall n, In (Error (Text (u "ignoring core installer '" ++ n ++ u "'; according plugin was not found"))) said <->
                In n names /\ ~ In n (map in_name (cx_plugins ctx)).
  Proof.
    intros H Hdos Hos.
    destruct (run_inv _ _ _ _ _ _ H) as (dos' & di & said1 & oses' & said2 & x & oo & said3 & insts & said4 & Hd' & _ & E1 & E2 & E3 & E4 & ->).
    rewrite (disables_unique _ _ _ _ Hdos Hd') in Hos; clear Hdos.
    assert (oses' = oses) by (apply (load_same _ _ _ _ _ _ _ _ _ _ E1) in Hos; exact Hos); subst oses'.
    destruct (setup_os_shape _ _ _ _ _ _ E2) as (Hne & Hin & version' & Et' & _ & v & Hv & Hso & _).
    destruct (setup_installers_inv _ _ _ _ _ _ _ E4) as (version & s1 & l & from & names & Et & Ec & Ha & Hic & Hp & Hc & ->).
    exists from, names; unfold asked; rewrite Hic, Hp, Hc; cbn [ic_version ic_os].
    split; [exists (delegate x), v, oo; auto 6|]; split; [rewrite !in_app_iff; right; right; right; right; left; left; reflexivity|].
    split; [apply core_names_eq|]; intros n; rewrite <- (missing_In l names n).
    change (Error (Text (u "ignoring core installer '" ++ n ++ u "'; according plugin was not found"))) with (said_no_core n).
    split; [|intros Hn; rewrite !in_app_iff; right; right; right; right; right; left; exact Hn].
    rewrite !in_app_iff; intros [Hn|[Hn|[Hn|[Hn|[Hn|[Hn|Hn]]]]]].
    - exfalso; assert (Q : In (said_no_core n) (fst (load_oses_run os_eps dos'))) by (rewrite E1; exact Hn).
      destruct (load_errors _ _ _ _ _ _ _ _ _ Q) as (r & Hr); discriminate.
    - destruct (Hne _ Hn).
    - exfalso; assert (Q : In (said_no_core n) (fst (load_insts_run inst_eps di))) by (rewrite E3; exact Hn).
      destruct (load_errors _ _ _ _ _ _ _ _ _ Q) as (r & Hr); discriminate.
    - pose proof (configure_installers_no_error config insts) as Q; rewrite Ec in Q; destruct (Q _ Hn).
    - destruct Hn as [Hn|[]]; discriminate.
    - exact Hn.
    - destruct Hn as [Hn|[]]; discriminate.
  Qed.

  (** The last thing said are the additional installers in use. *)
  Theorem C130_additional_installers config os_eps inst_eps w said ctx : run config os_eps inst_eps w = (said, Ok ctx) ->
    exists before, said = before ++ [InfoV (Text (u "Using additional installers: '" ++ join (u ", ") (map in_name (cx_additional ctx)) ++ u "'"))].
  Proof.
    intros H; destruct (run_inv _ _ _ _ _ _ H) as (dos & di & said1 & oses & said2 & x & oo & said3 & insts & said4 & _ & _ & E1 & E2 & E3 & E4 & ->).
    destruct (setup_installers_inv _ _ _ _ _ _ _ E4) as (version & s1 & l & from & names & Et & Ec & Ha & Hic & Hp & Hc & ->).
    exists (said1 ++ said2 ++ said3 ++ s1 ++ [said_core from names] ++ missing_said l names); rewrite <- !app_assoc; reflexivity.
  Qed.

  (** With --verbose the operating system and the version in use are said, and whether they were detected or come from the configuration. *)
  Theorem C130_system config os_eps inst_eps w said ctx : run config os_eps inst_eps w = (said, Ok ctx) ->
    let os := ic_os (cx_ic ctx) in let version := ic_version (cx_ic ctx) in
    (get (KStr (u "os_override")) config = Some VNone /\
     In (InfoV (Text (u "detected OS [" ++ os ++ u ":" ++ version ++ u "]"))) said) \/
    (get (KStr (u "os_override")) config = Some (VList [VStr os; VStr version]) /\
     In (InfoV (Text (u "overriding OS to [" ++ os ++ u ":" ++ version ++ u "]"))) said) \/
    (get (KStr (u "os_override")) config = Some (VList [VStr os; VNone]) /\
     In (InfoV (Text (u "overriding OS to [" ++ os ++ u ":None]"))) said /\
     In (InfoV (Text (u "detected OS version [" ++ os ++ u ":" ++ version ++ u "]"))) said).
  Proof.
    intros H; destruct (run_inv _ _ _ _ _ _ H) as (dos & di & said1 & oses & said2 & x & oo & said3 & insts & said4 & _ & _ & E1 & E2 & E3 & E4 & ->).
    destruct (setup_installers_inv _ _ _ _ _ _ _ E4) as (version & s1 & l & from & names & Et & Ec & Ha & Hic & Hp & Hc & _).
    cbv zeta; rewrite Hic; cbn [ic_os ic_version].
    destruct (setup_os_shape _ _ _ _ _ _ E2) as (_ & _ & version' & Et' & Hs & _); rewrite Et in Et'; injection Et' as <-.
    destruct Hs as [(Ho & m & _ & -> & _)|(v & Ho & [(-> & ->)|(-> & ->)])].
    - left; split; [exact Ho|]; rewrite !in_app_iff; right; left; right; left; left; reflexivity.
    - right; left; split; [exact Ho|]; rewrite !in_app_iff; right; left; left; left; reflexivity.
    - right; right; split; [exact Ho|]; split; rewrite !in_app_iff.
      + right; left; left; left; reflexivity.
      + right; left; right; left; left; reflexivity.
  Qed.

  (** ** Silence *)
  Lemma silent_app a b : silent (a ++ b) <-> silent a /\ silent b.
  Proof.
    clear; unfold silent; split.
    - intros H; split; intros m Hm; apply H, in_app_iff; auto.
    - intros [Ha Hb] m Hm; apply in_app_iff in Hm; destruct Hm; auto.
  Qed.
  Lemma silent_info t : silent [InfoV t] <-> True.
  Proof. clear; unfold silent; split; [trivial|]; intros _ m [<-|[]]; reflexivity. Qed.
  Lemma silent_nil : silent [].
  Proof. intros m []. Qed.

  Lemma detect_silent (s s' : os_support W) w : family (s_plugins s) -> snd (detect_run s w) = (Ok tt, s') ->
    (silent (fst (detect_run s w)) <-> exists m, single_most_specific (s_plugins s) w m).
  Proof.
    clear; intros F E; pose proof (C125_warned_exactly s s' w (fst (detect_run s w)) F) as Q.
    rewrite <- Q; [|destruct (detect_run s w); cbn [fst snd] in *; congruence]; clear Q.
    pose proof (C125_warnings s w) as Wn; destruct (fst (detect_run s w)) as [|c l].
    - split; [reflexivity|intros _; apply silent_nil].
    - split; [|discriminate]; intros H; exfalso; destruct (Wn c (or_introl eq_refl)) as (o & r & _ & _ & _ & ->).
      specialize (H _ (or_introl eq_refl)); discriminate.
  Qed.

  Lemma options_silent whose name d v o : reachable d -> set_options env d (VDict v) = Ok o ->
    (silent (fst (set_options_run env show_keys whose name d (VDict v))) <-> unknown_entries d v []).
  Proof.
    clear -W; intros Hd Ho; destruct (set_options_run env show_keys whose name d (VDict v)) as [said r] eqn:E; cbn [fst].
    destruct (C126_options _ _ _ _ _ _ _ _ Hd E) as (-> & H); rewrite Ho in H; destruct H as (unused & Hu & _ & ->).
    destruct unused as [|k l]; split; intros H; try exact Hu; try apply silent_nil; exfalso.
    - specialize (H _ (or_introl eq_refl)); discriminate.
    - apply (proj2 (H k)); apply Hu; left; reflexivity.
  Qed.

  Lemma configure_silent d plugins said l : Forall described plugins -> configure_run env show_keys describes d plugins = (said, Ok l) ->
    (silent said <-> forall p v, In p plugins -> match get (KStr (ip_name p)) d with Some v => v | None => VDict [] end = VDict v ->
                       unknown_entries (describes p) v []).
  Proof.
    revert said l; induction plugins as [|p plugins IH]; intros said l F; cbn [configure_run].
    - intros H; injection H as <- <-; split; [intros _ p v []|intros _; apply silent_nil].
    - set (v := match get (KStr (ip_name p)) d with Some v => v | None => VDict [] end).
      destruct (ip_set_options p v) as [i|e] eqn:Ei; [|discriminate].
      destruct (configure_run env show_keys describes d plugins) as [said0 r] eqn:Er.
      intros H; injection H as <- H; destruct r as [l0|e]; [|discriminate].
      inversion F as [|? ? [Hr Hs] F']; subst.
      destruct (Hs _ _ Ei) as (o & Ho).
      assert (Hv : exists x, v = VDict x) by (clear -Ho; unfold set_options in Ho; destruct v; try discriminate; eexists; reflexivity).
      destruct Hv as (x & Hx); rewrite silent_app, (IH _ _ F' eq_refl).
      unfold set_options_said; rewrite Ei, Hx, (options_silent _ _ _ _ _ Hr (eq_trans (f_equal _ (eq_sym Hx)) Ho)).
      split.
      + intros [H1 H2] q y [<-|Hq] Hy; [|eapply H2; eassumption].
        fold v in Hy; assert (x = y) by congruence; subst; exact H1.
      + intros H1; split; [apply (H1 p x); [left; reflexivity|exact Hx]|].
        intros q y Hq; apply H1; right; exact Hq.
  Qed.

  Lemma texts_inj (a b : list text) : map VStr a = map VStr b -> a = b.
  Proof. clear; revert b; induction a as [|t a IH]; intros [|t' b] H; try discriminate; [reflexivity|]; injection H as -> H; f_equal; auto. Qed.

  Lemma missing_silent (insts : list (installer W R)) names : silent (missing_said insts names) <-> incl names (map in_name insts).
  Proof.
    clear; split.
    - intros H n Hn; destruct (in_dec (list_eq_dec N.eq_dec) n (map in_name insts)) as [Hi|Hi]; [exact Hi|exfalso].
      specialize (H _ (proj2 (missing_In insts names n) (conj Hn Hi))); discriminate.
    - intros H m Hm; destruct (missing_only _ _ _ Hm) as (n & ->); apply missing_In in Hm; destruct Hm as [Hn Hi].
      exfalso; apply Hi, H, Hn.
  Qed.

  (** Without --verbose, nothing is shown exactly if all plugins are used or disabled, there is a single most
      specific operating system, no option is unknown and all core installers asked for are loaded. *)
  Theorem C130_silent_exactly config os_eps inst_eps w said ctx dos di oses plugins :
    run config os_eps inst_eps w = (said, Ok ctx) ->
    disables config (u "os") dos -> load_plugins (fun o : os_plugin W => Ok (KStr (os_name o))) (map snd os_eps) dos = Ok oses ->
    disables config (u "installer") di ->
    load_plugins (fun i : inst_plugin W R => Ok (KStr (ip_name i))) (map snd inst_eps) di = Ok plugins ->
    get (KStr (u "os_override")) config = Some VNone ->
    family oses -> (forall m, In m oses -> reachable (os_options_description m)) -> Forall described plugins ->
    (silent said <->
       all_used dos os_eps oses /\ all_used di inst_eps plugins /\
       (exists m, single_most_specific oses w m) /\
       (forall m v, In m oses -> os_name m = ic_os (cx_ic ctx) -> get (KStr (u "os_options")) config = Some (VDict v) ->
          unknown_entries (os_options_description m) v []) /\
       (forall p v, In p plugins -> configured config p (VDict v) -> unknown_entries (describes p) v []) /\
       (forall from names, asked config oses ctx from names -> incl names (map in_name (cx_plugins ctx)))).
  Proof.
    intros H Hdos Hos Hdi Hin Hov Fam Ros Rin.
    destruct (run_inv _ _ _ _ _ _ H) as (dos' & di' & said1 & oses' & said2 & x & oo & said3 & insts & said4 & Hd' & Hdi' & E1 & E2 & E3 & E4 & ->).
    rewrite (disables_unique _ _ _ _ Hdos Hd') in *; rewrite (disables_unique _ _ _ _ Hdi Hdi') in *; clear Hdos Hdi dos di.
    assert (oses' = oses) by (apply (load_same _ _ _ _ _ _ _ _ _ _ E1) in Hos; exact Hos); subst oses'.
    assert (insts = plugins) by (apply (load_same _ _ _ _ _ _ _ _ _ _ E3) in Hin; exact Hin); subst insts.
    destruct (setup_os_shape _ _ _ _ _ _ E2) as (_ & Hx & version' & Et' & Hs & ov & Gov & Hso & Hoo).
    destruct Hs as [(_ & m & -> & -> & Hdet)|(v & Ho & _)]; [|congruence].
    destruct (setup_installers_inv _ _ _ _ _ _ _ E4) as (version & s1 & l & from & names & Et & Ec & Ha & Hic & Hp & Hc & ->).
    unfold said_core, said_detected, said_additional; rewrite !silent_app, !silent_info.
    pose proof (C124_silent_exactly _ _ _ _ _ _ _ _ _ _ E1) as Q1; fold (silent said1) in Q1; rewrite Q1; clear Q1.
    pose proof (C124_silent_exactly _ _ _ _ _ _ _ _ _ _ E3) as Q3; fold (silent said3) in Q3; rewrite Q3; clear Q3.
    fold (all_used dos' os_eps oses); fold (all_used di' inst_eps plugins).
    rewrite (detect_silent {| s_plugins := oses; s_os := None |} _ w Fam Hdet); cbn [s_plugins].
    rewrite Hoo; assert (Hv : exists y, ov = VDict y) by (clear -Hso; unfold set_options in Hso; destruct ov; try discriminate; eexists; reflexivity).
    destruct Hv as (y & ->); rewrite (options_silent _ _ _ _ _ (Ros _ Hx) Hso), missing_silent, Hp, Hic; cbn [ic_os].
    assert (U : forall m', In m' oses -> os_name m' = os_name m -> m' = m).
    { clear -Fam Hx; destruct Fam as (ND & _); cbn [delegate] in Hx; intros m' Hm' E.
      revert ND Hx Hm'; induction oses as [|a r IH]; [intros _ []|]; cbn [map]; intros ND; inversion ND as [|? ? N1 N2]; subst.
      intros [->|Hx] [->|Hm']; try reflexivity.
      - exfalso; apply N1; rewrite <- E; apply in_map; exact Hm'.
      - exfalso; apply N1; rewrite E; apply in_map; exact Hx.
      - apply IH; assumption. }
    assert (C : silent s1 <-> forall p v, In p plugins -> configured config p (VDict v) -> unknown_entries (describes p) v []).
    { unfold configure_installers_run in Ec; destruct (attr config (u "installer_options")) as [io|e] eqn:Eio; [|discriminate]; apply attr_get in Eio.
      unfold configured.
      destruct io as [ | | | | | |d]; try (destruct plugins; [|discriminate]; injection Ec as <- <-; split; [intros _ p v []|intros _; apply silent_nil]).
      rewrite (configure_silent _ _ _ _ Rin Ec); split; intros K p v Ip; [intros (d' & Gd & E)|intros E]; apply (K p v Ip).
      - rewrite Eio in Gd; injection Gd as <-; symmetry; exact E.
      - exists d; split; [exact Eio|symmetry; exact E]. }
    rewrite C; clear C.
    assert (M : incl names (map in_name l) <-> forall from names, asked config oses ctx from names -> incl names (map in_name l)).
    { split.
      - intros K from' names' (m' & v' & o' & Hm' & En & Gv & Ho' & Hask); rewrite Hic in En, Hask; cbn [ic_os ic_version] in En, Hask.
        cbn [obj_name] in En; apply U in En; [|exact Hm']; subst m'; cbn [delegate] in *.
        rewrite Gov in Gv; injection Gv as <-; rewrite Hso in Ho'; injection Ho' as <-.
        assert (names' = names); [|subst; exact K].
        clear -Ha Hask; destruct Ha, Hask; try congruence.
        apply texts_inj; congruence.
      - intros K; apply (K from names); unfold asked; rewrite Hic; cbn [ic_version ic_os].
        exists m, (VDict y), oo; repeat split; auto. }
    rewrite M; clear M.
    assert (Op : unknown_entries (os_options_description m) y [] <->
      forall m' v, In m' oses -> os_name m' = obj_name (Plugin m) -> get (KStr (u "os_options")) config = Some (VDict v) -> unknown_entries (os_options_description m') v []).
    { split.
      - intros K m' v Hm' En Gv; apply U in En; [|exact Hm']; subst m'; rewrite Gov in Gv; injection Gv as <-; exact K.
      - intros K; apply K; [exact Hx|reflexivity|exact Gov]. }
    cbn [delegate]; rewrite <- Op; assert (N : silent []) by apply silent_nil; tauto.
  Qed.
End C130.

(** ** The bundled plugins *)
Section Bundled.
  Context {W : Type}.
  Variable uni : N -> bool.
  Variable env : penv.
  Variable root : bool.
  Variable program_installed : text -> act W bool.
  Variable freeze : act W text.
  Variables exists_ isdir : text -> W -> bool.
  Variable makedirs : text -> act W unit.
  Variable f : W -> machine.
  Notation plugins := (bundled_installers env root program_installed freeze exists_ isdir makedirs).

  (** The options that the bundled installers declare. *)
  Definition bundled_describes (p : inst_plugin W pydict) : desc :=
    if eqb (ip_name p) (u "fake") then options_description false (fake_options env)
    else if eqb (ip_name p) (u "homebrew") then options_description false []
    else options_description true [].

  Lemma options_reachable b extra : reachable (options_description b extra).
  Proof. exists (u "options"), (make_item (u "as_root") TBoolean (VBool b) None None None :: extra); reflexivity. Qed.

  Lemma bundled_described : Forall (described env bundled_describes) plugins.
  Proof.
    assert (G : forall (p : inst_plugin W pydict) d, bundled_describes p = d -> reachable d ->
      (forall v i, ip_set_options p v = Ok i -> exists o, set_options env d v = Ok o) -> described env bundled_describes p)
      by (intros p d <-; split; auto).
    unfold bundled_installers; repeat apply Forall_cons; [..|apply Forall_nil];
      (eapply G; [reflexivity|apply options_reachable|]); intros v i H; cbn [ip_set_options fake_plugin fixed_plugin] in H;
      apply bind_Ok in H; destruct H as (o & Ho & _); exists o; exact Ho.
  Qed.

  Lemma bundled_family : family (bundled_oses f).
  Proof.
    split.
    - apply (proj1 (CacheProofs.distinct_NoDup _)). vm_compute. reflexivity.
    - intros a b Ha Hb. unfold derives.
      repeat (destruct Ha as [<-|Ha]); [..|destruct Ha];
        (repeat (destruct Hb as [<-|Hb]); [..|destruct Hb]); intros D;
        first [ (exists []; reflexivity) | (exists [u "ubuntu"]; reflexivity) | (exists [u "xubuntu"]; reflexivity)
              | (exists [u "xubuntu"; u "ubuntu"]; reflexivity)
              | (exfalso; vm_compute in D; intuition discriminate) ].
  Qed.

  Lemma detection_silent w b v : runs (f w) b v -> fst (detect_said None (bundled_oses f) w) = [].
  Proof.
    intros H; destruct H as [rel code E1 E2|rel code E1 E2|rel code E1 E2|c s minor code E1 E2 E3 E4];
      unfold bundled_oses; cbn [flat_map builtin_oses os_at plugin_of map fst b_names debian ubuntu xubuntu osx
        prepend_name app detect_said at_machine os_is d_is b_detector lsb_detect osx_detect];
      rewrite ?E1, ?E2; reflexivity.
  Qed.

  Lemma used_all {P} (eps : list (text * res (definition P))) (qs : list P) (name name' : P -> text) (k : P -> plugin_class P) :
    map snd eps = map (fun p => Ok (DDict (Some (VStr (name p))) (Some (VStr (name' p))) (Some (AClass (k p))))) qs -> all_used [] eps qs.
  Proof.
    clear; unfold all_used; match goal with |- _ -> _ + List.length (filter ?g _) = _ => set (g0 := g) end.
    revert qs; induction eps as [|[t d] eps IH]; intros [|q qs] H; try discriminate; [reflexivity|].
    injection H as -> H; apply IH in H; cbn [filter List.length].
    assert (Z : forall t, g0 (t, Ok (DDict (Some (VStr (name q))) (Some (VStr (name' q))) (Some (AClass (k q))))) = false)
      by (intros t'; unfold g0; cbn [snd]; apply Bool.andb_false_r).
    rewrite Z; cbn [List.length]; lia.
  Qed.

  (** With the bundled plugins and the default configuration nothing is shown without --verbose, on every machine
      that runs one of the bundled systems other than OS X. *)
  Theorem C130_bundled sd si sk sp sq ss os_eps inst_eps config w b v said r :
    map snd os_eps = bundled_os_eps uni f -> map snd inst_eps = bundled_inst_eps uni plugins ->
    plain_config config [] -> runs (f w) b v ->
    make_context_run env sd si sk sp sq ss bundled_describes config os_eps inst_eps w = (said, r) ->
    (exists ctx, r = Ok ctx) /\ (silent said <-> b <> osx) /\
    (b = osx -> In (Error (Text (u "ignoring core installer 'gem'; according plugin was not found"))) said).
  Proof.
    intros Ho Hi Hc Hr E.
    pose proof (C130_same_context env sd si sk sp sq ss bundled_describes config os_eps inst_eps w) as S.
    rewrite E in S; cbn [snd] in S; rewrite Ho, Hi in S.
    destruct (C76_default_context uni env root program_installed freeze exists_ isdir makedirs f config w b v Hc Hr)
      as (ctx & Ec & N1 & N2 & N3 & N4 & N5 & N6).
    rewrite Ec in S; subst r; split; [exists ctx; reflexivity|].
    destruct Hc as (C1 & C2 & C3 & C4 & C5 & C6).
    assert (Dos : disables config (u "os") []) by (exists [(KStr (u "os"), VList []); (KStr (u "installer"), VList []); (KStr (u "spec"), VList [])], []; split; [exact C6|split; reflexivity]).
    assert (Los : load_plugins (fun o : os_plugin W => Ok (KStr (os_name o))) (map snd os_eps) [] = Ok (bundled_oses f)) by (rewrite Ho; apply load_bundled_oses).
    assert (Core : forall from names, asked env config (bundled_oses f) ctx from names -> names = b_core b).
    { intros from names (m & y & o & Hm & En & _ & _ & Hask); destruct Hask as [names Hask|_]; [congruence|].
      assert (En' : Some (os_name m) = os_names b) by congruence; clear -En' Hm Hr.
      destruct Hr; destruct Hm as [<-|[<-|[<-|[<-|[]]]]]; try reflexivity; vm_compute in En'; discriminate. }
    assert (Gem : b = osx -> In (Error (Text (u "ignoring core installer 'gem'; according plugin was not found"))) said).
    { intros ->; destruct (C130_core_installers env sd si sk sp sq ss bundled_describes config os_eps inst_eps w said ctx [] (bundled_oses f) E Dos Los)
        as (from & names & Ha & _ & _ & He).
      apply (He (u "gem")); rewrite (Core _ _ Ha), N4; split; [vm_compute; auto|].
      apply (proj1 (mem_not_In _ _)); vm_compute; reflexivity. }
    split; [split|exact Gem].
    { intros Hs Hb; specialize (Hs _ (Gem Hb)); discriminate. }
    intros Hb; apply (C130_silent_exactly env sd si sk sp sq ss bundled_describes config os_eps inst_eps w said ctx [] [] (bundled_oses f) plugins E).
    - exact Dos.
    - exact Los.
    - exists [(KStr (u "os"), VList []); (KStr (u "installer"), VList []); (KStr (u "spec"), VList [])], []; split; [exact C6|split; reflexivity].
    - rewrite Hi; apply load_bundled_installers.
    - exact C1.
    - exact bundled_family.
    - assert (Q : forall m, In m (bundled_oses f) -> os_options_description m = os_options_base).
      { intros m [<-|[<-|[<-|[<-|[]]]]]; reflexivity. }
      intros m Hm; rewrite (Q m Hm); eexists (u "options"), [_]; reflexivity.
    - exact bundled_described.
    - split; [|split; [|split; [|split; [|split]]]].
      + apply (used_all os_eps (bundled_oses f) (@os_name W) (@os_name W)
          (fun p => {| pc_derived := true; pc_new := Ok p; pc_verify := base_verify_plugin (fun o => Ok (KStr (os_name o))) uni |})).
        rewrite Ho; reflexivity.
      + exact (used_all inst_eps plugins ip_name ip_name (fun p => {| pc_derived := true; pc_new := Ok p; pc_verify := base_verify_plugin (fun o => Ok (KStr (ip_name o))) uni |}) Hi).
      + destruct (runs_detected f w b v Hr) as (o & _ & Hd & _); pose proof (detection_silent w b v Hr) as Q.
        apply (C125_warned_exactly {| s_plugins := bundled_oses f; s_os := None |} {| s_plugins := bundled_oses f; s_os := Some (Plugin (at_machine f o)) |} w [] bundled_family); [|reflexivity].
        pose proof (detect_said_same (bundled_oses f) w None) as R; rewrite Hd in R.
        unfold detect_run; cbn [s_plugins]; destruct (detect_said None (bundled_oses f) w) as [x y]; cbn [fst snd] in *; subst; reflexivity.
      + intros m y Hm _ Hy; rewrite C2 in Hy; injection Hy as <-.
        assert (Q : os_options_description m = os_options_base) by (destruct Hm as [<-|[<-|[<-|[<-|[]]]]]; reflexivity).
        rewrite Q; intros k; split; [intros []|intros [[<-|[]] Hk]; apply Hk].
        exists (u "features"), (make_item (u "features") (TList TString) (VList []) None None None).
        split; [left; reflexivity|]; left; split; [|reflexivity].
        apply (proj1 (mem_not_In _ _)); reflexivity.
      + intros p y _ (d & Gd & Ey); rewrite C5 in Gd; injection Gd as <-; rewrite get_nil in Ey; injection Ey as ->.
        intros k; split; [intros []|intros [[] _]].
      + intros from names Ha; rewrite (Core _ _ Ha), N4; destruct Hr; vm_compute; try (intros n Hn; intuition; fail).
  Qed.
End Bundled.

(** On Ubuntu, with an unknown option for pip and a core installer that does not exist. *)
Definition noisy_config : pydict :=
  [(KStr (u "core_installers"), VList [VStr (u "apt"); VStr (u "nope")]);
   (KStr (u "installer_options"), VDict [(KStr (u "pip"), VDict [(KStr (u "speed"), VInt 1%Z)])])].
Definition noisy_env : penv := {| home := fun _ => Some (u "/home/me"); cwd := u "/work" |}.
Definition noisy_installers : list (inst_plugin machine pydict) :=
  bundled_installers noisy_env false (fun _ w => (Ok true, w)) (fun w => (Ok [], w)) (fun _ _ => false) (fun _ _ => false)
    (fun _ w => (Ok tt, w)).

Example C130_nonvacuous :
  let told := match load_dict noisy_env noisy_config with
    | Ok c => let (said, r) := make_context_run noisy_env (fun _ => []) (fun _ => []) (fun _ => []) (fun _ => []) (fun _ => [])
                (fun l => join (u ", ") (map (fun k => match k with KStr s => s | _ => u "?" end) l)) (bundled_describes noisy_env)
                c (map (fun d => (u "x", d)) (bundled_os_eps (fun _ => true) (fun m => m)))
                (map (fun d => (u "x", d)) (bundled_inst_eps (fun _ => true) noisy_installers)) ubuntu_machine in
              Some (said, is_ok r)
    | Err _ => None
    end in
  option_map (fun t => (filter always_shown (fst t), List.length (fst t), snd t)) told =
  Some ([Warning (Text (u "ignoring the following unknown options for installer 'pip': speed -- known options are: as_root"));
         Error (Text (u "ignoring core installer 'nope'; according plugin was not found"))], 14, true).
Proof. vm_compute. reflexivity. Qed.

Print Assumptions C130_same_context.
Print Assumptions C130_core_installers.
Print Assumptions C130_additional_installers.
Print Assumptions C130_system.
Print Assumptions C130_silent_exactly.
Print Assumptions C130_bundled.
