(** C120: an invalid configuration file. *)
From Verif Require Import Base Dict PyVal RulesDict Verify Sources Util Paths Config ConfigSpec ConfigTypeProofs
  ConfigProofs XylemConfig Commands CommandLine PropCommands PropCommandLine PropConfig.
Local Opaque expand_input_path.

(** The file can not be parsed, or its contents are not acceptable (see C50). *)
Definition invalid_file (yaml : text -> res pyval) (d : desc) (t : text) : Prop :=
  yaml t = Err YAMLError \/ exists v, yaml t = Ok v /\ ~ file_ok d v.

Lemma invalid_rejected env yaml file d path t : reachable d -> file path = Some (Ok t) -> invalid_file yaml d t ->
  exists e, config_from_file env yaml file path d = Err e /\
    ((forall data, yaml t = Ok (VDict data) -> groups_are_mappings d data) -> e = ConfigValueError).
Proof.
  intros Hd Hf Hi; destruct (config_from_file env yaml file path d) as [c|e] eqn:E.
  - exfalso; unfold config_from_file, load_config_file_yaml in E; rewrite Hf in E.
    destruct Hi as [Ey|(v & Ey & Hn)]; rewrite Ey in E; cbn [bind] in E; [discriminate|].
    apply Hn, (C50_accepts_exactly env d v Hd); exists c; unfold config_from_contents.
    destruct (process_config_file_yaml v) as [dt|e]; [exact E|].
    destruct (is_env_error e || is_YAMLError e); discriminate.
  - exists e; split; [reflexivity|]; intros Hm; unfold config_from_file, load_config_file_yaml in E; rewrite Hf in E.
    destruct Hi as [Ey|(v & Ey & Hn)]; rewrite Ey in E; cbn [bind] in E; [cbn in E; congruence|].
    destruct (process_config_file_yaml v) as [dt|e'] eqn:Ep; cbn [bind] in E.
    + apply (C50_rejection_error_partial env d v e Hd); [intros data ->; apply Hm; exact Ey|].
      unfold config_from_contents; rewrite Ep; exact E.
    + assert (e' = ConfigValueError).
      { apply (C50_rejection_error_partial env d v e' Hd); [intros data ->; apply Hm; exact Ey|].
        unfold config_from_contents; rewrite Ep; reflexivity. }
      subst e'; cbn in E; congruence.
Qed.

(** No configuration argument is given. *)
Definition no_values : dict text clval := ltac:(let v := eval vm_compute in
  (map (fun p => (argparse_dest (fst p), CLNone)) (d_arguments xd)) in exact v).

Lemma args_unset env yaml args : a_values args = no_values -> exists a, config_from_args env yaml args xd = Ok a.
Proof.
  intros E; unfold config_from_args, arg_value; rewrite E.
  let d := eval vm_compute in xd in change xd with d.
  eexists; cbn; reflexivity.
Qed.

Section BadConfig.
  Variable env : penv.
  Variable yaml : text -> res pyval.
  Variable dump : pydict -> text.

  (** With an invalid configuration file no command is run and nothing is printed, whatever the other options. *)
  Theorem C120_not_run_partial environ file fresh d own after D t :
    PropCommandLine.clean d own -> reachable d ->
    file (path_join (expand_input_path env D) (d_namespace d)) = Some (Ok t) -> invalid_file yaml d t ->
    exists e, forall func,
      xylem_main env environ yaml file fresh d own dump func [] (after ++ [(u "xylem-dir", Some D)]) = ([], e).
  Proof.
    intros Hc Hd Hf Hi; pose proof Hc as [Hfl _].
    enough (H : exists e, forall func, match foldM (take (command_options d own)) (after ++ [(u "xylem-dir", Some D)])
                (start fresh (main_options d) (command_options d own)) with
              | Err e => ([], e) | Ok ns0 => rest env yaml dump environ file d func ns0 end = ([], e)).
    { destruct H as [e H]; exists e; intros func; rewrite run_after; apply H. }
    rewrite foldM_app.
    destruct (foldM (take (command_options d own)) after (start fresh (main_options d) (command_options d own))) as [ns|e];
      cbn [bind]; [|exists e; reflexivity].
    cbn [foldM]; pose proof (take_own (command_options d own) dir_option ns (Some D) Hfl (dir_in d own) ltac:(discriminate)) as Ht.
    cbn [o_flag o_action dir_option] in Ht; rewrite Ht; cbn [bind o_dest dir_option].
    unfold rest; set (h := handle_global_config_arguments _ _ _).
    enough (He : exists e, effective_config env yaml file d h = Err e) by (destruct He as [e He]; exists e; rewrite He; reflexivity).
    assert (Hdir : ns_text h (u "config_dir") = Some (expand_input_path env D)).
    { unfold h, handle_global_config_arguments.
      assert (Hn : ns_text (set (u "config_dir") (NVal (CLText D)) ns) (u "config_dir") = Some D)
        by (unfold ns_text; rewrite get_set_same; reflexivity).
      rewrite Hn; cbn [or_else option_map]; unfold ns_text.
      rewrite get_set_other by discriminate; rewrite get_set_same; reflexivity. }
    unfold effective_config, load_config.
    destruct (config_from_args env yaml (clargs_of d h) d) as [a|e]; cbn [bind]; [|exists e; reflexivity].
    unfold config_dirs; cbn [clargs_of a_config_dir]; rewrite Hdir; cbn [mapM].
    destruct (invalid_rejected env yaml file d _ t Hd Hf Hi) as (e & -> & _); exists e; reflexivity.
  Qed.

  (** ... but the error is not reported: for every invalid file and every command xylem ends with a traceback of
      the configuration error instead of an error message. *)
  Theorem C120_reported_refuted environ file fresh func D t :
    file (path_join (expand_input_path env D) (u "config.yaml")) = Some (Ok t) -> invalid_file yaml xd t ->
    (forall data, yaml t = Ok (VDict data) -> groups_are_mappings xd data) ->
    let run := xylem_main env environ yaml file fresh xd [] dump func [] [(u "xylem-dir", Some D)] in
    run = ([], ConfigValueError) /\ ~ reports_error (fst run) /\ In ConfigValueError documented_errors.
  Proof.
    intros Hf Hi Hm.
    enough (H : xylem_main env environ yaml file fresh xd [] dump func [] [(u "xylem-dir", Some D)] = ([], ConfigValueError)).
    { cbv zeta; rewrite H; split; [reflexivity|split; [intros (es & []); tauto|cbn; tauto]]. }
    rewrite run_after; pose proof (proj2 (proj2 (proj2 (proj2 bundled_clean)))) as [Hfl _].
    cbn [foldM]; pose proof (take_own (command_options xd []) dir_option (start fresh (main_options xd) (command_options xd []))
      (Some D) Hfl (dir_in xd []) ltac:(discriminate)) as Ht.
    cbn [o_flag o_action dir_option] in Ht; rewrite Ht; cbn [bind o_dest dir_option].
    unfold rest; set (h := handle_global_config_arguments _ _ _).
    assert (Hdir : ns_text h (u "config_dir") = Some (expand_input_path env D)).
    { unfold h, handle_global_config_arguments.
      assert (Hn : forall ns, ns_text (set (u "config_dir") (NVal (CLText D)) ns) (u "config_dir") = Some D)
        by (intros ns; unfold ns_text; rewrite get_set_same; reflexivity).
      rewrite Hn; cbn [or_else option_map]; unfold ns_text.
      rewrite get_set_other by discriminate; rewrite get_set_same; reflexivity. }
    assert (Hval : forall X Y, ns_values xd (set (u "prefix") (nsval_of X) (set (u "config_dir") (nsval_of Y)
               (set (u "config_dir") (NVal (CLText D)) (start fresh (main_options xd) (command_options xd []))))) = no_values).
    { intros X Y; destruct fresh; vm_compute; reflexivity. }
    assert (Hh : ns_values xd h = no_values) by apply Hval.
    assert (He : effective_config env yaml file xd h = Err ConfigValueError).
    { unfold effective_config, load_config, config_dirs, clargs_of; cbn [a_config_dir]; rewrite Hh, Hdir; cbn [mapM].
      destruct (args_unset env yaml {| a_config_dir := Some (expand_input_path env D);
        a_prefix := match ns_text h (u "prefix") with Some p => p | None => [] end;
        a_no_user_config := ns_flag h (u "no_user_config"); a_values := no_values |} eq_refl) as [a ->]; cbn [bind].
      destruct (invalid_rejected env yaml file xd (path_join (expand_input_path env D) (d_namespace xd)) t) as (e & Ee & Hx).
      - exists (u "config.yaml"), xylem_items; vm_compute; reflexivity.
      - exact Hf.
      - exact Hi.
      - rewrite Ee, (Hx Hm); reflexivity. }
    rewrite He; reflexivity.
  Qed.
End BadConfig.

(** A file with a text where a list is expected. *)
Definition bad_yaml : text -> res pyval := fun t => Ok (VDict [(KStr (u "core_installers"), VStr t)]).
Definition bad_file (p : text) : option (res text) := if eqb p (u "/c/config.yaml") then Some (Ok (u "apt")) else None.
Lemma yaml_list_str e t : yaml_ok (TList e) (VStr t) -> False.
Proof. intros [H|(l & H & _)]; discriminate. Qed.

Example C120_nonvacuous : invalid_file bad_yaml xd (u "apt") /\
  (forall data, bad_yaml (u "apt") = Ok (VDict data) -> groups_are_mappings xd data) /\
  (xylem_main x_env [] bad_yaml bad_file true xd [] x_dump (show (u "cache_dir")) []
     [(u "xylem-dir", Some (u "/c"))] = ([], ConfigValueError)) /\
  (* without the file the command runs *)
  (xylem_main x_env [] bad_yaml no_file true xd [] x_dump (show (u "cache_dir")) []
     [(u "xylem-dir", Some (u "/c"))] = ([Line (u "/c/cache")], SystemExit 0)).
Proof.
  split; [|split; [|split; vm_compute; reflexivity]].
  - right; eexists; split; [reflexivity|].
    intros [H|(data & E & _ & _ & H)]; [discriminate|].
    assert (Ed : data = [(KStr (u "core_installers"), VStr (u "apt"))]) by congruence; subst data.
    destruct (get (u "core_installers") (d_items xd)) as [it|] eqn:Ei; [|vm_compute in Ei; discriminate].
    assert (Et : exists e, i_type it = TList e).
    { vm_compute in Ei; eexists; injection Ei as <-; reflexivity. }
    destruct Et as [e Et].
    specialize (H (u "core_installers") it (VStr (u "apt")) (get_In _ _ _ Ei)); rewrite Et in H.
    assert (Hf : file_gives (u "core_installers") [(KStr (u "core_installers"), VStr (u "apt"))] (VStr (u "apt")))
      by (apply file_gives_get; vm_compute; reflexivity).
    exact (yaml_list_str _ _ (H Hf)).
  - intros data E g Hg; left.
    assert (Ed : data = [(KStr (u "core_installers"), VStr (u "apt"))]) by (unfold bad_yaml in E; congruence).
    subst data; vm_compute in Hg; destruct Hg as [<-|[<-|[]]]; vm_compute; reflexivity.
Qed.

Print Assumptions C120_not_run_partial.
Print Assumptions C120_reported_refuted.
