(** C121: what the options given after a command mean. *)
From Verif Require Import Base Dict PyVal RulesDict Verify Sources Util Paths Config ConfigSpec ConfigTypeProofs
  ConfigProofs XylemConfig Commands CommandLine PropCommands PropCommandLine PropConfig.
From Verif Require Install Installer InstallSpec PropInstall.
Notation S := Datatypes.S.
Local Opaque expand_input_path.

(** ** Specification *)
(** The option is given. *)
Definition occurs (f : text) (occs : list occurrence) : Prop := exists v, In (f, v) occs.
(** The values given to the option, in order. *)
Definition values_given (f : text) (occs : list occurrence) : list text :=
  flat_map (fun oc => if eqb (fst oc) f then match snd oc with Some v => [v] | None => [] end else []) occs.

(** What the attribute of an option has to be. *)
Definition stands_for (o : opt) (occs : list occurrence) (v : nsval) : Prop :=
  match o_action o with
  | StoreTrue => exists b, v = NFlag b /\ (b = true <-> occurs (o_flag o) occs)
  | Store => v = NVal (match rev (values_given (o_flag o) occs) with [] => CLNone | l :: _ => CLText l end)
  | Append => v = NVal (match values_given (o_flag o) occs with [] => CLNone | l => CLList l end)
  end.

(** ** Proofs *)
Lemma values_given_app f a b : values_given f (a ++ b) = values_given f a ++ values_given f b.
Proof. apply flat_map_app. Qed.

Lemma stands_other o occs oc v : fst oc <> o_flag o -> stands_for o occs v -> stands_for o (occs ++ [oc]) v.
Proof.
  intros Hn; unfold stands_for.
  assert (Hv : values_given (o_flag o) (occs ++ [oc]) = values_given (o_flag o) occs).
  { rewrite values_given_app; unfold values_given at 2; cbn [flat_map]; destruct (eqb_spec (fst oc) (o_flag o)); [contradiction|].
    rewrite app_nil_r; reflexivity. }
  rewrite Hv; destruct (o_action o); try exact (fun H => H).
  intros (b & -> & Hb); exists b; split; [reflexivity|]; rewrite Hb; unfold occurs; split; intros (w & H).
  - exists w; apply in_or_app; left; exact H.
  - apply in_app_or in H; destruct H as [H|[->|[]]]; [exists w; exact H|contradiction Hn; reflexivity].
Qed.

Lemma find_same p o (oc : occurrence) o' : NoDup (map o_flag p) -> In o p -> find (fun o => eqb (o_flag o) (fst oc)) p = Some o' ->
  fst oc = o_flag o -> o' = o.
Proof. intros Hf Hin E Hfl; rewrite Hfl, (find_unique p o Hf Hin) in E; congruence. Qed.

Lemma take_stands p o ns oc ns' occs : NoDup (map o_flag p) -> NoDup (map o_dest p) -> In o p ->
  (exists v, get (o_dest o) ns = Some v /\ stands_for o occs v) -> take p ns oc = Ok ns' ->
  exists v, get (o_dest o) ns' = Some v /\ stands_for o (occs ++ [oc]) v.
Proof.
  intros Hf Hd Hin (v & Hv & Hs) E; unfold take in E.
  destruct (find (fun o => eqb (o_flag o) (fst oc)) p) as [o'|] eqn:Ef; [|discriminate].
  destruct (find_In _ _ _ Ef) as [Hin' Hfl].
  destruct (eqb_spec (fst oc) (o_flag o)) as [He|Hn].
  - pose proof (find_same _ _ _ _ Hf Hin Ef He); subst o'.
    unfold stands_for in *; rewrite values_given_app; unfold values_given at 2 4; cbn [flat_map]; rewrite He, eqb_refl.
    destruct oc as [f w]; cbn [fst snd] in *; subst f.
    destruct (o_action o) eqn:Ea, w as [w|]; try discriminate E; injection E as <-; rewrite get_set_same; (eexists; split; [reflexivity|]).
    + exists true; split; [reflexivity|]; split; [intros _; exists None; apply in_or_app; right; left; reflexivity|reflexivity].
    + rewrite app_nil_r, rev_app_distr; reflexivity.
    + subst v; rewrite app_nil_r, Hv; destruct (values_given (o_flag o) occs); reflexivity.
  - assert (Hg : get (o_dest o) ns' = get (o_dest o) ns).
    { assert (Hne : o_dest o <> o_dest o').
      { intros Hx; apply Hn; rewrite (same_dest p o o' Hd Hin Hin' Hx); symmetry; exact Hfl. }
      destruct (o_action o'), (snd oc); try discriminate E; injection E as <-; apply get_set_other; exact Hne. }
    exists v; rewrite Hg; split; [exact Hv|apply stands_other; assumption].
Qed.

Lemma takes_stands p o occs ns ns' pre : NoDup (map o_flag p) -> NoDup (map o_dest p) -> In o p ->
  (exists v, get (o_dest o) ns = Some v /\ stands_for o pre v) -> foldM (take p) occs ns = Ok ns' ->
  exists v, get (o_dest o) ns' = Some v /\ stands_for o (pre ++ occs) v.
Proof.
  intros Hf Hd Hin; revert ns pre; induction occs as [|oc occs IH]; intros ns pre H E; cbn [foldM] in E.
  - rewrite app_nil_r; injection E as <-; exact H.
  - apply bind_Ok in E; destruct E as (ns1 & E1 & E).
    replace (pre ++ oc :: occs) with ((pre ++ [oc]) ++ occs) by (rewrite <- app_assoc; reflexivity).
    apply (IH ns1); [|exact E]; eapply take_stands; eassumption.
Qed.

(** A command line is accepted exactly if all options are declared and have a value if and only if they need one;
    otherwise xylem leaves with status 2 and does nothing.  If it is accepted every option has exactly the given
    value: flags whether they are given, options with a value the last one, and repeatable ones all of them in
    order. *)
Theorem C121_accepted fresh d own after : clean d own ->
  (Forall (declared (command_options d own)) after <->
   exists ns, parse_command_line fresh (main_options d) (command_options d own) [] after = Ok ns) /\
  (~ Forall (declared (command_options d own)) after -> forall env environ yaml file dump func,
   xylem_main env environ yaml file fresh d own dump func [] after = ([], SystemExit 2)).
Proof.
  intros [Hf Hd]; pose proof (takes_declared (command_options d own) after (start fresh (main_options d) (command_options d own)) Hf) as [T1 T2].
  rewrite parse_after; split; [split; [exact T1|]|].
  - intros (ns & E); destruct (foldM (take (command_options d own)) after (start fresh (main_options d) (command_options d own))) as [ns'|e] eqn:Ef; [|discriminate].
    clear - Hf Ef; revert Ef; generalize (start fresh (main_options d) (command_options d own)) as ns0.
    induction after as [|oc after IH]; intros ns0 Ef; [constructor|]; cbn [foldM] in Ef; apply bind_Ok in Ef; destruct Ef as (ns1 & E1 & Ef).
    constructor; [|eapply IH; exact Ef].
    unfold take in E1; destruct (find (fun o => eqb (o_flag o) (fst oc)) (command_options d own)) as [o|] eqn:Eo; [|discriminate].
    destruct (find_In _ _ _ Eo) as [Hin Hfl]; exists o; split; [exact Hin|split; [exact Hfl|]].
    destruct (o_action o), (snd oc); try discriminate E1; split; congruence.
  - intros Hn env environ yaml file dump func; rewrite run_after, (T2 Hn); reflexivity.
Qed.

Theorem C121_options fresh d own after ns o : clean d own ->
  parse_command_line fresh (main_options d) (command_options d own) [] after = Ok ns ->
  In o (command_options d own) ->
  exists v, get (o_dest o) ns = Some v /\ stands_for o after v.
Proof.
  intros [Hf Hd] E Hin; rewrite parse_after in E; apply (takes_stands _ _ _ _ _ [] Hf Hd Hin) in E; [exact E|].
  rewrite start_get; [|exact Hd|apply main_in_command|eapply main_dests; exact Hd|exact Hin].
  eexists; split; [reflexivity|]; unfold stands_for, default_value; destruct (o_action o); try reflexivity.
  exists false; split; [reflexivity|split; [discriminate|intros (v & [])]].
Qed.

Lemma flag_iff fresh d own after ns f dest : clean d own ->
  parse_command_line fresh (main_options d) (command_options d own) [] after = Ok ns ->
  In {| o_flag := f; o_dest := dest; o_action := StoreTrue |} (command_options d own) ->
  (ns_flag ns dest = true <-> In (f, None) after).
Proof.
  intros Hc E Hin; destruct (C121_options fresh d own after ns _ Hc E Hin) as (v & Hv & b & -> & Hb).
  cbn [o_dest o_flag] in Hv, Hb; unfold ns_flag; rewrite Hv, Hb; split; [|intros H; exists None; exact H].
  intros (v & Hx); assert (Ha : Forall (declared (command_options d own)) after)
    by (apply (proj1 (C121_accepted fresh d own after Hc)); exists ns; exact E).
  rewrite Forall_forall in Ha; destruct (Ha _ Hx) as (o & Ho & Hfl & Hact); cbn [fst snd] in Hfl, Hact.
  destruct Hc as [Hf _].
  assert (o = {| o_flag := f; o_dest := dest; o_action := StoreTrue |}).
  { pose proof (find_unique _ o Hf Ho) as F1; pose proof (find_unique _ _ Hf Hin) as F2; cbn [o_flag] in F2; rewrite Hfl in F1; congruence. }
  subst o; cbn [o_action] in Hact; rewrite (proj1 Hact eq_refl) in Hx; exact Hx.
Qed.

(** The options of the bundled commands. *)
Theorem C121_install fresh after ns :
  parse_command_line fresh (main_options xd) (command_options xd install_options) [] after = Ok ns ->
  let '(all, o) := install_args ns in
  (all = true <-> In (u "all", None) after) /\
  (Install.o_reinstall o = true <-> In (u "reinstall", None) after) /\
  (Install.o_simulate o = true <-> In (u "dry-run", None) after) /\
  (Install.o_continue o = true <-> In (u "continue-on-error", None) after) /\
  (Install.o_fix o = true <-> In (u "fix-prerequisites", None) after) /\
  Install.o_interactive o = true.
Proof.
  intros E; unfold install_args; cbn [Install.o_reinstall Install.o_simulate Install.o_continue Install.o_fix Install.o_interactive].
  pose proof (proj1 bundled_clean) as Hc.
  repeat (split; [eapply flag_iff; [exact Hc|exact E|]; vm_compute; tauto|]); reflexivity.
Qed.

Theorem C121_resolve fresh after ns :
  parse_command_line fresh (main_options xd) (command_options xd resolve_options) [] after = Ok ns ->
  (fst (resolve_args ns) = true <-> In (u "all", None) after) /\
  (snd (resolve_args ns) = true <-> In (u "show-default-installer", None) after).
Proof.
  intros E; pose proof (proj1 (proj2 bundled_clean)) as Hc; unfold resolve_args; cbn [fst snd].
  split; eapply flag_iff; try exact Hc; try exact E; vm_compute; tauto.
Qed.

Theorem C121_others fresh after ns :
  (parse_command_line fresh (main_options xd) (command_options xd update_options) [] after = Ok ns ->
   (update_args ns = true <-> In (u "dry-run", None) after)) /\
  (parse_command_line fresh (main_options xd) (command_options xd compact_options) [] after = Ok ns ->
   (compact_args ns = true <-> In (u "write", None) after)).
Proof.
  split; intros E.
  - pose proof (proj1 (proj2 (proj2 bundled_clean))) as Hc; eapply flag_iff; try exact Hc; try exact E; vm_compute; tauto.
  - pose proof (proj1 (proj2 (proj2 (proj2 bundled_clean)))) as Hc; eapply flag_iff; try exact Hc; try exact E; vm_compute; tauto.
Qed.

(** In particular [xylem install --dry-run] executes nothing, whatever else is on the command line. *)
Theorem C121_dry_run {W R} run ansi (cx : Installer.context W R) fresh after ns resolution w x w' l :
  parse_command_line fresh (main_options xd) (command_options xd install_options) [] after = Ok ns ->
  In (u "dry-run", None) after ->
  Install.install run ansi cx (snd (install_args ns)) resolution (w, []) = (x, (w', l)) ->
  InstallSpec.no_exec l.
Proof.
  intros E Hin H; eapply PropInstall.C29_simulate_no_command; [|exact H].
  pose proof (C121_install fresh after ns E) as Hi; destruct (install_args ns) as [all o]; apply Hi; exact Hin.
Qed.

(** ** Configuration options *)
Lemma ns_values_get d ns k : wf ns -> In k (config_dests d) ->
  get k (ns_values d ns) = match get k ns with Some (NVal v) => Some v | _ => None end.
Proof.
  intros Hw Hk; unfold ns_values.
  induction ns as [|[k1 v1] ns IH]; [reflexivity|]; apply wf_cons in Hw; destruct Hw as [Hn Hw].
  cbn [flat_map fst snd]; rewrite (get_cons k k1); destruct (eqb_spec k k1) as [<-|Hne].
  - destruct v1 as [b|v].
    + cbn [app]; rewrite (IH Hw), Hn; reflexivity.
    + assert (X : existsb (eqb k) (config_dests d) = true) by (apply existsb_exists; exists k; split; [exact Hk|apply eqb_refl]).
      rewrite X; cbn [app]; rewrite get_cons, eqb_refl; reflexivity.
  - destruct v1 as [b|v]; [exact (IH Hw)|]; destruct (existsb (eqb k1) (config_dests d)); [|exact (IH Hw)].
    cbn [app]; rewrite get_cons; destruct (eqb_spec k k1); [contradiction|exact (IH Hw)].
Qed.

Lemma start_wf fresh top sub : wf (start fresh top sub).
Proof.
  destruct fresh; cbn [start]; [apply copy_over_wf|]; repeat apply add_defaults_wf; exact wf_nil.
Qed.

Lemma last_rev {A} (l : list A) d : List.last l d = match rev l with [] => d | x :: _ => x end.
Proof.
  induction l as [|x l IH] using rev_ind; [reflexivity|]; rewrite last_last, rev_app_distr; reflexivity.
Qed.

(** What the command line gives to a configuration option (see C46_priority) is determined by the values given with
    its own flag: the last one, or all of them in order if the option can be given several times. *)
Theorem C121_configuration env environ yaml fresh d own after ns f it v :
  clean d own -> flags_ok d -> In (f, it) (d_arguments d) -> i_argument it = Some f -> i_command_line it = true ->
  parse_command_line fresh (main_options d) (command_options d own) [] after = Ok ns ->
  (command_line_gives env yaml (clargs_of d (handle_global_config_arguments env environ ns)) it v <->
   from_command_line env yaml (i_type it)
     (match values_given f after with
      | [] => CLNone
      | l => if cl_multiple (i_type it) then CLList l else CLText (List.last l [])
      end) = Ok v).
Proof.
  intros Hc [Hplain Hdist] Hin Ha Hcl E.
  set (o := {| o_flag := f; o_dest := argparse_dest f; o_action := if cl_multiple (i_type it) then Append else Store |}).
  assert (Hoc : In o (config_options d)).
  { unfold config_options; apply in_map_iff; exists (f, it); split; [reflexivity|exact Hin]. }
  assert (Ho : In o (command_options d own)) by (unfold command_options; apply in_or_app; right; apply in_or_app; left; exact Hoc).
  destruct (C121_options fresh d own after ns o Hc E Ho) as (w & Hw & Hs); cbn [o_dest o] in Hw.
  assert (Hu : underscorify f = argparse_dest f).
  { destruct (Hplain _ _ Hin) as [Hs1 Hs2]; unfold argparse_dest, underscorify; rewrite (lstrip_minus_id f Hs2).
    apply replace_char_id; intros H; apply replace_char_In in H; [|discriminate]; tauto. }
  assert (Hk : In (argparse_dest f) (config_dests d)).
  { unfold config_dests; apply in_map_iff; exists (f, it); split; [reflexivity|exact Hin]. }
  assert (Hwf : wf ns).
  { rewrite parse_after in E; pose proof (takes_keys _ _ _ _ (start_has _ _ _) E) as K.
    eapply wf_of_keys; [symmetry; exact K|apply start_wf]. }
  assert (Hg : get (underscorify f) (a_values (clargs_of d (handle_global_config_arguments env environ ns))) =
               match w with NVal v => Some v | NFlag _ => None end).
  { cbn [clargs_of a_values]; rewrite Hu, ns_values_get; [| |exact Hk].
    - unfold handle_global_config_arguments; rewrite !get_set_other.
      + rewrite Hw; destruct w; reflexivity.
      + intros Hx; rewrite Hx in Hk; exact (config_dests_clean d own Hc dir_option ltac:(vm_compute; tauto) Hk).
      + intros Hx; rewrite Hx in Hk; exact (config_dests_clean d own Hc prefix_option ltac:(vm_compute; tauto) Hk).
    - unfold handle_global_config_arguments; repeat apply wf_set; exact Hwf. }
  set (given := match values_given f after with
                | [] => CLNone | l => if cl_multiple (i_type it) then CLList l else CLText (List.last l []) end).
  assert (Hval : w = NVal given).
  { unfold stands_for in Hs; cbn [o_action o_flag o] in Hs; unfold given; destruct (cl_multiple (i_type it)); [exact Hs|].
    rewrite Hs; f_equal; destruct (values_given f after) as [|x l] eqn:Ev; [reflexivity|].
    rewrite last_rev; destruct (rev (x :: l)) eqn:Er; [|reflexivity].
    apply (f_equal (@List.length _)) in Er; rewrite rev_length in Er; discriminate. }
  rewrite Hval in Hg; unfold command_line_gives; rewrite Hcl; split.
  - intros (f' & g & Hf' & Hgv & Hx); assert (f' = f) by congruence; subst f'; rewrite Hg in Hgv; injection Hgv as <-; exact Hx.
  - intros Hx; exists f, given; split; [exact Ha|split; [exact Hg|exact Hx]].
Qed.

(** The directory named by an option, else by an environment variable. *)
Definition directory_for (f variable : text) (after : list occurrence) (environ : dict text text) : option text :=
  match rev (values_given f after) with
  | v :: _ => Some v
  | [] => get variable environ
  end.

(** The whole way of an accepted command line: the configuration is loaded (C46) for the named directory or prefix
    and then processed (C66), and the command is called with the result; configuration errors prevent that. *)
Theorem C121_run env environ yaml file dump fresh d own after ns : clean d own ->
  parse_command_line fresh (main_options d) (command_options d own) [] after = Ok ns ->
  exists ns' args,
    (forall o, In o (command_options d own) -> o_dest o <> u "config_dir" -> o_dest o <> u "prefix" ->
       get (o_dest o) ns' = get (o_dest o) ns) /\
    (forall f it v, flags_ok d -> In (f, it) (d_arguments d) -> i_argument it = Some f -> i_command_line it = true ->
       (command_line_gives env yaml args it v <->
        from_command_line env yaml (i_type it)
          (match values_given f after with
           | [] => CLNone
           | l => if cl_multiple (i_type it) then CLList l else CLText (List.last l [])
           end) = Ok v)) /\
    a_config_dir args = option_map (expand_input_path env) (directory_for (u "xylem-dir") (u "XYLEM_DIR") after environ) /\
    a_prefix args = expand_input_path env
      (match directory_for (u "prefix") (u "XYLEM_PREFIX") after environ with Some p => p | None => u "/" end) /\
    (a_no_user_config args = true <-> In (u "no-user-config", None) after) /\
    match load_config env yaml file args d xylem_tool with
    | Err e => forall func, xylem_main env environ yaml file fresh d own dump func [] after = ([], e)
    | Ok c0 =>
      match process_config env c0 args with
      | Err e => forall func, xylem_main env environ yaml file fresh d own dump func [] after = ([], e)
      | Ok c =>
        (~ In (u "print-config", None) after -> forall func,
           xylem_main env environ yaml file fresh d own dump func [] after = main (Ok tt) (func ns' c)) /\
        (In (u "print-config", None) after -> forall func,
           xylem_main env environ yaml file fresh d own dump func [] after = ([Line (dump c)], SystemExit 0))
      end
    end.
Proof.
  intros Hc E; set (ns' := handle_global_config_arguments env environ ns); exists ns', (clargs_of d ns').
  assert (Hother : forall k, k <> u "config_dir" -> k <> u "prefix" -> get k ns' = get k ns).
  { intros k H1 H2; unfold ns', handle_global_config_arguments; rewrite !get_set_other by assumption; reflexivity. }
  assert (Ht : forall o, In o (command_options d own) -> o_action o = Store ->
            ns_text ns (o_dest o) = match rev (values_given (o_flag o) after) with [] => None | v :: _ => Some v end).
  { intros o Ho Ea; destruct (C121_options fresh d own after ns o Hc E Ho) as (v & Hv & Hs).
    unfold stands_for in Hs; rewrite Ea in Hs; unfold ns_text; rewrite Hv, Hs; destruct (rev _); reflexivity. }
  assert (Hfl : forall f dest, In {| o_flag := f; o_dest := dest; o_action := StoreTrue |} (command_options d own) ->
            dest <> u "config_dir" -> dest <> u "prefix" -> (ns_flag ns' dest = true <-> In (f, None) after)).
  { intros f dest Hin H1 H2; unfold ns_flag; rewrite (Hother dest H1 H2); exact (flag_iff fresh d own after ns f dest Hc E Hin). }
  split; [intros o _; apply Hother|].
  split; [intros f it v Hfo Hin Ha Hcl; exact (C121_configuration env environ yaml fresh d own after ns f it v Hc Hfo Hin Ha Hcl E)|].
  pose proof (Ht dir_option (dir_in d own) eq_refl) as Hdir; pose proof (Ht prefix_option (prefix_in d own) eq_refl) as Hpre.
  cbn [o_dest o_flag dir_option prefix_option] in Hdir, Hpre.
  split; [|split; [|split]].
  - cbn [clargs_of a_config_dir]; unfold ns_text, ns', handle_global_config_arguments, directory_for.
    rewrite get_set_other by discriminate; rewrite get_set_same, Hdir.
    destruct (rev (values_given (u "xylem-dir") after)) as [|x l]; [|reflexivity].
    cbn [or_else]; destruct (get (u "XYLEM_DIR") environ); reflexivity.
  - cbn [clargs_of a_prefix]; unfold ns_text at 1; unfold ns', handle_global_config_arguments, directory_for.
    rewrite get_set_same, Hpre; destruct (rev (values_given (u "prefix") after)) as [|x l]; [|reflexivity].
    destruct (get (u "XYLEM_PREFIX") environ); reflexivity.
  - cbn [clargs_of a_no_user_config]; apply Hfl; [apply no_user_in|discriminate|discriminate].
  - assert (Hrun : forall func, xylem_main env environ yaml file fresh d own dump func [] after = rest env yaml dump environ file d func ns)
      by (intros func; unfold xylem_main; rewrite E; reflexivity).
    pose proof (Hfl (u "print-config") (u "print_config") (print_in d own) ltac:(discriminate) ltac:(discriminate)) as Hp.
    unfold rest in Hrun; fold ns' in Hrun; unfold effective_config in Hrun.
    destruct (load_config env yaml file (clargs_of d ns') d xylem_tool) as [c0|e]; cbn [bind] in Hrun; [|exact Hrun].
    destruct (process_config env c0 (clargs_of d ns')) as [c|e]; [|exact Hrun].
    split; intros H func; rewrite Hrun.
    + destruct (ns_flag ns' (u "print_config")); [contradiction H; apply Hp; reflexivity|reflexivity].
    + rewrite (proj2 Hp H); reflexivity.
Qed.

(** ** Examples *)
Example C121_nonvacuous :
  let after := [(u "core-installers", Some (u "pip")); (u "dry-run", None); (u "core-installers", Some (u "apt"));
                (u "os", Some (u "debian")); (u "os", Some (u "ubuntu:precise"))] in
  (exists ns, parse_command_line true (main_options xd) (command_options xd install_options) [] after = Ok ns /\
     snd (install_args ns) = {| Install.o_interactive := true; Install.o_reinstall := false; Install.o_simulate := true;
                                Install.o_continue := false; Install.o_fix := false |}) /\
  values_given (u "core-installers") after = [u "pip"; u "apt"] /\
  (exists it, get (u "os") (d_arguments xd) = Some it /\ i_argument it = Some (u "os") /\ i_command_line it = true /\
     cl_multiple (i_type it) = false) /\
  (exists it, get (u "core-installers") (d_arguments xd) = Some it /\ cl_multiple (i_type it) = true) /\
  flags_ok xd /\
  ~ Forall (declared (command_options xd install_options)) [(u "dry-run", Some (u "yes"))] /\
  ~ Forall (declared (command_options xd install_options)) [(u "os", None)].
Proof.
  cbv zeta; split; [|split; [vm_compute; reflexivity|split; [|split; [|split; [|split]]]]].
  - assert (E : is_ok (parse_command_line true (main_options xd) (command_options xd install_options) []
        [(u "core-installers", Some (u "pip")); (u "dry-run", None); (u "core-installers", Some (u "apt"));
         (u "os", Some (u "debian")); (u "os", Some (u "ubuntu:precise"))]) = true) by (vm_compute; reflexivity).
    match type of E with is_ok ?p = true => destruct p as [ns|e] eqn:En; [|discriminate E] end.
    exists ns; split; [reflexivity|]; vm_compute in En; injection En as <-; vm_compute; reflexivity.
  - destruct (get (u "os") (d_arguments xd)) as [it|] eqn:Ei; [|vm_compute in Ei; discriminate].
    exists it; split; [reflexivity|]; vm_compute in Ei; injection Ei as <-; vm_compute; repeat split.
  - destruct (get (u "core-installers") (d_arguments xd)) as [it|] eqn:Ei; [|vm_compute in Ei; discriminate].
    exists it; split; [reflexivity|]; vm_compute in Ei; injection Ei as <-; vm_compute; reflexivity.
  - destruct C46_xylem_flags as (d & Ed & _ & _ & Hd); unfold xd; rewrite Ed; exact Hd.
  - intros H; inversion H as [|oc l (o & Hin & Hfl & Ha) _]; subst; cbn [fst snd] in Hfl, Ha.
    assert (Hx : forall o, In o (command_options xd install_options) -> o_flag o = u "dry-run" -> o_action o = StoreTrue).
    { clear; intros o Hin Hfl; vm_compute in Hin, Hfl.
      repeat (destruct Hin as [<-|Hin]; [first [discriminate Hfl|reflexivity]|]); destruct Hin. }
    pose proof (proj1 Ha (Hx o Hin Hfl)); discriminate.
  - intros H; inversion H as [|oc l (o & Hin & Hfl & Ha) _]; subst; cbn [fst snd] in Hfl, Ha.
    assert (Hx : forall o, In o (command_options xd install_options) -> o_flag o = u "os" -> o_action o = Store).
    { clear; intros o Hin Hfl; vm_compute in Hin, Hfl.
      repeat (destruct Hin as [<-|Hin]; [first [discriminate Hfl|reflexivity]|]); destruct Hin. }
    pose proof (proj2 Ha eq_refl) as Hy; rewrite (Hx o Hin Hfl) in Hy; discriminate.
Qed.

Print Assumptions C121_accepted.
Print Assumptions C121_options.
Print Assumptions C121_install.
Print Assumptions C121_resolve.
Print Assumptions C121_others.
Print Assumptions C121_dry_run.
Print Assumptions C121_configuration.
Print Assumptions C121_run.
