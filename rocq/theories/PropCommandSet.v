(** C122: command plugins, their names, options and configuration. *)
From Verif Require Import Base Dict PyVal RulesDict Verify Sources Util Paths Config ConfigSpec ConfigTypeProofs
  ConfigProofs XylemConfig Commands CommandLine CommandSet PropCommands PropCommandLine PropConfig PropOptions.
From Verif Require CacheProofs.
Local Opaque expand_input_path.

(** ** Specification *)
(** A plugin that is a command definition. *)
Definition defines (e : command_ep command_def) (cd : command_def) : Prop := ce_load e = Ok (Some cd).
(** The plugin is called like its entry point. *)
Definition named_alike (eps : list (command_ep command_def)) : Prop :=
  NoDup (map ce_name eps) /\ forall e, In e eps -> exists cd, defines e cd /\ cd_title cd = ce_name e.
(** No two options of the parser have the same flag. *)
Definition no_conflict (opts : list opt) : Prop := NoDup (map o_flag opts ++ [u "help"; u "version"]).

(** The configuration description after the plugins have made their additions, one after another. *)
Fixpoint describe (cds : list command_def) (d : desc) : res desc :=
  match cds with
  | [] => Ok d
  | cd :: cds' => match cd_config cd d with Ok d' => describe cds' d' | Err e => Err e end
  end.

(** ** Proofs *)
Lemma parser_of_Ok opts : no_conflict opts -> parser_of opts = Ok opts.
Proof. intros H; unfold parser_of, help_flags; rewrite (proj2 (CacheProofs.distinct_NoDup _) H); reflexivity. Qed.

Lemma parser_of_inv opts p : parser_of opts = Ok p -> p = opts /\ no_conflict opts.
Proof.
  unfold parser_of, help_flags; destruct (distinct _) eqn:E; [|discriminate]; intros H; injection H as <-.
  split; [reflexivity|apply CacheProofs.distinct_NoDup; exact E].
Qed.

Lemma parser_of_Err opts : ~ no_conflict opts -> parser_of opts = Err ArgumentError.
Proof.
  intros H; unfold parser_of, help_flags; destruct (distinct _) eqn:E; [|reflexivity].
  exfalso; apply H; apply CacheProofs.distinct_NoDup; exact E.
Qed.

(** The definitions found, for plugins that are all definitions. *)
Lemma subparsers_all eps cds : NoDup (map ce_name eps) -> Forall2 defines eps cds -> exists l, create_subparsers eps = Ok (cds, l).
Proof.
  intros Hn HF; destruct (C82_invalid_skipped_partial eps Hn) as (ds & E & F).
  { intros e He; destruct (CacheProofs.Forall2_In_l _ _ _ _ HF He) as (cd & _ & H); exists (Some cd); exact H. }
  exists (filter (fun c => negb (is_prefix (u "_") c)) (map ce_name (valid_eps eps))); rewrite E; do 2 f_equal.
  assert (V : valid_eps eps = eps).
  { clear -HF; induction HF as [|e cd eps cds H HF IH]; [reflexivity|]; unfold valid_eps; cbn [filter]; rewrite H; f_equal; exact IH. }
  rewrite V in F; clear -HF F; revert ds F; induction HF as [|e cd eps cds H HF IH]; intros ds F; inversion F as [|? d ? ds' H' F']; subst; [reflexivity|].
  rewrite (IH _ F'); f_equal; unfold defines in H; congruence.
Qed.

Lemma describe_app a b d : describe (a ++ b) d = match describe a d with Ok d' => describe b d' | Err e => Err e end.
Proof. revert d; induction a as [|cd a IH]; intros d; cbn [app describe]; [reflexivity|]; destruct (cd_config cd d); [apply IH|reflexivity]. Qed.

Lemma add_describe cds d ps d' ps' : foldM add_command cds (d, ps) = Ok (d', ps') -> describe cds d = Ok d'.
Proof.
  revert d ps; induction cds as [|cd cds IH]; intros d ps E; cbn [foldM] in E; [injection E as <- _; reflexivity|].
  apply bind_Ok in E; destruct E as ([d1 ps1] & E1 & E); unfold add_command, command_parser in E1; cbn [fst snd] in E1.
  cbn [describe]; destruct (cd_config cd d) as [d2|]; [|discriminate]; cbn [bind] in E1.
  destruct (parser_of _); [|discriminate]; cbn [bind] in E1; injection E1 as <- _; eapply IH; exact E.
Qed.

Lemma add_get_other cds d ps d' ps' name : foldM add_command cds (d, ps) = Ok (d', ps') -> ~ In name (map cd_title cds) ->
  get name ps' = get name ps.
Proof.
  revert d ps; induction cds as [|cd cds IH]; intros d ps E Hn; cbn [foldM] in E; [injection E as _ <-; reflexivity|].
  apply bind_Ok in E; destruct E as ([d1 ps1] & E1 & E); cbn [map] in Hn.
  rewrite (IH _ _ E) by (intros H; apply Hn; right; exact H).
  unfold add_command in E1; apply bind_Ok in E1; destruct E1 as ([d2 p] & _ & E1); injection E1 as _ <-; cbn [snd].
  apply get_set_other; intros H; apply Hn; left; symmetry; exact H.
Qed.

Lemma add_get cds d ps d' ps' pre cd post : foldM add_command cds (d, ps) = Ok (d', ps') ->
  cds = pre ++ cd :: post -> ~ In (cd_title cd) (map cd_title post) ->
  exists d2, describe (pre ++ [cd]) d = Ok d2 /\ describe post d2 = Ok d' /\ no_conflict (command_options d2 (cd_own cd)) /\
    get (cd_title cd) ps' = Some (command_options d2 (cd_own cd), cd_main cd).
Proof.
  intros E -> Hp; rewrite foldM_app in E; apply bind_Ok in E; destruct E as ([d1 ps1] & E1 & E); cbn [foldM] in E.
  apply bind_Ok in E; destruct E as ([d2 ps2] & E2 & E).
  unfold add_command, command_parser in E2; cbn [fst snd] in E2.
  destruct (cd_config cd d1) as [d3|] eqn:Ec; [|discriminate]; cbn [bind] in E2.
  destruct (parser_of (command_options d3 (cd_own cd))) as [p|] eqn:Ep; [|discriminate]; cbn [bind] in E2.
  assert (X : d3 = d2 /\ set (cd_title cd) (p, cd_main cd) ps1 = ps2) by (split; congruence); destruct X as [-> <-].
  destruct (parser_of_inv _ _ Ep) as [-> Hc].
  exists d2; rewrite describe_app, (add_describe _ _ _ _ _ E1); cbn [describe]; rewrite Ec.
  split; [reflexivity|split; [eapply add_describe; exact E|split; [exact Hc|]]].
  rewrite (add_get_other _ _ _ _ _ _ E Hp); apply get_set_same.
Qed.

Lemma add_all_same cds d ps : (forall cd, In cd cds -> cd_config cd d = Ok d /\ no_conflict (command_options d (cd_own cd))) ->
  exists ps', foldM add_command cds (d, ps) = Ok (d, ps').
Proof.
  revert ps; induction cds as [|cd cds IH]; intros ps H; cbn [foldM]; [eexists; reflexivity|].
  destruct (H cd (or_introl eq_refl)) as [Hc Hn]; unfold add_command, command_parser; cbn [fst snd]; rewrite Hc; cbn [bind].
  rewrite (parser_of_Ok _ Hn); cbn [bind]; apply IH; intros x Hx; apply H; right; exact Hx.
Qed.

Lemma describe_same cds d : (forall cd, In cd cds -> cd_config cd d = Ok d) -> describe cds d = Ok d.
Proof.
  induction cds as [|cd cds IH]; intros H; cbn [describe]; [reflexivity|]; rewrite (H cd (or_introl eq_refl)).
  apply IH; intros x Hx; apply H; right; exact Hx.
Qed.

(** ** Theorems *)
(** Plugins that are called like their entry points, add nothing to the configuration and have no option twice do not
    disturb each other: every one is run under its name exactly as if it was the only command. *)
Theorem C122_runs_partial env environ yaml file fresh d eps cds dump before after e cd :
  NoDup (map ce_name eps) -> Forall2 defines eps cds -> Forall2 (fun e cd => cd_title cd = ce_name e) eps cds ->
  no_conflict (main_options d) ->
  (forall cd, In cd cds -> cd_config cd d = Ok d /\ no_conflict (command_options d (cd_own cd))) ->
  In e eps -> defines e cd ->
  xylem env environ yaml file fresh d eps dump before (ce_name e) after =
  xylem_main env environ yaml file fresh d (cd_own cd) dump (cd_main cd) before after.
Proof.
  intros Hn HF Ht Hm Hall He Hd; unfold xylem; rewrite (parser_of_Ok _ Hm); cbn [bind].
  destruct (subparsers_all eps cds Hn HF) as (l & ->); cbn [bind].
  destruct (add_all_same cds d [] Hall) as (ps & E); change (foldM add_command cds (d, [])) with (add_commands cds d) in E; rewrite E; cbn [bind].
  assert (Hcd : In cd cds).
  { destruct (CacheProofs.Forall2_In_l _ _ _ _ HF He) as (cd' & Hin & H); unfold defines in *; congruence. }
  assert (Hti : map cd_title cds = map ce_name eps).
  { clear -Ht; induction Ht as [|x y l l' H Ht IH]; [reflexivity|]; cbn [map]; rewrite IH, H; reflexivity. }
  assert (Htc : cd_title cd = ce_name e).
  { clear -HF Ht He Hd; induction HF as [|x y l l' H HF IH]; [destruct He|]; inversion Ht as [|? ? ? ? H1 Ht']; subst.
    destruct He as [->|He]; [unfold defines in *; congruence|]; apply IH; assumption. }
  apply in_split in Hcd; destruct Hcd as (pre & post & ->).
  destruct (add_get _ _ _ _ _ pre cd post E eq_refl) as (d2 & Hd2 & _ & _ & Hg).
  { rewrite map_app in Hti; cbn [map] in Hti; rewrite <- Hti in Hn; apply NoDup_remove_2 in Hn.
    intros H; apply Hn, in_or_app; right; exact H. }
  rewrite <- Htc, Hg.
  rewrite describe_same in Hd2.
  - injection Hd2 as <-; reflexivity.
  - intros x Hx; apply Hall; apply in_or_app; apply in_app_or in Hx; destruct Hx as [Hx|[->|[]]]; [left; exact Hx|right; left; reflexivity].
Qed.

(** In particular the bundled commands, together with any such plugins. *)
Lemma xd_no_conflict : no_conflict (main_options xd) /\ no_conflict (command_options xd update_options) /\
  no_conflict (command_options xd resolve_options) /\ no_conflict (command_options xd []) /\
  no_conflict (command_options xd install_options) /\ no_conflict (command_options xd compact_options).
Proof. unfold no_conflict; repeat split; apply (proj1 (CacheProofs.distinct_NoDup _)); vm_compute; reflexivity. Qed.

Definition harmless (e : command_ep command_def) : Prop :=
  exists cd, defines e cd /\ cd_title cd = ce_name e /\ cd_config cd xd = Ok xd /\ no_conflict (command_options xd (cd_own cd)).

Theorem C122_bundled_partial env environ yaml file fresh dump f1 f2 f3 f4 f5 others before after :
  NoDup (map ce_name (bundled_commands f1 f2 f3 f4 f5 ++ others)) -> Forall harmless others ->
  let run := xylem env environ yaml file fresh xd (bundled_commands f1 f2 f3 f4 f5 ++ others) dump before in
  let alone own f := xylem_main env environ yaml file fresh xd own dump f before after in
  run (u "update") after = alone update_options f1 /\
  run (u "resolve") after = alone resolve_options f2 /\
  run (u "lookup") after = alone [] f3 /\
  run (u "install") after = alone install_options f4 /\
  run (u "_compact_rules_file") after = alone compact_options f5 /\
  (forall e cd, In e others -> defines e cd -> run (ce_name e) after = alone (cd_own cd) (cd_main cd)).
Proof.
  intros Hn Ho run alone.
  set (b := fun t own f => {| cd_title := t; cd_own := own; cd_config := fun d => Ok d; cd_main := f |} : command_def).
  destruct xd_no_conflict as (N0 & N1 & N2 & N3 & N4 & N5).
  assert (Hc : exists cds, Forall2 defines others cds /\ Forall2 (fun e cd => cd_title cd = ce_name e) others cds /\
     forall cd, In cd cds -> cd_config cd xd = Ok xd /\ no_conflict (command_options xd (cd_own cd))).
  { clear -Ho; induction Ho as [|e l (cd & H1 & H2 & H3 & H4) Ho IH]; [exists []; repeat split; try constructor; destruct H|].
    destruct IH as (cds & A & B & C); exists (cd :: cds); split; [constructor; assumption|split; [constructor; assumption|]].
    intros x [<-|Hx]; [split; assumption|apply C; exact Hx]. }
  destruct Hc as (cds & A & B & C).
  set (all := [b (u "update") update_options f1; b (u "resolve") resolve_options f2; b (u "lookup") [] f3;
               b (u "install") install_options f4; b (u "_compact_rules_file") compact_options f5] ++ cds).
  assert (HF : Forall2 defines (bundled_commands f1 f2 f3 f4 f5 ++ others) all).
  { apply Forall2_app; [repeat (constructor; [reflexivity|]); constructor|exact A]. }
  assert (HT : Forall2 (fun e cd => cd_title cd = ce_name e) (bundled_commands f1 f2 f3 f4 f5 ++ others) all).
  { apply Forall2_app; [repeat (constructor; [reflexivity|]); constructor|exact B]. }
  assert (HA : forall cd, In cd all -> cd_config cd xd = Ok xd /\ no_conflict (command_options xd (cd_own cd))).
  { intros cd H; apply in_app_or in H; destruct H as [H|H]; [|apply C; exact H].
    destruct H as [<-|[<-|[<-|[<-|[<-|[]]]]]]; (split; [reflexivity|assumption]). }
  assert (G : forall e cd, In e (bundled_commands f1 f2 f3 f4 f5 ++ others) -> defines e cd ->
    run (ce_name e) after = alone (cd_own cd) (cd_main cd)).
  { intros e cd He Hd; exact (C122_runs_partial env environ yaml file fresh xd _ all dump before after e cd Hn HF HT N0 HA He Hd). }
  assert (I : forall e, In e (bundled_commands f1 f2 f3 f4 f5) -> In e (bundled_commands f1 f2 f3 f4 f5 ++ others))
    by (intros e He; apply in_or_app; left; exact He).
  split; [apply (G (bundled_command (u "update") update_options f1) (b (u "update") update_options f1)); [apply I; left; reflexivity|reflexivity]|].
  split; [apply (G (bundled_command (u "resolve") resolve_options f2) (b (u "resolve") resolve_options f2)); [apply I; right; left; reflexivity|reflexivity]|].
  split; [apply (G (bundled_command (u "lookup") [] f3) (b (u "lookup") [] f3)); [apply I; right; right; left; reflexivity|reflexivity]|].
  split; [apply (G (bundled_command (u "install") install_options f4) (b (u "install") install_options f4)); [apply I; right; right; right; left; reflexivity|reflexivity]|].
  split; [apply (G (bundled_command (u "_compact_rules_file") compact_options f5) (b (u "_compact_rules_file") compact_options f5)); [apply I; do 4 right; left; reflexivity|reflexivity]|].
  intros e cd He Hd; apply G; [apply in_or_app; right; exact He|exact Hd].
Qed.

Lemma title_run d env environ yaml file fresh dump f1 f2 f3 f4 f5 own0 f before after :
  no_conflict (main_options d) -> (forall own, In own [update_options; resolve_options; []; install_options; compact_options; own0] -> no_conflict (command_options d own)) ->
  let ext := {| ce_name := u "ext"; ce_load := Ok (Some {| cd_title := u "install"; cd_own := own0; cd_config := fun d => Ok d; cd_main := f |}) |} in
  let run := xylem env environ yaml file fresh d (bundled_commands f1 f2 f3 f4 f5 ++ [ext]) dump before in
  In (u "ext") (match create_subparsers (bundled_commands f1 f2 f3 f4 f5 ++ [ext]) with Ok (_, listed) => listed | Err _ => [] end) /\
  run (u "ext") after = ([], SystemExit 2) /\
  run (u "install") after = xylem_main env environ yaml file fresh d own0 dump f before after.
Proof.
  intros N0 Hown ext run.
  set (b := fun t own f => {| cd_title := t; cd_own := own; cd_config := fun d => Ok d; cd_main := f |} : command_def).
  set (cds := [b (u "update") update_options f1; b (u "resolve") resolve_options f2; b (u "lookup") [] f3;
               b (u "install") install_options f4; b (u "_compact_rules_file") compact_options f5; b (u "install") own0 f]).
  assert (Ec : create_subparsers (bundled_commands f1 f2 f3 f4 f5 ++ [ext]) =
    Ok (cds, [u "update"; u "resolve"; u "lookup"; u "install"; u "ext"])) by reflexivity.
  assert (HA : forall cd, In cd cds -> cd_config cd d = Ok d /\ no_conflict (command_options d (cd_own cd))).
  { intros cd H; destruct H as [<-|[<-|[<-|[<-|[<-|[<-|[]]]]]]]; (split; [reflexivity|apply Hown; cbn [In cd_own]; tauto]). }
  destruct (add_all_same cds d [] HA) as (ps & E).
  split; [rewrite Ec; vm_compute; tauto|].
  assert (G1 : get (u "ext") ps = None).
  { rewrite (add_get_other _ _ _ _ _ _ E); [reflexivity|]; vm_compute; intros H; repeat (destruct H as [H|H]; [discriminate H|]); exact H. }
  assert (G2 : get (u "install") ps = Some (command_options d own0, f)).
  { destruct (add_get _ _ _ _ _ [b (u "update") update_options f1; b (u "resolve") resolve_options f2; b (u "lookup") [] f3;
               b (u "install") install_options f4; b (u "_compact_rules_file") compact_options f5] (b (u "install") own0 f) [] E eq_refl (fun H => H))
      as (d2 & Hd & _ & _ & Hg).
    cbn [describe app] in Hd; injection Hd as <-; exact Hg. }
  change (foldM add_command cds (d, [])) with (add_commands cds d) in E.
  unfold run, xylem; rewrite (parser_of_Ok _ N0); cbn [bind]; rewrite Ec; cbn [bind]; rewrite E; cbn [bind]; rewrite G1, G2.
  split; reflexivity.
Qed.

(** The name under which a command is run is the title in its definition, not the name that is listed; of several
    definitions with the same title the one discovered last is run. *)
Theorem C122_title_refuted env environ yaml file fresh dump f1 f2 f3 f4 f5 own f before after :
  no_conflict (command_options xd own) ->
  let ext := {| ce_name := u "ext"; ce_load := Ok (Some {| cd_title := u "install"; cd_own := own; cd_config := fun d => Ok d; cd_main := f |}) |} in
  let run := xylem env environ yaml file fresh xd (bundled_commands f1 f2 f3 f4 f5 ++ [ext]) dump before in
  In (u "ext") (match create_subparsers (bundled_commands f1 f2 f3 f4 f5 ++ [ext]) with Ok (_, listed) => listed | Err _ => [] end) /\
  run (u "ext") after = ([], SystemExit 2) /\
  run (u "install") after = xylem_main env environ yaml file fresh xd own dump f before after.
Proof.
  intros Hown; destruct xd_no_conflict as (N0 & N1 & N2 & N3 & N4 & N5).
  apply (title_run xd); [exact N0|].
  intros o [<-|[<-|[<-|[<-|[<-|[<-|[]]]]]]]; assumption.
Qed.

Lemma conflict_all env environ yaml file fresh d eps cds dump cd :
  NoDup (map ce_name eps) -> Forall2 defines eps cds -> In cd cds ->
  (forall d' p, cd_config cd d' = Ok p -> ~ no_conflict (command_options p (cd_own cd))) ->
  exists e, forall before name after, xylem env environ yaml file fresh d eps dump before name after = ([], e).
Proof.
  intros Hn HF Hin Hc; destruct (subparsers_all eps cds Hn HF) as (l & Ec).
  destruct (parser_of (main_options d)) as [top|e] eqn:Et.
  - destruct (add_commands cds d) as [[d' ps]|e] eqn:Ea.
    + exfalso; apply in_split in Hin; destruct Hin as (pre & post & ->); unfold add_commands in Ea.
      rewrite foldM_app in Ea; apply bind_Ok in Ea; destruct Ea as ([d1 ps1] & _ & Ea); cbn [foldM] in Ea.
      apply bind_Ok in Ea; destruct Ea as (s & E1 & _); unfold add_command, command_parser in E1; cbn [fst] in E1.
      destruct (cd_config cd d1) as [d2|] eqn:E2; [|discriminate]; cbn [bind] in E1.
      rewrite (parser_of_Err _ (Hc _ _ E2)) in E1; discriminate.
    + exists e; intros; unfold xylem; rewrite Et; cbn [bind]; rewrite Ec; cbn [bind]; rewrite Ea; reflexivity.
  - exists e; intros; unfold xylem; rewrite Et; reflexivity.
Qed.

Lemma conflict_flag p own f : In f (map o_flag own) -> In f (map o_flag global_options ++ [u "help"; u "version"]) ->
  ~ no_conflict (command_options p own).
Proof.
  unfold no_conflict, command_options; intros H1 H2 Hn; rewrite !map_app, <- app_assoc in Hn.
  assert (H3 : In f ((map o_flag (config_options p) ++ map o_flag global_options) ++ [u "help"; u "version"])).
  { rewrite <- app_assoc; apply in_or_app; right; exact H2. }
  clear H2; induction (map o_flag own) as [|x l IH]; [exact H1|]; cbn [app] in Hn; inversion Hn as [|? ? Hx Hn']; subst.
  destruct H1 as [->|H1]; [apply Hx, in_or_app; right; exact H3|exact (IH H1 Hn')].
Qed.

(** A plugin with an option of its own that is called like a global option takes all commands away. *)
Theorem C122_conflict_refuted env environ yaml file fresh d eps cds dump cd f :
  NoDup (map ce_name eps) -> Forall2 defines eps cds -> In cd cds ->
  In f (map o_flag (cd_own cd)) ->
  In f [u "verbose"; u "debug"; u "pdb"; u "no-color"; u "print-config"; u "no-user-config"; u "prefix"; u "xylem-dir"; u "help"; u "version"] ->
  exists e, forall before name after, xylem env environ yaml file fresh d eps dump before name after = ([], e).
Proof.
  intros Hn HF Hin Hf Hg; apply (conflict_all env environ yaml file fresh d eps cds dump cd Hn HF Hin).
  intros d' p _; exact (conflict_flag p (cd_own cd) f Hf Hg).
Qed.

(** ** Additions to the configuration *)
Lemma keys_add_defaults p (ns : namespace) k : In k (keys (add_defaults p ns)) <-> In k (map o_dest p) \/ In k (keys ns).
Proof.
  unfold add_defaults; revert ns; induction p as [|o p IH]; intros ns; cbn [fold_left map]; [simpl; tauto|].
  rewrite IH; destruct (get (o_dest o) ns) eqn:E.
  - assert (In (o_dest o) (keys ns)) by (apply get_Some_keys; eauto); simpl; split; [tauto|intros [[<-|H1]|H1]; tauto].
  - rewrite in_keys_set; simpl; split; intros H; decompose [or] H; subst; tauto.
Qed.

Lemma keys_copy_over (a b : namespace) k : In k (keys (copy_over a b)) <-> In k (keys a) \/ In k (keys b).
Proof.
  unfold copy_over; revert b; induction a as [|[x v] a IH]; intros b; cbn [fold_left]; [simpl; tauto|].
  rewrite IH, in_keys_set; cbn [fst keys map]; simpl; split; intros H; decompose [or] H; subst; tauto.
Qed.

Lemma keys_takes p occs (ns ns' : namespace) : has_dests p ns -> foldM (take p) occs ns = Ok ns' -> keys ns' = keys ns.
Proof.
  revert ns; induction occs as [|oc occs IH]; intros ns Hd E; cbn [foldM] in E; [congruence|].
  apply bind_Ok in E; destruct E as (ns1 & E1 & E); pose proof (take_keys _ _ _ _ Hd E1) as K.
  rewrite (IH ns1); [exact K|eapply keys_eq_has_dests; eassumption|exact E].
Qed.

(** Only the destinations of the two parsers are in the namespace. *)
Lemma parse_keys fresh top sub before after ns k : parse_command_line fresh top sub before after = Ok ns ->
  In k (keys ns) -> In k (map o_dest top) \/ In k (map o_dest sub).
Proof.
  unfold parse_command_line; intros E Hk; apply bind_Ok in E; destruct E as (ns1 & E1 & E); unfold parse_into in E1.
  pose proof (keys_takes _ _ _ _ (add_defaults_has top []) E1) as K1.
  assert (H1 : forall x, In x (keys ns1) -> In x (map o_dest top)).
  { intros x Hx; rewrite K1 in Hx; apply keys_add_defaults in Hx; destruct Hx as [Hx|[]]; exact Hx. }
  unfold call_subparser in E; destruct fresh.
  - apply bind_Ok in E; destruct E as (sns & E2 & E); injection E as <-; unfold parse_into in E2.
    change (In k (keys (copy_over sns ns1))) in Hk; apply keys_copy_over in Hk; destruct Hk as [Hk|Hk]; [right|left; apply H1; exact Hk].
    rewrite (keys_takes _ _ _ _ (add_defaults_has sub []) E2) in Hk; apply keys_add_defaults in Hk; destruct Hk as [Hk|[]]; exact Hk.
  - unfold parse_into in E; rewrite (keys_takes _ _ _ _ (add_defaults_has sub ns1) E) in Hk; apply keys_add_defaults in Hk.
    destruct Hk as [Hk|Hk]; [right; exact Hk|left; apply H1; exact Hk].
Qed.

Lemma handle_get env environ ns k : k <> u "prefix" -> k <> u "config_dir" ->
  get k (handle_global_config_arguments env environ ns) = get k ns.
Proof. intros H1 H2; unfold handle_global_config_arguments; rewrite !get_set_other by assumption; reflexivity. Qed.

Lemma ns_values_In d ns k v : In (k, v) (ns_values d ns) -> In (k, NVal v) ns.
Proof.
  unfold ns_values; intros H; apply in_flat_map in H; destruct H as ([k' w] & Hin & H); cbn [fst snd] in H.
  destruct w as [b|w]; [destruct H|]; destruct (existsb _ _); [|destruct H]; destruct H as [H|[]]; injection H as <- <-; exact Hin.
Qed.

Lemma missing_argument env environ yaml file d ns name it arg : names_ok d ->
  get name (d_items d) = Some it -> i_command_line it = true -> i_argument it = Some arg ->
  ~ In (underscorify arg) (keys ns) ->
  underscorify arg <> u "prefix" -> underscorify arg <> u "config_dir" ->
  exists e, effective_config env yaml file d (handle_global_config_arguments env environ ns) = Err e.
Proof.
  intros Hd Hg Hcl Ha Hk Hp1 Hp2; unfold effective_config, load_config.
  set (args := clargs_of d (handle_global_config_arguments env environ ns)).
  destruct (config_from_args env yaml args d) as [c|e] eqn:E; [|exists e; reflexivity].
  exfalso; unfold config_from_args in E; destruct (build_get _ _ _ _ Hd E) as (_ & _ & H).
  destruct (H name it Hg) as (v & Hv & _).
  assert (X : arg_value env yaml args it = Ok v) by (unfold item_value in Hv; destruct (is_group_name name); [destruct (split_group name)|]; exact Hv).
  unfold arg_value in X; rewrite Hcl, Ha in X; apply bind_Ok in X; destruct X as (w & X & _).
  unfold getitem in X; destruct (get (underscorify arg) (a_values args)) as [w'|] eqn:Ew; [|discriminate].
  apply get_In in Ew; apply ns_values_In in Ew.
  assert (K : In (underscorify arg) (keys (handle_global_config_arguments env environ ns))).
  { unfold keys; apply in_map_iff; exists (underscorify arg, NVal w'); split; [reflexivity|exact Ew]. }
  unfold handle_global_config_arguments in K; rewrite !in_keys_set in K; tauto.
Qed.

(** A plugin that adds an option for the command line to the configuration breaks every command discovered before
    it: whatever the command line, the command is never run. *)
Theorem C122_later_option_refuted env environ yaml file fresh d eps cds dump pre cd post d2 d3 name it arg :
  NoDup (map ce_name eps) -> Forall2 defines eps cds ->
  cds = pre ++ cd :: post -> ~ In (cd_title cd) (map cd_title post) ->
  describe (pre ++ [cd]) d = Ok d2 -> describe cds d = Ok d3 -> names_ok d3 ->
  get name (d_items d3) = Some it -> i_command_line it = true -> i_argument it = Some arg ->
  ~ In (underscorify arg) (map o_dest (main_options d)) ->
  ~ In (underscorify arg) (map o_dest (command_options d2 (cd_own cd))) ->
  forall before after, exists e, xylem env environ yaml file fresh d eps dump before (cd_title cd) after = ([], e).
Proof.
  intros Hn HF Hc Ht Hd2 Hd3 Hok Hg Hcl Ha Hm Hs before after; unfold xylem.
  destruct (parser_of (main_options d)) as [top|e] eqn:Et; [|exists e; reflexivity]; cbn [bind].
  destruct (parser_of_inv _ _ Et) as [-> _].
  destruct (subparsers_all eps cds Hn HF) as (l & ->); cbn [bind].
  destruct (add_commands cds d) as [[d' ps]|e] eqn:Ea; [|exists e; reflexivity]; cbn [bind].
  unfold add_commands in Ea; destruct (add_get _ _ _ _ _ pre cd post Ea Hc Ht) as (d2' & E2 & E3 & _ & Hps).
  rewrite Hd2 in E2; injection E2 as <-.
  rewrite (add_describe _ _ _ _ _ Ea) in Hd3; injection Hd3 as ->.
  rewrite Hps.
  destruct (parse_command_line fresh (main_options d) (command_options d2 (cd_own cd)) before after) as [ns|e] eqn:Ep; [|exists e; reflexivity].
  destruct (missing_argument env environ yaml file d3 ns name it arg Hok Hg Hcl Ha) as (e & Ee).
  - intros Hk; destruct (parse_keys _ _ _ _ _ _ _ Ep Hk); contradiction.
  - intros Hx; apply Hm; rewrite Hx; unfold main_options; rewrite map_app; apply in_or_app; right; vm_compute; tauto.
  - intros Hx; apply Hm; rewrite Hx; unfold main_options; rewrite map_app; apply in_or_app; right; vm_compute; tauto.
  - exists e; rewrite Ee; reflexivity.
Qed.

Lemma add_all cds d d3 ps : describe cds d = Ok d3 ->
  (forall pre cd post d', cds = pre ++ cd :: post -> describe (pre ++ [cd]) d = Ok d' -> no_conflict (command_options d' (cd_own cd))) ->
  exists ps', foldM add_command cds (d, ps) = Ok (d3, ps').
Proof.
  revert d ps; induction cds as [|cd cds IH]; intros d ps Hd Hc; cbn [foldM describe] in *; [injection Hd as <-; eexists; reflexivity|].
  destruct (cd_config cd d) as [d1|] eqn:E1; [|discriminate].
  unfold add_command, command_parser; cbn [fst snd]; rewrite E1; cbn [bind].
  rewrite parser_of_Ok by (apply (Hc [] cd cds d1 eq_refl); cbn [app describe]; rewrite E1; reflexivity); cbn [bind].
  apply IH; [exact Hd|]; intros pre x post d' -> Hx; apply (Hc (cd :: pre) x post d' eq_refl); cbn [app describe]; rewrite E1; exact Hx.
Qed.

(** If no plugin discovered after it adds to the configuration, a command accepts all options of the configuration,
    also those added by plugins discovered earlier, and the options have the given values. *)
Theorem C122_configuration_partial env environ yaml file fresh d eps cds dump pre cd post d3 after :
  NoDup (map ce_name eps) -> Forall2 defines eps cds ->
  cds = pre ++ cd :: post -> ~ In (cd_title cd) (map cd_title post) ->
  describe (pre ++ [cd]) d = Ok d3 -> describe cds d = Ok d3 ->
  no_conflict (main_options d) ->
  (forall pre cd post d', cds = pre ++ cd :: post -> describe (pre ++ [cd]) d = Ok d' -> no_conflict (command_options d' (cd_own cd))) ->
  clean d3 (cd_own cd) -> NoDup (map o_dest (main_options d)) -> incl (config_options d) (config_options d3) ->
  let run := xylem env environ yaml file fresh d eps dump [] (cd_title cd) after in
  (~ Forall (declared (command_options d3 (cd_own cd))) after -> run = ([], SystemExit 2)) /\
  (Forall (declared (command_options d3 (cd_own cd))) after ->
   exists ns,
     (forall o, In o (command_options d3 (cd_own cd)) -> exists v, get (o_dest o) ns = Some v /\ stands_for o after v) /\
     run = let ns' := handle_global_config_arguments env environ ns in
           match effective_config env yaml file d3 ns' with
           | Err e => ([], e)
           | Ok c => if ns_flag ns' (u "print_config") then ([Line (dump c)], SystemExit 0) else main (Ok tt) (cd_main cd ns' c)
           end).
Proof.
  intros Hn HF Hc Ht Hd2 Hd3 Hm Hall [Hf Hdd] Hmd Hi run.
  destruct (add_all cds d d3 [] Hd3 Hall) as (ps & E).
  destruct (add_get _ _ _ _ _ pre cd post E Hc Ht) as (d2 & E2 & _ & _ & Hps); rewrite Hd2 in E2; injection E2 as <-.
  assert (R : run = match foldM (take (command_options d3 (cd_own cd))) after (start fresh (main_options d) (command_options d3 (cd_own cd))) with
    | Err e => ([], e)
    | Ok ns => let ns' := handle_global_config_arguments env environ ns in
           match effective_config env yaml file d3 ns' with
           | Err e => ([], e)
           | Ok c => if ns_flag ns' (u "print_config") then ([Line (dump c)], SystemExit 0) else main (Ok tt) (cd_main cd ns' c)
           end end).
  { unfold run, xylem; rewrite (parser_of_Ok _ Hm); cbn [bind]; destruct (subparsers_all eps cds Hn HF) as (l & ->); cbn [bind].
    change (foldM add_command cds (d, [])) with (add_commands cds d) in E; rewrite E; cbn [bind]; rewrite Hps, parse_after; reflexivity. }
  destruct (takes_declared (command_options d3 (cd_own cd)) after (start fresh (main_options d) (command_options d3 (cd_own cd))) Hf) as [T1 T2].
  split; [intros Hnd; rewrite R, (T2 Hnd); reflexivity|].
  intros Hd; destruct (T1 Hd) as (ns & En); exists ns; rewrite En in R; split; [|exact R].
  intros o Ho; apply (takes_stands _ _ _ _ _ [] Hf Hdd Ho) in En; [exact En|].
  rewrite start_get; [|exact Hdd| | |exact Ho].
  - eexists; split; [reflexivity|]; unfold stands_for, default_value; destruct (o_action o); try reflexivity.
    exists false; split; [reflexivity|split; [discriminate|intros (v & [])]].
  - intros x Hx; unfold main_options in Hx; apply in_app_or in Hx; apply main_in_command; unfold main_options; apply in_or_app.
    destruct Hx as [Hx|Hx]; [left; apply Hi; exact Hx|right; exact Hx].
  - exact Hmd.
Qed.

(** ** Non-vacuity *)
(** A plugin that adds the option --pager to the configuration. *)
Definition pager_item : item := make_item (u "pager") TString VNone (Some true) None None.
Definition pager_def (f : namespace -> pydict -> run_of unit) : command_def :=
  {| cd_title := u "browse"; cd_own := []; cd_main := f;
     cd_config := fun d => match add d pager_item with (d', Ok _) => Ok d' | (_, Err e) => Err e end |}.
Definition pager_ep f : command_ep command_def := {| ce_name := u "browse"; ce_load := Ok (Some (pager_def f)) |}.
Definition xd_pager : desc := fst (add xd pager_item).

Lemma xd_names_ok : names_ok xd.
Proof.
  destruct C46_xylem_flags as (d & E & Hr & _); apply reachable_names_ok.
  assert (X : xd = d) by (unfold xd; rewrite E; reflexivity); rewrite X; exact Hr.
Qed.

Lemma pager_facts : snd (add xd pager_item) = Ok tt /\ get (u "pager") (d_items xd_pager) = Some pager_item /\
  i_command_line pager_item = true /\ i_argument pager_item = Some (u "pager") /\
  mem (u "pager") (map o_dest (command_options xd update_options)) = false /\
  distinct (map o_flag (command_options xd_pager update_options) ++ help_flags) = true /\
  distinct (map o_flag (command_options xd_pager []) ++ help_flags) = true.
Proof. vm_compute; repeat split. Qed.

Lemma pager_describe f : cd_config (pager_def f) xd = Ok xd_pager.
Proof.
  cbn [pager_def cd_config]; unfold xd_pager; pose proof (proj1 pager_facts) as H.
  destruct (add xd pager_item) as [d' r]; cbn [fst snd] in *; subst r; reflexivity.
Qed.

(** The hypotheses of the theorems are met, and what the commands of this set do. *)
Definition update_def f : command_def := {| cd_title := u "update"; cd_own := update_options; cd_config := fun d => Ok d; cd_main := f |}.

(** Any command discovered before the plugin fails, whatever the command line. *)
Example C122_later_option_met f g before after :
  exists e, xylem x_env [] x_yaml no_file true xd [bundled_command (u "update") update_options f; pager_ep g] x_dump before (u "update") after = ([], e).
Proof.
  destruct pager_facts as (H1 & H2 & H3 & H4 & H5 & _).
  apply (C122_later_option_refuted x_env [] x_yaml no_file true xd _ [update_def f; pager_def g] x_dump [] (update_def f) [pager_def g] xd xd_pager
           (u "pager") pager_item (u "pager")); try assumption.
  - apply (proj1 (CacheProofs.distinct_NoDup _)); reflexivity.
  - repeat constructor.
  - reflexivity.
  - vm_compute; intros [H|[]]; discriminate.
  - reflexivity.
  - change (describe [update_def f; pager_def g] xd) with (match cd_config (pager_def g) xd with Ok d' => Ok d' | Err e => Err e end).
    rewrite pager_describe; reflexivity.
  - apply add_names_ok, xd_names_ok.
  - change (underscorify (u "pager")) with (u "pager"); intros H.
    apply (proj1 (mem_not_In _ _) H5); unfold command_options; rewrite map_app; apply in_or_app; right; exact H.
  - change (underscorify (u "pager")) with (u "pager"); apply (proj1 (mem_not_In _ _) H5).
Qed.

Definition says (t : text) : namespace -> pydict -> run_of unit := fun _ _ => ([Line t], Ok tt).

Example C122_nonvacuous :
  let run eps := xylem x_env [] x_yaml no_file true xd eps x_dump [] in
  let up := bundled_command (u "update") update_options (says (u "updated")) in
  let br := pager_ep (says (u "browsing")) in
  run [up; br] (u "update") [] = ([], KeyError) /\
  run [up; br] (u "browse") [(u "pager", Some (u "less"))] = ([Line (u "browsing")], SystemExit 0) /\
  run [br; up] (u "update") [(u "pager", Some (u "less")); (u "dry-run", None)] = ([Line (u "updated")], SystemExit 0) /\
  run [br; up] (u "browse") [(u "dry-run", None)] = ([], SystemExit 2) /\
  run (bundled_commands (says (u "1")) (says (u "2")) (says (u "3")) (says (u "4")) (says (u "5"))) (u "install") [(u "all", None)]
    = ([Line (u "4")], SystemExit 0).
Proof. vm_compute; repeat split. Qed.

Print Assumptions C122_runs_partial.
Print Assumptions C122_bundled_partial.
Print Assumptions C122_title_refuted.
Print Assumptions C122_conflict_refuted.
Print Assumptions C122_later_option_refuted.
Print Assumptions C122_configuration_partial.
