(** C106: a configuration that was printed and stored in a file can be loaded again. *)
From Verif Require Import Base Dict PyVal Sources Util Paths Config ConfigSpec ConfigTypeProofs ConfigProofs
  XylemConfig SourcesSpec CacheProofs Order ConfigReload PropConfig.

(** No configuration option is given on the command line: argparse stores [None] for each. *)
Definition no_options (d : desc) (args : clargs) : Prop :=
  forall name it arg, get name (d_items d) = Some it -> i_command_line it = true -> i_argument it = Some arg ->
    get (underscorify arg) (a_values args) = Some CLNone.

(** Options on the command line have an argument name. *)
Definition arguments_named (d : desc) : Prop :=
  forall name it, get name (d_items d) = Some it -> i_command_line it = true -> exists arg, i_argument it = Some arg.

(** What --print-config shows and commands get, config.py:218-231: the loaded configuration
    after [process_config]. *)
Definition effective env yaml file d args : res pydict :=
  let* c := load_config env yaml file args d (u "xylem") in process_config env c args.

Lemma no_options_unset env yaml d args name it : no_options d args -> arguments_named d ->
  get name (d_items d) = Some it -> arg_value env yaml args it = Ok (unset (i_type it)).
Proof.
  intros Hn Hnm Hit; unfold arg_value; destruct (i_command_line it) eqn:Ec; [|reflexivity].
  destruct (Hnm name it Hit Ec) as [arg Ea]; rewrite Ea; unfold getitem.
  rewrite (Hn name it arg Hit Ec Ea); cbn [bind]; reflexivity.
Qed.

(** For any set of options: a loaded configuration [c], written to a file with the keys in any
    order and possibly other entries ([c0]), is loaded from there with every option as before,
    whatever the command line, files and environment were. *)
Theorem C106_reload env yaml file args env2 yaml2 file2 args2 d tool dir s c c0 :
  reachable d -> arguments_named d -> env_ok env -> env_ok env2 ->
  (forall name it, In (name, it) (d_items d) -> from_yaml env (i_type it) (i_default it) = Ok (i_default it)) ->
  load_config env yaml file args d tool = Ok c ->
  (forall k v, In (k, v) c0 -> exists t, k = KStr t) ->
  (forall name it v, In (name, it) (d_items d) -> option_at name c v ->
     exists v', option_at name c0 v' /\ same_value v v') ->
  a_config_dir args2 = Some dir -> no_options d args2 ->
  file2 (path_join dir (d_namespace d)) = Some (Ok s) -> yaml2 s = Ok (VDict c0) ->
  exists c2, load_config env2 yaml2 file2 args2 d tool = Ok c2 /\
    forall name it v, In (name, it) (d_items d) -> option_at name c v ->
      exists v', option_at name c2 v' /\ same_value v v'.
Proof.
  intros Hr Hnm He He2 Hdf El Ht Hs Hdir Hno Hf Hy; apply reachable_names_ok in Hr.
  destruct (reload_values env2 yaml2 file2 args2 d tool dir s c c0) as (c2 & E2 & H2); try assumption.
  - eapply reloadable_env; [exact He|]; eapply loaded_reloadable; [exact He|exact Hr|exact Hdf|exact El].
  - intros name it Hin; eapply settled_env; [exact He|exact (Hdf name it Hin)].
  - intros name it v Hit; apply get_In in Hit; apply Hs with it; exact Hit.
  - unfold config_dirs; rewrite Hdir; reflexivity.
  - intros name it Hit; eapply no_options_unset; eassumption.
  - exists c2; split; [exact E2|]; intros name it v Hin; apply items_In in Hin; [|exact Hr]; exact (H2 name it v Hin).
Qed.

(** The file holds exactly what was loaded. *)
Theorem C106_reload_same env yaml file args env2 yaml2 file2 args2 d tool dir s c :
  reachable d -> arguments_named d -> env_ok env -> env_ok env2 ->
  (forall name it, In (name, it) (d_items d) -> from_yaml env (i_type it) (i_default it) = Ok (i_default it)) ->
  load_config env yaml file args d tool = Ok c ->
  a_config_dir args2 = Some dir -> no_options d args2 ->
  file2 (path_join dir (d_namespace d)) = Some (Ok s) -> yaml2 s = Ok (VDict c) ->
  exists c2, load_config env2 yaml2 file2 args2 d tool = Ok c2 /\
    forall name it v, In (name, it) (d_items d) -> option_at name c v ->
      exists v', option_at name c2 v' /\ same_value v v'.
Proof.
  intros Hr Hnm He He2 Hdf El Hdir Hno Hf Hy.
  apply (C106_reload env yaml file args env2 yaml2 file2 args2 d tool dir s c c); try assumption.
  - apply (load_text_keys env yaml file args d tool c (reachable_names_ok _ Hr) El).
  - intros name it v _ Hv; exists v; split; [exact Hv|left; reflexivity].
Qed.

(** ** xylem's own options *)
Definition xdesc : desc := description_of (u "config.yaml") xylem_items.

Lemma xdesc_built d : build_config_description = Ok d -> d = xdesc.
Proof. intros E; vm_compute in E; injection E as <-; vm_compute; reflexivity. Qed.

Lemma xdesc_reachable : reachable xdesc.
Proof. exists (u "config.yaml"), xylem_items; reflexivity. Qed.

Definition it_override : item := make_item (u "os_override") TString VNone None (Some (u "os")) (Some (u "name:version")).
Definition it_features : item := make_item (u "os_options/features") (TList TString) VNone None (Some (u "os-features")) (Some (u "features")).
Definition it_cache : item := make_item (u "cache_dir") TPath VNone (Some true) None None.
Definition it_sources : item := make_item (u "sources_dir") TPath VNone (Some true) None None.
Definition it_disabled : item := make_item (u "disabled_plugins/os") (TList TString) (VList []) None (Some (u "disable-os-plugins")) None.
Lemma x_override : get (u "os_override") (d_items xdesc) = Some it_override. Proof. vm_compute; reflexivity. Qed.
Lemma x_features : get (u "os_options/features") (d_items xdesc) = Some it_features. Proof. vm_compute; reflexivity. Qed.
Lemma x_cache : get (u "cache_dir") (d_items xdesc) = Some it_cache. Proof. vm_compute; reflexivity. Qed.
Lemma x_sources : get (u "sources_dir") (d_items xdesc) = Some it_sources. Proof. vm_compute; reflexivity. Qed.
Lemma x_disabled : get (u "disabled_plugins/os") (d_items xdesc) = Some it_disabled. Proof. vm_compute; reflexivity. Qed.
Lemma x_groups : keys (d_groups xdesc) = [u "os_options"; u "disabled_plugins"]. Proof. vm_compute; reflexivity. Qed.

Lemma xdesc_named : arguments_named xdesc.
Proof.
  intros name it H _; apply get_In in H; unfold xdesc in H; vm_compute in H.
  repeat (destruct H as [H|H]; [injection H as <- <-; eexists; reflexivity|]); contradiction.
Qed.

Lemma xdesc_defaults env name it : In (name, it) (d_items xdesc) -> from_yaml env (i_type it) (i_default it) = Ok (i_default it).
Proof.
  intros H; unfold xdesc in H; vm_compute in H.
  repeat (destruct H as [H|H]; [injection H as <- <-; reflexivity|]); contradiction.
Qed.

Definition touches (n name : text) : bool :=
  if is_group_name name then eqb (fst (split_group name)) n else eqb name n.

Lemma conf_get_set n name v c : touches n name = false -> conf_get name (set (KStr n) v c) = conf_get name c.
Proof.
  unfold touches, conf_get; destruct (is_group_name name).
  - destruct (split_group name) as [g s]; cbn [fst]; intros H; destruct (eqb_spec g n) as [->|Hne]; [discriminate|].
    rewrite get_set_other by congruence; reflexivity.
  - intros H; destruct (eqb_spec name n) as [->|Hne]; [discriminate|]; rewrite get_set_other by congruence; reflexivity.
Qed.

Lemma reloadable_set env n p c : n = u "cache_dir" \/ n = u "sources_dir" -> normal_abs p ->
  reloadable env xdesc c -> reloadable env xdesc (set (KStr n) (VStr p) c).
Proof.
  intros Hn Hp Hr name it Hit; pose proof (Hr name it Hit) as (v & Hv & Hs & Hm).
  destruct (touches n name) eqn:Et; [|exists v; rewrite conf_get_set by exact Et; auto].
  assert (E : name = n /\ i_type it = TPath /\ i_default it = VNone).
  { apply get_In in Hit; unfold xdesc in Hit; vm_compute in Hit; destruct Hn as [-> | ->];
      repeat (destruct Hit as [Hit|Hit];
        [injection Hit as <- <-; first [vm_compute in Et; discriminate Et|vm_compute; repeat split; reflexivity]|]); contradiction. }
  destruct E as (-> & -> & ->); exists (VStr p); split; [|split; [|reflexivity]].
  - unfold conf_get; assert (G : is_group_name n = false) by (destruct Hn as [-> | ->]; reflexivity).
    rewrite G, get_set_same; reflexivity.
  - unfold settled; cbn [from_yaml]; cbn; rewrite expand_input_path_id by exact Hp; reflexivity.
Qed.

(** Directories in the environment and on the command line are absolute, as
    [handle_global_config_arguments] leaves them. *)
Definition places_ok (env : penv) (args : clargs) : Prop :=
  (exists h, home env [] = Some h /\ normal_abs h) /\ normal_abs (a_prefix args) /\
  (forall dir, a_config_dir args = Some dir -> normal_abs dir).

Local Ltac comp := (repeat split; try (vm_compute; discriminate); vm_compute; intuition discriminate).

Lemma user_dir_normal env h : home env [] = Some h -> normal_abs h -> normal_abs (expanduser env (u "~/.config")).
Proof.
  intros Hh Hn; pose proof (rstrip_normal h Hn) as R.
  assert (E : expanduser env (u "~/.config") = rstrip_slash h ++ u "/.config").
  { transitivity (match home env [] with
                  | None => u "~/.config"
                  | Some h => match rstrip_slash h ++ u "/.config" with [] => [slash] | r => r end
                  end); [reflexivity|]; rewrite Hh.
    destruct (rstrip_slash h ++ u "/.config") as [|x r] eqn:E; [|reflexivity].
    apply (f_equal (@List.length N)) in E; rewrite app_length in E; cbn in E; lia. }
  rewrite E; exact R.
Qed.

Lemma chosen_normal env args : places_ok env args ->
  let user := path_join (expanduser env (u "~/.config")) (u "xylem") in
  normal_abs (path_join user (u "cache")) /\ normal_abs (path_join user (u "sources.d")) /\
  normal_abs (path_join (path_join (a_prefix args) (u "var/cache")) (u "xylem")) /\
  normal_abs (path_join (path_join (path_join (a_prefix args) (u "etc")) (u "xylem")) (u "sources.d")) /\
  (forall dir, a_config_dir args = Some dir -> normal_abs (path_join dir (u "cache")) /\ normal_abs (path_join dir (u "sources.d"))).
Proof.
  intros ((h & Hh & Hn) & Hp & Hd) user.
  assert (Hx : normal_comp (u "xylem")) by comp. assert (Hca : normal_comp (u "cache")) by comp.
  assert (Hso : normal_comp (u "sources.d")) by comp. assert (He : normal_comp (u "etc")) by comp.
  assert (Hv : normal_comp (u "var")) by comp.
  assert (Hu : normal_abs user) by (apply normal_path_join; [eapply user_dir_normal; eassumption|exact Hx]).
  split; [apply normal_path_join; assumption|]; split; [apply normal_path_join; assumption|].
  split; [|split; [repeat apply normal_path_join; assumption|]].
  - change (u "var/cache") with (u "var" ++ slash :: u "cache").
    pose proof Hv as (V1 & V2 & _); pose proof Hca as (C1 & C2 & _).
    rewrite path_join_two by assumption; repeat apply normal_path_join; assumption.
  - intros dir E; apply Hd in E; split; apply normal_path_join; assumption.
Qed.

(** Post-processing keeps a configuration loadable unless an operating system is configured. *)
Lemma process_reloadable env args c c' : env_ok env -> places_ok env args -> reloadable env xdesc c ->
  process_config env c args = Ok c' -> get (KStr (u "os_override")) c' = Some VNone ->
  reloadable env xdesc c' /\ (text_keys c -> text_keys c') /\
  (exists p, get (KStr (u "cache_dir")) c' = Some (VStr p)) /\ (exists p, get (KStr (u "sources_dir")) c' = Some (VStr p)).
Proof.
  intros He Hp Hr E Ho; unfold process_config in E.
  destruct (chosen_normal env args Hp) as (N1 & N2 & N3 & N4 & N5).
  apply bind_Ok in E; destruct E as (cache & Ec & E); apply bind_Ok in E; destruct E as (c1 & E1 & E).
  assert (H1 : reloadable env xdesc c1 /\ (text_keys c -> text_keys c1) /\
               exists p, get (KStr (u "cache_dir")) c1 = Some (VStr p)).
  { assert (A : forall p, normal_abs p ->
      let c1 := set (KStr (u "cache_dir")) (VStr p) c in
      reloadable env xdesc c1 /\ (text_keys c -> text_keys c1) /\ exists p, get (KStr (u "cache_dir")) c1 = Some (VStr p)).
    { intros p Hpn; split; [apply reloadable_set; [left; reflexivity|exact Hpn|exact Hr]|].
      split; [intros T; apply text_keys_set; exact T|]; exists p; apply get_set_same. }
    destruct (Hr (u "cache_dir") _ x_cache) as (v & Hv & Hs & _); apply settled_typed in Hs.
    unfold attr in Ec; change (conf_get (u "cache_dir") c) with (get (KStr (u "cache_dir")) c) in Hv.
    rewrite Hv in Ec; injection Ec as <-; destruct Hs as [->|[t ->]].
    2: { injection E1 as <-; split; [exact Hr|]; split; [auto|eauto]. }
    destruct (a_config_dir args) as [[|x dir]|] eqn:Ed.
    - apply bind_Ok in E1; destruct E1 as (us & _ & E1); injection E1 as <-; destruct (truthy us); apply A; assumption.
    - injection E1 as <-; apply A, (N5 _ eq_refl).
    - apply bind_Ok in E1; destruct E1 as (us & _ & E1); injection E1 as <-; destruct (truthy us); apply A; assumption. }
  destruct H1 as (Hr1 & Ht1 & pc & Hc1); clear E1.
  apply bind_Ok in E; destruct E as (sources & Es & E); apply bind_Ok in E; destruct E as (c2 & E2 & E).
  assert (H2 : reloadable env xdesc c2 /\ (text_keys c -> text_keys c2) /\
               (exists p, get (KStr (u "cache_dir")) c2 = Some (VStr p)) /\
               exists p, get (KStr (u "sources_dir")) c2 = Some (VStr p)).
  { assert (A : forall p, normal_abs p ->
      let c2 := set (KStr (u "sources_dir")) (VStr p) c1 in
      reloadable env xdesc c2 /\ (text_keys c -> text_keys c2) /\ (exists p, get (KStr (u "cache_dir")) c2 = Some (VStr p)) /\
      exists p, get (KStr (u "sources_dir")) c2 = Some (VStr p)).
    { intros p Hpn c3; split; [apply reloadable_set; [right; reflexivity|exact Hpn|exact Hr1]|].
      split; [intros T; apply text_keys_set; apply Ht1; exact T|]; split; [|exists p; apply get_set_same].
      exists pc; unfold c3; rewrite get_set_other; [exact Hc1|vm_compute; discriminate]. }
    destruct (Hr1 (u "sources_dir") _ x_sources) as (v & Hv & Hs & _); apply settled_typed in Hs.
    unfold attr in Es; change (conf_get (u "sources_dir") c1) with (get (KStr (u "sources_dir")) c1) in Hv.
    rewrite Hv in Es; injection Es as <-; destruct Hs as [->|[t ->]].
    2: { injection E2 as <-; split; [exact Hr1|]; split; [auto|eauto]. }
    destruct (a_config_dir args) as [[|x dir]|] eqn:Ed.
    - apply bind_Ok in E2; destruct E2 as (us & _ & E2); injection E2 as <-; destruct (truthy us); apply A; assumption.
    - injection E2 as <-; apply A, (N5 _ eq_refl).
    - apply bind_Ok in E2; destruct E2 as (us & _ & E2); injection E2 as <-; destruct (truthy us); apply A; assumption. }
  destruct H2 as (Hr2 & Ht2 & P1 & P2); clear E2.
  apply bind_Ok in E; destruct E as (ov & Eov & E); unfold attr in Eov.
  destruct (get (KStr (u "os_override")) c2) as [ov'|] eqn:Eo; [|discriminate]; injection Eov as ->.
  destruct ov as [| | | |t| |]; try discriminate; [injection E as <-; auto|].
  exfalso; destruct (parse_os_override t) as [[nm ver] feats].
  destruct feats as [fs|]; [apply bind_Ok in E; destruct E as (oo & _ & E); destruct oo; try discriminate|];
    injection E as <-; [rewrite get_set_other in Ho by (vm_compute; discriminate)|];
    rewrite get_set_same in Ho; discriminate.
Qed.

(** The settings of a configuration found in another one. *)
Definition has_settings (d : desc) (c c0 : pydict) : Prop :=
  forall name it v, In (name, it) (d_items d) -> option_at name c v ->
    exists v', option_at name c0 v' /\ same_value v v'.

(** The full claim: what --print-config shows, stored as config.yaml in a directory, gives the
    same effective configuration when that directory is used.  It holds while no operating
    system is configured. *)
Theorem C106_printed_partial env yaml file args env2 yaml2 file2 args2 d dir s c c0 :
  build_config_description = Ok d -> env_ok env -> places_ok env args -> env_ok env2 ->
  effective env yaml file d args = Ok c -> get (KStr (u "os_override")) c = Some VNone ->
  (forall k v, In (k, v) c0 -> exists t, k = KStr t) -> has_settings d c c0 ->
  a_config_dir args2 = Some dir -> no_options d args2 ->
  file2 (path_join dir (u "config.yaml")) = Some (Ok s) -> yaml2 s = Ok (VDict c0) ->
  exists c2, effective env2 yaml2 file2 d args2 = Ok c2 /\ has_settings d c c2.
Proof.
  intros Ed He Hpl He2 Ee Ho Ht Hs Hdir Hno Hf Hy; apply xdesc_built in Ed; subst d.
  pose proof (reachable_names_ok _ xdesc_reachable) as Hd.
  unfold effective in Ee; apply bind_Ok in Ee; destruct Ee as (l & El & Ep).
  assert (Hl : reloadable env xdesc l) by (eapply loaded_reloadable; [exact He|exact Hd|apply xdesc_defaults|exact El]).
  destruct (process_reloadable env args l c He Hpl Hl Ep Ho) as (Hr & _ & (pc & Hc) & (ps & Hsd)).
  destruct (reload_values env2 yaml2 file2 args2 xdesc (u "xylem") dir s c c0) as (c2 & E2 & H2); try assumption.
  - exact (reloadable_env env env2 _ _ He Hr).
  - intros name it Hin; apply xdesc_defaults with name; exact Hin.
  - intros name it v Hit; apply get_In in Hit; apply Hs with it; exact Hit.
  - unfold config_dirs; rewrite Hdir; reflexivity.
  - intros name it Hit; eapply no_options_unset; [exact Hno|exact xdesc_named|exact Hit].
  - exists c2; split.
    2: { intros name it v Hin; apply items_In in Hin; [|exact Hd]; exact (H2 name it v Hin). }
    assert (S : forall n it v, get n (d_items xdesc) = Some it -> is_group_name n = false ->
      match v with VNone | VStr _ => True | _ => False end ->
      get (KStr n) c = Some v -> get (KStr n) c2 = Some v).
    { intros n it v Hit Hg Hv Hgc; destruct (H2 n it v Hit) as (v' & Hv' & Hsv).
      - apply option_at_get; unfold conf_get; rewrite Hg; exact Hgc.
      - apply option_at_get in Hv'; unfold conf_get in Hv'; rewrite Hg in Hv'; rewrite Hv'; f_equal.
        destruct Hsv as [<-|Hsv]; [reflexivity|]; destruct v; try contradiction; apply veq_cases in Hsv; exact Hsv. }
    unfold effective; rewrite E2; cbn [bind]; unfold process_config, attr.
    rewrite (S (u "cache_dir") _ (VStr pc) x_cache eq_refl I Hc); cbn [bind].
    rewrite (S (u "sources_dir") _ (VStr ps) x_sources eq_refl I Hsd); cbn [bind].
    rewrite (S (u "os_override") _ VNone x_override eq_refl I Ho); cbn [bind]; reflexivity.
Qed.

Lemma process_groups env args c c' : process_config env c args = Ok c' ->
  (forall n, n = u "os_options/features" \/ n = u "disabled_plugins/os" -> exists v, conf_get n c = Some v) ->
  forall n, n = u "os_options/features" \/ n = u "disabled_plugins/os" -> exists v, conf_get n c' = Some v.
Proof.
  intros E H; unfold process_config in E.
  assert (K : forall c k x, (forall n, n = u "os_options/features" \/ n = u "disabled_plugins/os" -> exists v, conf_get n c = Some v) ->
    touches k (u "os_options/features") = false -> touches k (u "disabled_plugins/os") = false ->
    forall n, n = u "os_options/features" \/ n = u "disabled_plugins/os" -> exists v, conf_get n (set (KStr k) x c) = Some v).
  { intros c0 k x H0 T1 T2 n Hn; rewrite conf_get_set; [apply H0; exact Hn|].
    destruct Hn as [-> | ->]; assumption. }
  apply bind_Ok in E; destruct E as (cache & Ec & E); apply bind_Ok in E; destruct E as (c1 & E1 & E).
  assert (H1 : forall n, n = u "os_options/features" \/ n = u "disabled_plugins/os" -> exists v, conf_get n c1 = Some v).
  { destruct cache; try (injection E1 as <-; exact H); destruct (a_config_dir args) as [[|x dir]|];
      repeat (apply bind_Ok in E1; destruct E1 as (? & _ & E1)); injection E1 as <-; apply K; try reflexivity; exact H. }
  apply bind_Ok in E; destruct E as (srcs & Es & E); apply bind_Ok in E; destruct E as (c2 & E2 & E).
  assert (H2 : forall n, n = u "os_options/features" \/ n = u "disabled_plugins/os" -> exists v, conf_get n c2 = Some v).
  { destruct srcs; try (injection E2 as <-; exact H1); destruct (a_config_dir args) as [[|x dir]|];
      repeat (apply bind_Ok in E2; destruct E2 as (? & _ & E2)); injection E2 as <-; apply K; try reflexivity; exact H1. }
  apply bind_Ok in E; destruct E as (ov & _ & E); destruct ov as [| | | |t| |]; try discriminate; [injection E as <-; exact H2|].
  destruct (parse_os_override t) as [[nm ver] feats].
  destruct feats as [fs|]; [|injection E as <-; apply K; try reflexivity; exact H2].
  apply bind_Ok in E; destruct E as (oo & Eo & E); destruct oo as [| | | | | |gd]; try discriminate; injection E as <-.
  intros n [-> | ->].
  - eexists; unfold conf_get; change (is_group_name (u "os_options/features")) with true.
    change (split_group (u "os_options/features")) with (u "os_options", u "features"); cbn iota beta.
    rewrite get_set_same, get_set_same; reflexivity.
  - rewrite conf_get_set by reflexivity; rewrite conf_get_set by reflexivity; apply H2; right; reflexivity.
Qed.

(** Once an operating system is configured (config.yaml or --os), what --print-config shows is
    rejected when it is loaded: the pair of name and version is printed as a list, but the
    option is a string. *)
Theorem C106_override_refuted env yaml file args env2 yaml2 file2 args2 d dir s c c0 ov :
  build_config_description = Ok d -> env_ok env ->
  effective env yaml file d args = Ok c -> get (KStr (u "os_override")) c = Some ov -> ov <> VNone ->
  (forall k v, In (k, v) c0 -> exists t, k = KStr t) -> has_settings d c c0 ->
  a_config_dir args2 = Some dir -> no_options d args2 ->
  file2 (path_join dir (u "config.yaml")) = Some (Ok s) -> yaml2 s = Ok (VDict c0) ->
  effective env2 yaml2 file2 d args2 = Err ConfigValueError.
Proof.
  intros Ed He Ee Ho Hov Ht Hs Hdir Hno Hf Hy; pose proof Ed as Ed'; apply xdesc_built in Ed; subst d.
  pose proof (reachable_names_ok _ xdesc_reachable) as Hd.
  unfold effective in Ee; apply bind_Ok in Ee; destruct Ee as (l & El & Ep).
  destruct (load_config_values _ _ _ _ _ _ _ Hd El) as [Hcl _].
  assert (Hg : forall n, n = u "os_options/features" \/ n = u "disabled_plugins/os" -> exists v, conf_get n c = Some v).
  { apply (process_groups env args l c Ep); intros n [-> | ->];
      [exact (proj1 (complete_get _ _) Hcl _ _ x_features)|exact (proj1 (complete_get _ _) Hcl _ _ x_disabled)]. }
  assert (Hlist : exists a b, ov = VList [a; b]).
  { destruct (C66_post_processing_total env yaml file args xdesc l Ed' El) as (c' & Ep' & Hc').
    assert (c' = c) by congruence; subst c'.
    destruct Hc' as [[_ H]|(t & nm & ver & feats & _ & _ & H & _)]; [congruence|].
    rewrite H in Ho; injection Ho as <-; eauto. }
  destruct Hlist as (x & y & ->).
  assert (Hov0 : exists l0, option_at (u "os_override") c0 (VList l0)).
  { destruct (Hs (u "os_override") _ (VList [x; y]) (get_In _ _ _ x_override)) as (v' & Hv' & Hsv).
    - apply option_at_get; exact Ho.
    - destruct Hsv as [<-|Hsv]; [eauto|]; apply veq_cases in Hsv; destruct Hsv as (l' & -> & _); eauto. }
  assert (Hm : groups_are_mappings xdesc c0).
  { assert (G : forall n g sub it, In (n, it) (d_items xdesc) -> is_group_name n = true -> split_group n = (g, sub) ->
      (exists v, conf_get n c = Some v) -> exists gd, get (KStr g) c0 = Some (VDict gd)).
    { intros n g sub it Hin Hgn Hsp [v Hv]; destruct (Hs n it v Hin) as (v' & Hv' & _); [apply option_at_get; exact Hv|].
      apply option_at_get in Hv'; unfold conf_get in Hv'; rewrite Hgn, Hsp in Hv'.
      destruct (get (KStr g) c0) as [[| | | | | |gd]|]; try discriminate Hv'; exists gd; reflexivity. }
    intros g Hin; right; rewrite x_groups in Hin; destruct Hin as [<-|[<-|[]]].
    - exact (G _ _ _ _ (get_In _ _ _ x_features) eq_refl eq_refl (Hg _ (or_introl eq_refl))).
    - exact (G _ _ _ _ (get_In _ _ _ x_disabled) eq_refl eq_refl (Hg _ (or_intror eq_refl))). }
  unfold effective, load_config; unfold config_dirs; rewrite Hdir.
  assert (Ha : exists a, config_from_args env2 yaml2 args2 xdesc = Ok a).
  { unfold config_from_args; apply build_total; [exact Hd|]; intros name it Hit.
    rewrite item_value_const, (no_options_unset env2 yaml2 xdesc args2 name it Hno xdesc_named Hit); eauto. }
  destruct Ha as [a Ea]; rewrite Ea; cbn [bind mapM].
  assert (Hp : process_config_file_yaml (VDict c0) = Ok c0).
  { cbn [process_config_file_yaml].
    assert (F : forallb (fun p : pkey * pyval => match fst p with KStr _ => true | _ => false end) c0 = true).
    { apply forallb_forall; intros [k v] Hin; destruct (Ht k v Hin) as [z ->]; reflexivity. }
    rewrite F; reflexivity. }
  assert (Hl : load_config_file_yaml yaml2 file2 (path_join dir (d_namespace xdesc)) = Ok c0).
  { unfold load_config_file_yaml; change (d_namespace xdesc) with (u "config.yaml"); rewrite Hf, Hy; cbn [bind].
    rewrite Hp; reflexivity. }
  unfold config_from_file; rewrite Hl; cbn [bind].
  destruct (config_from_contents env2 xdesc (VDict c0)) as [f|e] eqn:Ec.
  - exfalso; assert (Ok0 : file_ok xdesc (VDict c0)) by (apply (C50_accepts_exactly env2 xdesc _ xdesc_reachable); eauto).
    destruct Ok0 as [|(data & E0 & _ & _ & Hy0)]; [discriminate|]; injection E0 as <-.
    destruct Hov0 as [l0 Hl0].
    specialize (Hy0 (u "os_override") _ (VList l0) (get_In _ _ _ x_override) (or_introl Hl0)); cbn in Hy0.
    destruct Hy0 as [H|[? H]]; discriminate H.
  - pose proof (C50_rejection_error_partial env2 xdesc (VDict c0) e xdesc_reachable) as Hre.
    rewrite Hre in Ec; [|intros data E0; injection E0 as <-; exact Hm|exact Ec].
    unfold config_from_contents in Ec; rewrite Hp in Ec; cbn [bind] in Ec; rewrite Ec; reflexivity.
Qed.

(** A run with user sources configured, and the same after storing what was printed, with keys
    in another order, in "/d/config.yaml"; the same with an operating system given. *)
Definition ex_env : penv := {| home := fun _ => Some (u "/home/me"); cwd := u "/" |}.
Definition ex_yaml (s : text) : res pyval :=
  if eqb s (u "1") then Ok (VDict [(KStr (u "user_sources"), VBool true);
                                   (KStr (u "install_from"), VDict [(KStr (u "b"), VList [VStr (u "pip")]); (KStr (u "a"), VList [])])])
  else Err YAMLError.
Definition ex_file (p : text) : option (res text) :=
  if eqb p (u "/etc/xylem/config.yaml") then Some (Ok (u "1")) else None.
Definition ex_args (dir : option text) (os : clval) : clargs :=
  {| a_config_dir := dir; a_prefix := u "/"; a_no_user_config := false;
     a_values := set (u "os") os (initial_values xdesc) |}.

Definition rev_values (c : pydict) : pydict :=
  rev (map (fun p => (fst p, match snd p with VDict d => VDict (rev d) | v => v end)) c).

Example C106_nonvacuous :
  places_ok ex_env (ex_args None CLNone) /\
  (exists c c2, effective ex_env ex_yaml ex_file xdesc (ex_args None CLNone) = Ok c /\
    get (KStr (u "os_override")) c = Some VNone /\
    get (KStr (u "cache_dir")) c = Some (VStr (u "/home/me/.config/xylem/cache")) /\
    effective ex_env (fun _ => Ok (VDict (rev_values c))) (fun p => if eqb p (u "/d/config.yaml") then Some (Ok []) else None)
      xdesc (ex_args (Some (u "/d")) CLNone) = Ok c2 /\
    get (KStr (u "cache_dir")) c2 = Some (VStr (u "/home/me/.config/xylem/cache")) /\
    get (KStr (u "install_from")) c2 = Some (VDict [(KStr (u "a"), VList []); (KStr (u "b"), VList [VStr (u "pip")])])) /\
  (exists c, effective ex_env ex_yaml ex_file xdesc (ex_args None (CLText (u "debian:7"))) = Ok c /\
    get (KStr (u "os_override")) c = Some (VList [VStr (u "debian"); VStr (u "7")]) /\
    effective ex_env (fun _ => Ok (VDict (rev_values c))) (fun p => if eqb p (u "/d/config.yaml") then Some (Ok []) else None)
      xdesc (ex_args (Some (u "/d")) CLNone) = Err ConfigValueError).
Proof.
  split; [|split].
  - split; [exists (u "/home/me"); split; [reflexivity|]|split].
    + exists [slash], [u "home"; u "me"]; split; [left; reflexivity|]; split; [|reflexivity].
      constructor; [comp|constructor; [comp|constructor]].
    + exists [slash], []; split; [left; reflexivity|]; split; [constructor|reflexivity].
    + intros dir E; discriminate E.
  - let r := eval vm_compute in (effective ex_env ex_yaml ex_file xdesc (ex_args None CLNone)) in
    match r with Ok ?c =>
      let r2 := eval vm_compute in (effective ex_env (fun _ => Ok (VDict (rev_values c)))
        (fun p => if eqb p (u "/d/config.yaml") then Some (Ok []) else None) xdesc (ex_args (Some (u "/d")) CLNone)) in
      match r2 with Ok ?c2 => exists c, c2 end end.
    repeat split; vm_compute; reflexivity.
  - let r := eval vm_compute in (effective ex_env ex_yaml ex_file xdesc (ex_args None (CLText (u "debian:7")))) in
    match r with Ok ?c => exists c end.
    repeat split; vm_compute; reflexivity.
Qed.

Print Assumptions C106_reload.
Print Assumptions C106_reload_same.
Print Assumptions C106_printed_partial.
Print Assumptions C106_override_refuted.
