(** Properties C95 and C96: default sources, and configuration given to the api. *)
From Verif Require Import Base Dict PyVal RulesDict Verify Paths Sources Config ConfigSpec ConfigProofs ConfigTypeProofs XylemConfig PropConfig Directories CommandLine.
From Verif Require PropSources.
From Coq Require Import Lia.
Notation S := Datatypes.S.
Local Opaque expand_input_path.

(** ** C95 *)
(** The packaged default sources are used if the sources directory does not exist, and only
    then. *)
Theorem C95_used_when_missing_partial yaml sha1 specs dir dir' defaults :
  init_from_sources yaml sha1 specs dir Missing defaults = init_from_sources yaml sha1 specs dir' Missing defaults /\
  (forall l, init_from_sources yaml sha1 specs dir Missing defaults = Ok l ->
     forall file data name args descrs,
       In (file, data) defaults -> parse_source_descriptions yaml data = Ok (VList descrs) ->
       In (VDict [(KStr name, args)]) descrs ->
       exists s, In s l /\ s_args s = args /\ s_origin s = VStr (u "xylem_default_sources:" ++ path_join (u "sources.d") file)) /\
  (forall entries defaults', init_from_sources yaml sha1 specs dir (Listing entries) defaults =
                             init_from_sources yaml sha1 specs dir (Listing entries) defaults').
Proof.
  split; [reflexivity|]; split; [|reflexivity].
  intros l E file data name args descrs Hin Hp Hd; unfold init_from_sources in E; cbn [get_source_files bind] in E.
  apply bind_Ok in E; destruct E as (ll & El & E); apply bind_Ok in E; destruct E as (? & _ & E); injection E as <-.
  assert (Hf : In (u "xylem_default_sources:" ++ path_join (u "sources.d") file, Ok data) (default_source_files defaults)).
  { unfold default_source_files; apply in_map_iff; exists (file, data); split; [reflexivity|exact Hin]. }
  apply mapM_Ok in El.
  assert (Hx : exists ss, In ss ll /\ init_file yaml specs (u "xylem_default_sources:" ++ path_join (u "sources.d") file, Ok data) = Ok ss).
  { clear -El Hf; induction El as [|x y l l' Exy El IH]; [destruct Hf|]; destruct Hf as [->|Hf].
    - exists y; split; [left; reflexivity|exact Exy].
    - destruct (IH Hf) as (ss & H1 & H2); exists ss; split; [right; exact H1|exact H2]. }
  destruct Hx as (ss & Hss & Ess); unfold init_file in Ess; cbn [snd fst bind] in Ess; rewrite Hp in Ess; cbn [bind descr_items] in Ess.
  apply mapM_Ok in Ess.
  assert (Hy : exists s, In s ss /\ init_source specs (u "xylem_default_sources:" ++ path_join (u "sources.d") file) (VDict [(KStr name, args)]) = Ok s).
  { clear -Ess Hd; induction Ess as [|x y l l' Exy El IH]; [destruct Hd|]; destruct Hd as [->|Hd].
    - exists y; split; [left; reflexivity|exact Exy].
    - destruct (IH Hd) as (s & H1 & H2); exists s; split; [right; exact H1|exact H2]. }
  destruct Hy as (s & Hs & Es); exists s; split; [apply in_concat; exists ss; auto|].
  cbn [init_source] in Es; apply bind_Ok in Es; destruct Es as (sp & _ & Es); unfold new_source in Es.
  apply bind_Ok in Es; destruct Es as (? & _ & Es); injection Es as <-; split; reflexivity.
Qed.

(** A sources directory without a single list file: one expects the default sources (the
    warning says "no source files found in source dir ...; using default sources"), but there
    are no sources at all. *)
Definition no_lists (dir : text) (st : dir_state) : Prop :=
  st = Missing \/ exists entries, st = Listing entries /\
    forall e, In e entries -> source_file_selected (path_join dir (de_name e)) e = false.

Theorem C95_empty_directory_refuted :
  ~ (forall yaml sha1 specs dir st defaults, no_lists dir st ->
       init_from_sources yaml sha1 specs dir st defaults = init_from_sources yaml sha1 specs dir Missing defaults).
Proof.
  intros H; specialize (H PropSources.x_yaml PropSources.x_sha1 [PropSources.x_spec] (u "/s") (Listing []) [(u "d.yaml", PropSources.x_listing)]).
  assert (Hn : no_lists (u "/s") (Listing [])) by (right; exists []; split; [reflexivity|intros e []]).
  specialize (H Hn); vm_compute in H; discriminate.
Qed.

Example C95_nonvacuous :
  exists l, init_from_sources PropSources.x_yaml PropSources.x_sha1 [PropSources.x_spec] (u "/s") Missing [(u "d.yaml", PropSources.x_listing)] = Ok l /\
    map s_origin l = [VStr (u "xylem_default_sources:sources.d/d.yaml"); VStr (u "xylem_default_sources:sources.d/d.yaml")] /\
    PropSources.x_yaml PropSources.x_listing <> Ok VNone.
Proof. eexists; split; [vm_compute; reflexivity|]; split; [reflexivity|vm_compute; discriminate]. Qed.

(** ** C96 *)
Lemma merge_unset t x : has_type t x -> (forall k e, t = TMerging k e -> top_wf x) -> merge_type t (unset t) x = Ok x.
Proof.
  intros Ht Hw; destruct t as [| | |e|k e|k e|]; try reflexivity.
  simpl in Ht; destruct Ht as (dd & -> & _); cbn [merge_type unset].
  f_equal; f_equal; rewrite ?update_nil_l by (eapply Hw; reflexivity); reflexivity.
Qed.

(** A dict passed to the api functions gives every option the value a configuration file with
    these contents gives it, if nothing is said on the command line. *)
Theorem C96_dict_is_like_a_file env yaml file args d tool data dir ca cf :
  reachable d ->
  config_dirs env args tool = [dir] ->
  load_config_file_yaml yaml file (path_join dir (d_namespace d)) = Ok data ->
  (forall k v, get k (a_values args) = Some v -> v = CLNone) ->
  ensure_config_dict env d data = Ok ca -> load_config env yaml file args d tool = Ok cf ->
  same_options d ca cf.
Proof.
  intros Hr Hdirs Hfile Hcl Ha Hf; pose proof (reachable_names_ok _ Hr) as Hd.
  destruct (load_config_values _ _ _ _ _ _ _ Hd Hf) as [_ Hv].
  unfold ensure_config_dict, config_from_parsed_yaml in Ha; apply bind_Ok in Ha; destruct Ha as (c0 & Ec0 & Ha).
  apply bind_Ok in Ha; destruct Ha as (df & Edf & Ha).
  assert (Ep : config_from_parsed_yaml env data d false = Ok c0) by (rewrite parsed_eq; exact Ec0).
  destruct (parsed_Ok env data d c0 Hd Ep) as [Hc0 Hp].
  destruct (merge_configs_Ok _ _ _ _ Hd Hc0 Ha) as [_ Hm].
  destruct (defaults_Ok d Hd) as (df' & Edf' & Hdv); rewrite Edf in Edf'; injection Edf' as <-.
  intros name it v Hin; apply In_get in Hin; [|apply (ok_items _ Hd)].
  destruct (Hv name it Hin) as (vcl & vfs & w & Ecl & Hfs & Ew & Gw).
  rewrite Hdirs in Hfs; inversion Hfs as [|? vf ? l (data' & raw & Hd1 & Hraw & Hvf) Hl]; subst; inversion Hl; subst.
  assert (data' = data) by congruence; subst data'.
  destruct (Hp name it Hin) as (raw' & v0 & Hraw' & Hv0 & G0).
  assert (raw' = raw) by (apply (proj1 (file_gives_get _ _ _)) in Hraw; apply (proj1 (file_gives_get _ _ _)) in Hraw'; congruence); subst raw'.
  assert (v0 = vf) by congruence; subst v0.
  destruct (Hm name it Hin) as (x & ys & z & Gx & Hys & Ez & Gz).
  assert (x = vf) by congruence; subst x.
  inversion Hys as [|? y ? l Hy Hl']; subst; inversion Hl'; subst.
  rewrite (Hdv name it Hin) in Hy; injection Hy as <-.
  assert (vcl = unset (i_type it)).
  { unfold arg_value in Ecl; destruct (i_command_line it); [|congruence].
    destruct (i_argument it) as [arg|]; [|discriminate]; apply bind_Ok in Ecl; destruct Ecl as (g & Eg & Ecl).
    apply (proj1 (getitem_Ok _ _ _)) in Eg; apply Hcl in Eg; subst g; cbn [from_command_line] in Ecl; congruence. }
  subst vcl; cbn [app foldM] in Ew.
  rewrite merge_unset in Ew; [|eapply from_yaml_typed; exact Hvf|intros k e Ht; rewrite Ht in Hvf; eapply from_yaml_top_wf; exact Hvf].
  cbn [bind] in Ew; cbn [foldM] in Ez; rewrite Ez in Ew; injection Ew as <-.
  rewrite !option_at_get, Gw, Gz; reflexivity.
Qed.

(** The directories used are the same, as long as [user_sources] is not set. *)
Theorem C96_directories_partial env yaml file args d data dir ca cf cp :
  build_config_description = Ok d ->
  a_config_dir args = None -> a_prefix args = u "/" -> a_no_user_config args = true ->
  dir = system_config_dir (u "/") xylem_tool ->
  load_config_file_yaml yaml file (path_join dir (d_namespace d)) = Ok data ->
  (forall k v, get k (a_values args) = Some v -> v = CLNone) ->
  ensure_config_dict env d data = Ok ca -> load_config env yaml file args d xylem_tool = Ok cf ->
  process_config env cf args = Ok cp ->
  get (KStr (u "user_sources")) ca = Some (VBool false) ->
  setup_paths ca = setup_paths cp.
Proof.
  intros Ed Hcd Hpr Hnu Hdir Hfile Hcl Ha Hf Hp Hus.
  assert (Hd : d = description_of (u "config.yaml") xylem_items)
    by (vm_compute in Ed; injection Ed as <-; vm_compute; reflexivity).
  assert (Hr : reachable d) by (exists (u "config.yaml"), xylem_items; assumption).
  assert (Hdirs : config_dirs env args xylem_tool = [dir]) by (unfold config_dirs; rewrite Hcd, Hnu, Hpr, Hdir; reflexivity).
  pose proof (C96_dict_is_like_a_file env yaml file args d xylem_tool data dir ca cf Hr Hdirs Hfile Hcl Ha Hf) as Hs.
  assert (Hg : forall name it, get name (d_items d) = Some it -> is_group_name name = false -> get (KStr name) ca = get (KStr name) cf /\ exists v, get (KStr name) cf = Some v).
  { intros name it Hit Hng; pose proof (reachable_names_ok _ Hr) as Hn.
    destruct (load_config_values _ _ _ _ _ _ _ Hn Hf) as [_ Hv]; destruct (Hv name it Hit) as (_ & _ & v & _ & _ & _ & Gv).
    assert (Gc : get (KStr name) cf = Some v) by (unfold conf_get in Gv; rewrite Hng in Gv; exact Gv).
    split; [|eauto]; rewrite Gc.
    assert (Ho : option_at name ca v) by (apply (Hs name it v (get_In _ _ _ Hit)), option_at_get, Gv).
    apply option_at_get in Ho; unfold conf_get in Ho; rewrite Hng in Ho; exact Ho. }
  destruct (Hg (u "cache_dir") _ ltac:(rewrite Hd; vm_compute; reflexivity) eq_refl) as [G1 [vc Hvc]].
  destruct (Hg (u "sources_dir") _ ltac:(rewrite Hd; vm_compute; reflexivity) eq_refl) as [G2 [vs Hvs]].
  destruct (Hg (u "user_sources") _ ltac:(rewrite Hd; vm_compute; reflexivity) eq_refl) as [G3 _].
  destruct (Hg (u "os_override") _ ltac:(rewrite Hd; vm_compute; reflexivity) eq_refl) as [_ [vo Hvo]].
  rewrite Hus in G3; symmetry in G3.
  pose proof (C66_directories env cf args vc vs false vo cp Hvc Hvs G3 Hvo Hp) as [C1 C2].
  cbv zeta in C1, C2; rewrite Hcd, Hpr in C1, C2; unfold setup_paths, attr; rewrite G1, G2, Hvc, Hvs, C1, C2; cbn [bind].
  unfold chosen_dir; destruct vs, vc; reflexivity.
Qed.

(** A process that never parsed a command line uses the default directories. *)
Theorem C96_fresh_process : exists d c,
  build_config_description = Ok d /\ config_from_defaults d = Ok c /\
  setup_paths c = Ok (u "/etc/xylem/sources.d", u "/var/cache/xylem/sources") /\
  is_default_dirs (u "/etc/xylem/sources.d", u "/var/cache/xylem/sources") = true.
Proof. do 2 eexists; split; [vm_compute; reflexivity|]; split; [vm_compute; reflexivity|]; split; vm_compute; reflexivity. Qed.

Definition quiet_args : clargs :=
  {| a_config_dir := None; a_prefix := u "/"; a_no_user_config := true;
     a_values := map (fun n => (n, CLNone)) [u "os"; u "os_features"; u "core_installers"; u "use_additional_installers";
         u "install_from"; u "installer_options"; u "user_sources"; u "cache_dir"; u "sources_dir"; u "disable_os_plugins";
         u "disable_installer_plugins"; u "disable_spec_plugins"] |}.
Definition api_env : penv := {| home := fun user => match user with [] => Some (u "/home/me") | _ => None end; cwd := u "/work" |}.

(** [user_sources] in a dict passed to the api has no effect on the directories. *)
Theorem C96_user_sources_refuted :
  ~ (forall env yaml file d data ca cf cp,
       build_config_description = Ok d ->
       load_config_file_yaml yaml file (u "/etc/xylem/config.yaml") = Ok data ->
       ensure_config_dict env d data = Ok ca -> load_config env yaml file quiet_args d xylem_tool = Ok cf ->
       process_config env cf quiet_args = Ok cp -> setup_paths ca = setup_paths cp).
Proof.
  intros H; specialize (H api_env (fun _ => Ok (VDict [(KStr (u "user_sources"), VBool true)])) (fun _ => Some (Ok []))).
  assert (Hx : exists d ca cf cp, build_config_description = Ok d /\
     ensure_config_dict api_env d [(KStr (u "user_sources"), VBool true)] = Ok ca /\
     load_config api_env (fun _ => Ok (VDict [(KStr (u "user_sources"), VBool true)])) (fun _ => Some (Ok [])) quiet_args d xylem_tool = Ok cf /\
     process_config api_env cf quiet_args = Ok cp /\ setup_paths ca <> setup_paths cp).
  { do 4 eexists; split; [vm_compute; reflexivity|]; split; [vm_compute; reflexivity|]; split; [vm_compute; reflexivity|]; split; [vm_compute; reflexivity|].
    vm_compute; discriminate. }
  destruct Hx as (d & ca & cf & cp & H1 & H2 & H3 & H4 & H5).
  exact (H5 (H d _ ca cf cp H1 eq_refl H2 H3 H4)).
Qed.

Example C96_nonvacuous :
  exists d ca cf cp, build_config_description = Ok d /\
     config_dirs api_env quiet_args xylem_tool = [u "/etc/xylem"] /\
     (forall k v, get k (a_values quiet_args) = Some v -> v = CLNone) /\
     ensure_config_dict api_env d [(KStr (u "cache_dir"), VStr (u "~/c"))] = Ok ca /\
     load_config api_env (fun _ => Ok (VDict [(KStr (u "cache_dir"), VStr (u "~/c"))])) (fun _ => Some (Ok [])) quiet_args d xylem_tool = Ok cf /\
     process_config api_env cf quiet_args = Ok cp /\
     get (KStr (u "user_sources")) ca = Some (VBool false) /\
     setup_paths cp = Ok (u "/etc/xylem/sources.d", u "/home/me/c/sources").
Proof.
  do 4 eexists; split; [vm_compute; reflexivity|]; split; [vm_compute; reflexivity|]; split.
  { intros k v Hg; apply get_In in Hg; vm_compute in Hg.
    repeat (destruct Hg as [Hg|Hg]; [injection Hg as <- <-; reflexivity|]); destruct Hg. }
  split; [vm_compute; reflexivity|]; split; [vm_compute; reflexivity|]; split; [vm_compute; reflexivity|]; split; vm_compute; reflexivity.
Qed.

(** The directory of a value: a text that is not empty, or the default when the value counts as not given. *)
Inductive dir_is (default : text) : pyval -> text -> Prop :=
| dir_given p : p <> [] -> dir_is default (VStr p) p
| dir_default v : In v [VNone; VBool false; VInt 0%Z; VStr []; VList []; VDict []] -> dir_is default v default.

(** The directories used for a configuration. *)
Theorem C96_paths c s k : get (KStr (u "sources_dir")) c = Some s -> get (KStr (u "cache_dir")) c = Some k ->
  forall sources cache, setup_paths c = Ok (sources, cache) <->
    dir_is (u "/etc/xylem/sources.d") s sources /\ exists dir, dir_is (u "/var/cache/xylem") k dir /\ cache = path_join dir (u "sources").
Proof.
  intros Hs Hk sources cache.
  assert (D : forall d v x, path_or v d = Ok x <-> dir_is d v x).
  { clear; intros d v x; unfold path_or, truthy; split.
    - intros H; destruct v as [|[]|[| |]|[|c s]| |[|y l]|[|y l]]; try discriminate; injection H as <-;
        try (apply dir_default; cbn; auto 10; fail); apply dir_given; discriminate.
    - intros [p Hp|v' Hv]; [destruct p; [congruence|reflexivity]|].
      repeat (destruct Hv as [<-|Hv]; [reflexivity|]); destruct Hv. }
  unfold setup_paths, attr; rewrite Hs, Hk; cbn [bind].
  change default_sources_dir with (u "/etc/xylem/sources.d"); change default_cache_dir with (u "/var/cache/xylem").
  destruct (path_or s (u "/etc/xylem/sources.d")) as [p|e] eqn:E1; cbn [bind].
  - apply D in E1; destruct (path_or k (u "/var/cache/xylem")) as [q|e] eqn:E2; cbn [bind].
    + split.
      * intros H; injection H as <- <-; split; [exact E1|]; exists q; split; [apply D; exact E2|reflexivity].
      * intros (H1 & dir & H2 & ->); apply D in H2; apply D in E1; apply D in H1; unfold sources_cache_dir; congruence.
    + split; [discriminate|]; intros (_ & dir & H2 & _); apply D in H2; congruence.
  - split; [discriminate|]; intros (H1 & _); apply D in H1; congruence.
Qed.

Example C96_paths_nonvacuous :
  setup_paths [(KStr (u "sources_dir"), VStr (u "/srv/sources")); (KStr (u "cache_dir"), VNone)] = Ok (u "/srv/sources", u "/var/cache/xylem/sources") /\
  setup_paths [(KStr (u "sources_dir"), VInt 3%Z); (KStr (u "cache_dir"), VNone)] = Err TypeError.
Proof. split; vm_compute; reflexivity. Qed.

Print Assumptions C95_used_when_missing_partial.
Print Assumptions C95_empty_directory_refuted.
Print Assumptions C96_dict_is_like_a_file.
Print Assumptions C96_directories_partial.
Print Assumptions C96_fresh_process.
Print Assumptions C96_user_sources_refuted.
Print Assumptions C96_paths.
