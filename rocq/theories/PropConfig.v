(** Theorems about configuration: C46-C52, C64-C66. *)
From Verif Require Import Base Dict PyVal Sources Util Paths Config ConfigSpec ConfigTypeProofs
  ConfigProofs XylemConfig OverrideProofs.

(** ** Descriptions a program can arrive at: any sequence of [add] calls, whether or not each
    of them was accepted. *)
Definition description_of (ns : text) (its : list item) : desc :=
  fold_left (fun d it => fst (add d it)) its (empty_desc ns).
Definition reachable (d : desc) : Prop := exists ns its, d = description_of ns its.

Lemma reachable_names_ok d : reachable d -> names_ok d.
Proof.
  intros (ns & its & ->); unfold description_of.
  assert (H : forall l d, names_ok d -> names_ok (fold_left (fun d it => fst (add d it)) l d)).
  { induction l as [|it l IH]; simpl; intros d Hd; [assumption|apply IH, add_names_ok; assumption]. }
  apply H, empty_names_ok.
Qed.

(** The small description used in the examples. *)
Definition ex_items : list item :=
  [ make_item (u "name") TString (VStr (u "anon")) (Some true) None None;
    make_item (u "net/tags") (TList TString) VNone None (Some (u "tag")) None;
    make_item (u "map") (TMerging KtString TString) (VDict [(KStr (u "k"), VStr (u "default"))])
      None None (Some (u "M"));
    make_item (u "dir") TPath VNone (Some true) None None ].
Definition ex_desc : desc := description_of (u "conf.yaml") ex_items.

Lemma ex_reachable : reachable ex_desc.
Proof. exists (u "conf.yaml"), ex_items; reflexivity. Qed.

Definition me_home (user : text) : option text := match user with [] => Some (u "/home/me") | _ => None end.
Definition root_env : penv := {| home := fun _ => None; cwd := [slash] |}.
Definition me_env : penv := {| home := me_home; cwd := [slash] |}.
Definition work_env : penv := {| home := me_home; cwd := u "/work" |}.

(** ** C51 *)
(** The names of a description: two different options never share a name, no name is both an
    option and a group, and every option "group/name" has its group. *)
Theorem C51_names_never_clash d : reachable d ->
  NoDup (map fst (d_items d)) /\ NoDup (map fst (d_groups d)) /\
  (forall n, In n (map fst (d_groups d)) -> ~ In n (map fst (d_items d))) /\
  (forall g s it, ~ In slash s ->
     (In (g ++ slash :: s, it) (d_items d) <->
      exists gd, In (g, gd) (d_groups d) /\ In (s, it) gd)).
Proof.
  intros Hr; apply reachable_names_ok in Hr; destruct Hr as [H1 H2 H3 H4 H5 H6 H7].
  split; [exact H1|split; [exact H2|split; [exact H7|]]].
  intros g s it Hs; rewrite <- (get_iff _ _ _ H1), (H5 g s it Hs); split.
  - intros (gd & Hg & Hgd); exists gd; split; apply get_In; assumption.
  - intros (gd & Hg & Hgd); apply In_get in Hg; [|assumption].
    exists gd; split; [assumption|]; apply In_get; [apply (H3 _ _ Hg)|assumption].
Qed.

(** If every addition was accepted, the options on the command line have pairwise different
    flags. *)
Theorem C51_flags_distinct ns args d :
  add_all (empty_desc ns) (map (fun a => match a with (n, t, df, cl, ar, mv) => make_item n t df cl ar mv end) args) = Ok d ->
  forall n1 i1 n2 i2 f, In (n1, i1) (d_items d) -> In (n2, i2) (d_items d) ->
    i_command_line i1 = true -> i_command_line i2 = true ->
    i_argument i1 = Some f -> i_argument i2 = Some f -> n1 = n2 /\ i1 = i2.
Proof.
  unfold add_all; intros E.
  assert (Hok : names_ok d /\ args_ok d).
  { apply (foldM_inv _ (fun d => names_ok d /\ args_ok d) _ _ _ E).
    - split; [apply empty_names_ok|apply empty_args_ok].
    - intros it a b Hit [Hn Ha] Eb; destruct (add a it) as [d' [[]|e]] eqn:Ea; [|discriminate].
      injection Eb as <-; split.
      + pose proof (add_names_ok a it Hn) as H; rewrite Ea in H; exact H.
      + assert (Hd : d' = fst (add a it)) by (rewrite Ea; reflexivity); rewrite Hd.
        apply add_args_ok; [assumption|rewrite Ea; reflexivity|].
        apply in_map_iff in Hit; destruct Hit as ([[[[[n t] df] cl] ar] mv] & <- & _); apply make_item_arg. }
  destruct Hok as [Hn Ha]; intros n1 i1 n2 i2 f H1 H2 C1 C2 A1 A2.
  apply In_get in H1, H2; try apply (ok_items _ Hn).
  destruct (ok_arg _ Ha _ _ H1 C1) as (a1 & E1 & G1), (ok_arg _ Ha _ _ H2 C2) as (a2 & E2 & G2).
  assert (i1 = i2) by congruence; split; [|assumption].
  rewrite <- (ok_name _ Hn _ _ H1), <- (ok_name _ Hn _ _ H2); congruence.
Qed.

(** A rejected addition changes nothing, except when it is the flag that is already taken. *)
Theorem C51_rejection_partial d it d' e :
  add d it = (d', Err e) ->
  e = ConfigDescriptionError /\
  (d' = d \/ exists f other, i_command_line it = true /\ i_argument it = Some f /\
                             In (f, other) (d_arguments d)).
Proof.
  unfold add; destruct (has (i_name it) (d_items d)); [intros E; injection E as <- <-; auto|].
  destruct (has (i_name it) (d_groups d)); [intros E; injection E as <- <-; auto|].
  assert (Hgo : forall groups,
    (let d1 := {| d_namespace := d_namespace d; d_itemlist := d_itemlist d ++ [it];
                  d_items := set (i_name it) it (d_items d); d_groups := groups;
                  d_arguments := d_arguments d |} in
     match i_command_line it, i_argument it with
     | true, Some arg =>
       if has arg (d_arguments d) then (d1, Err ConfigDescriptionError)
       else ({| d_namespace := d_namespace d1; d_itemlist := d_itemlist d1; d_items := d_items d1;
                d_groups := d_groups d1; d_arguments := set arg it (d_arguments d1) |}, Ok tt)
     | _, _ => (d1, Ok tt)
     end) = (d', Err e) ->
    e = ConfigDescriptionError /\
    exists f other, i_command_line it = true /\ i_argument it = Some f /\ In (f, other) (d_arguments d)).
  { intros groups; cbv zeta; destruct (i_command_line it), (i_argument it) as [a|]; try discriminate.
    destruct (has a (d_arguments d)) eqn:Ha; [|discriminate].
    intros E; injection E as <- <-; split; [reflexivity|].
    unfold has in Ha; destruct (get a (d_arguments d)) as [o|] eqn:Eo; [|discriminate].
    exists a, o; repeat split; apply get_In; assumption. }
  destruct (is_group_name (i_name it)).
  - destruct (split_group (i_name it)) as [g s]; destruct (get g (d_groups d)).
    + intros E; apply Hgo in E; tauto.
    + destruct (has g (d_items d)); [intros E; injection E as <- <-; auto|].
      intros E; apply Hgo in E; tauto.
  - intros E; apply Hgo in E; tauto.
Qed.

(** The exception is real: rejecting an option because of its flag leaves the option in the
    description, and two options then share the flag. *)
Theorem C51_rejection_refuted :
  ~ forall d it d' e, reachable d -> add d it = (d', Err e) -> d' = d.
Proof.
  intros H.
  set (i1 := make_item (u "one") TString VNone None (Some (u "flag")) None).
  set (i2 := make_item (u "two") TString VNone None (Some (u "flag")) None).
  set (d := description_of [] [i1]).
  assert (E : add d i2 = (fst (add d i2), Err ConfigDescriptionError)) by reflexivity.
  apply H in E; [|exists [], [i1]; reflexivity].
  apply (f_equal (fun d => List.length (d_items d))) in E; discriminate E.
Qed.

Example C51_nonvacuous :
  map fst (d_items ex_desc) = [u "name"; u "net/tags"; u "map"; u "dir"] /\
  map fst (d_groups ex_desc) = [u "net"] /\
  snd (add ex_desc (make_item (u "net") TString VNone None None None)) = Err ConfigDescriptionError /\
  snd (add ex_desc (make_item (u "name/sub") TString VNone None None None)) = Err ConfigDescriptionError.
Proof. repeat split; reflexivity. Qed.

(** ** C47 *)
(** Verification accepts exactly the values of the type, and otherwise raises the
    configuration error. *)
Theorem C47_verification_exact t v :
  (has_type t v -> verify_type t v = Ok v) /\
  (~ has_type t v -> verify_type t v = Err ConfigValueError).
Proof.
  split; [apply verify_type_spec|]; intros Hn.
  destruct (verify_type_cases t v) as [E|E]; [|assumption].
  exfalso; apply Hn, verify_type_spec; assumption.
Qed.

(** Every value made from YAML or from the command line is of its type and passes
    verification. *)
Theorem C47_parsed_values_valid env yaml t :
  (forall v w, from_yaml env t v = Ok w -> has_type t w /\ verify_type t w = Ok w) /\
  (forall a w, from_command_line env yaml t a = Ok w -> has_type t w /\ verify_type t w = Ok w).
Proof.
  split; intros v w E;
    [apply from_yaml_typed in E|apply from_command_line_typed in E];
    (split; [assumption|apply verify_type_spec; assumption]).
Qed.

(** Loaded configurations are well-typed if the declared defaults are; missing for the full
    property: ill-typed defaults (see below). *)
Theorem C47_loaded_valid_partial env yaml file args d tool c :
  reachable d ->
  (forall name it, In (name, it) (d_items d) -> has_type (i_type it) (i_default it)) ->
  load_config env yaml file args d tool = Ok c -> well_typed d c.
Proof.
  intros Hd Hdf E; apply reachable_names_ok in Hd.
  destruct (load_config_values _ _ _ _ _ _ _ Hd E) as [_ Hv].
  intros name it Hit; destruct (Hv name it Hit) as (vcl & vfs & v & Ecl & Hfs & Hm & Hc).
  destruct (merge_values_typed (i_type it) (vfs ++ [i_default it]) vcl) as (w & Ew & Hw).
  - constructor; [eapply arg_value_typed; exact Ecl|]; apply Forall_app; split.
    + clear - Hfs; induction Hfs as [|x y l l' (data & raw & _ & _ & E) Hl IH]; constructor;
        [eapply from_yaml_typed; exact E|assumption].
    + constructor; [|constructor]; apply (Hdf name); apply get_In; assumption.
  - exists v; split; [apply option_at_get; assumption|]; congruence.
Qed.

(** The same for configurations given as dictionaries, with or without defaults. *)
Theorem C47_dictionary_valid_partial env data d c :
  reachable d ->
  (forall name it, In (name, it) (d_items d) -> has_type (i_type it) (i_default it)) ->
  (config_from_parsed_yaml env data d false = Ok c \/ config_from_parsed_yaml env data d true = Ok c) ->
  well_typed d c.
Proof.
  intros Hd Hdf E; apply reachable_names_ok in Hd.
  assert (Hf : forall c, config_from_parsed_yaml env data d false = Ok c -> complete d c /\ well_typed d c).
  { intros c0 E0; destruct (parsed_Ok _ _ _ _ Hd E0) as [Hc Hv]; split; [assumption|].
    intros name it Hit; destruct (Hv name it Hit) as (raw & v & _ & Ev & Hcv).
    exists v; split; [apply option_at_get; assumption|eapply from_yaml_typed; exact Ev]. }
  destruct E as [E|E]; [apply Hf; assumption|].
  unfold config_from_parsed_yaml in E, Hf; apply bind_Ok in E; destruct E as (c0 & E0 & E).
  rewrite E0 in Hf; cbn [bind] in Hf; destruct (Hf c0 eq_refl) as [Hc Hw].
  apply bind_Ok in E; destruct E as (df & Edf & E).
  destruct (merge_configs_Ok _ _ _ _ Hd Hc E) as [_ Hm].
  intros name it Hit; destruct (Hm name it Hit) as (x & ys & v & Hx & Hys & Em & Hv).
  inversion Hys as [|? y ? l Hy Hl]; subst; inversion Hl; subst.
  destruct (defaults_Ok d Hd) as (df' & Edf' & Hdv); rewrite Edf in Edf'; injection Edf' as <-.
  rewrite (Hdv name it Hit) in Hy; injection Hy as <-.
  destruct (Hw name it Hit) as (x' & Hx' & Htx); apply option_at_get in Hx'.
  assert (x' = x) by congruence; subst x'.
  destruct (merge_values_typed (i_type it) [i_default it] x) as (w & Ew & Htw).
  - constructor; [assumption|constructor; [|constructor]]; apply (Hdf name), get_In; assumption.
  - exists v; split; [apply option_at_get; assumption|]; congruence.
Qed.

(** Declared defaults are never verified: an option with an ill-typed default is accepted
    and its default is loaded. *)
Theorem C47_invalid_default_refuted :
  ~ forall env yaml file args d tool c,
      reachable d -> load_config env yaml file args d tool = Ok c -> well_typed d c.
Proof.
  intros H.
  set (it := make_item (u "flag") TBoolean (VStr (u "yes")) None None None).
  set (d := description_of [] [it]).
  set (args := {| a_config_dir := None; a_prefix := []; a_no_user_config := true; a_values := [] |}).
  specialize (H root_env (fun _ => Ok VNone) (fun _ => None) args d (u "tool")
                [(KStr (u "flag"), VStr (u "yes"))]).
  assert (Hd : reachable d) by (exists [], [it]; reflexivity).
  specialize (H Hd eq_refl (u "flag") it eq_refl); destruct H as (v & Hv & Ht).
  apply option_at_get in Hv; injection Hv as <-.
  destruct Ht as [E|[b E]]; discriminate.
Qed.

(** An accepted addition adds exactly its option. *)
Lemma add_Ok_items d it d' : add d it = (d', Ok tt) ->
  get (i_name it) (d_items d) = None /\ d_items d' = set (i_name it) it (d_items d).
Proof.
  unfold add; intros E.
  destruct (has (i_name it) (d_items d)) eqn:Hh; [discriminate|].
  assert (Hn : get (i_name it) (d_items d) = None)
    by (unfold has in Hh; destruct (get (i_name it) (d_items d)); [discriminate|reflexivity]).
  split; [exact Hn|].
  destruct (has (i_name it) (d_groups d)); [discriminate|].
  destruct (is_group_name (i_name it)).
  - destruct (split_group (i_name it)) as [g s].
    destruct (get g (d_groups d)); [|destruct (has g (d_items d)); [discriminate|]];
      destruct (i_command_line it), (i_argument it) as [a|];
      try (destruct (has a (d_arguments d)); [discriminate|]); injection E as <-; reflexivity.
  - destruct (i_command_line it), (i_argument it) as [a|];
      try (destruct (has a (d_arguments d)); [discriminate|]); injection E as <-; reflexivity.
Qed.

(** The value of an option nobody sets: the declared default; without one, the empty mapping
    for options whose mappings are merged and None for all others. *)
Definition value_of_nobody (t : ctype) (declared : pyval) (v : pyval) : Prop :=
  (declared <> VNone /\ v = declared) \/
  (declared = VNone /\ (exists k e, t = TMerging k e) /\ v = VDict []) \/
  (declared = VNone /\ (forall k e, t <> TMerging k e) /\ v = VNone).

Theorem C47_declared_defaults ns args d c :
  add_all (empty_desc ns) (map (fun a => match a with (n, t, df, cl, ar, mv) => make_item n t df cl ar mv end) args) = Ok d ->
  config_from_defaults d = Ok c ->
  forall n t df cl ar mv, In (n, t, df, cl, ar, mv) args ->
    exists v, option_at n c v /\ value_of_nobody t df v.
Proof.
  intros E Ec n t df cl ar mv Hin.
  assert (Hok : names_ok d /\ forall it, In it (map (fun a => match a with (n, t, df, cl, ar, mv) => make_item n t df cl ar mv end) args) ->
            get (i_name it) (d_items d) = Some it).
  { revert E; generalize (map (fun a => match a with (n, t, df, cl, ar, mv) => make_item n t df cl ar mv end) args).
    assert (Hgen : forall its d0, names_ok d0 -> add_all d0 its = Ok d ->
              names_ok d /\ (forall m i, get m (d_items d0) = Some i -> get m (d_items d) = Some i) /\
              forall it, In it its -> get (i_name it) (d_items d) = Some it).
    { induction its as [|it its IH]; intros d0 Hd0 E.
      - injection E as <-; split; [assumption|split; [auto|intros ? []]].
      - unfold add_all in E; cbn [foldM] in E; apply bind_Ok in E; destruct E as (d1 & E1 & E).
        destruct (add d0 it) as [d1' [[]|x]] eqn:Ea; [|discriminate].
        assert (d1' = d1) by congruence; subst d1'.
        assert (Hd1 : names_ok d1) by (pose proof (add_names_ok d0 it Hd0) as H; rewrite Ea in H; exact H).
        destruct (add_Ok_items _ _ _ Ea) as [Hnone Hset].
        destruct (IH d1 Hd1 E) as (H1 & H2 & H3); split; [assumption|split].
        + intros m i Hm; apply H2; rewrite Hset, get_set_other; [assumption|congruence].
        + intros i [<-|Hi]; [apply H2; rewrite Hset; apply get_set_same|auto]. }
    intros its E; destruct (Hgen its _ (empty_names_ok ns) E) as (H1 & _ & H3); split; assumption. }
  destruct Hok as [Hn Hall]; destruct (defaults_Ok d Hn) as (c' & Ec' & Hv); rewrite Ec in Ec'; injection Ec' as <-.
  assert (Hi : In (make_item n t df cl ar mv)
     (map (fun a => match a with (n, t, df, cl, ar, mv) => make_item n t df cl ar mv end) args))
    by (apply in_map_iff; exists (n, t, df, cl, ar, mv); auto).
  specialize (Hv _ _ (Hall _ Hi)); exists (i_default (make_item n t df cl ar mv)).
  split; [apply option_at_get; exact Hv|].
  unfold make_item, value_of_nobody; cbn [i_default].
  destruct df; try (left; split; [discriminate|reflexivity]).
  right; destruct t; cbn [unset];
    first [right; split; [reflexivity|split; [intros ? ?; discriminate|reflexivity]]
          |left; split; [reflexivity|split; [eauto|reflexivity]]].
Qed.

Example C47_declared_nonvacuous : exists d c,
  add_all (empty_desc []) (map (fun a => match a with (n, t, df, cl, ar, mv) => make_item n t df cl ar mv end)
    [(u "m", TMerging KtString TAny, VNone, None, None, None); (u "g/s", TString, VNone, None, None, None);
     (u "b", TBoolean, VBool true, None, None, None)]) = Ok d /\
  config_from_defaults d = Ok c /\ option_at (u "m") c (VDict []) /\ option_at (u "g/s") c VNone /\
  option_at (u "b") c (VBool true).
Proof.
  eexists; eexists; split; [reflexivity|split; [reflexivity|]].
  repeat split; apply option_at_get; reflexivity.
Qed.

Example C47_nonvacuous :
  (forall name it, In (name, it) (d_items ex_desc) -> has_type (i_type it) (i_default it)) /\
  exists c, load_config me_env (fun _ => Ok (VDict [(KStr (u "net"), VDict [(KStr (u "tags"), VList [VStr (u "x")])])]))
    (fun p => if eqb p (u "/etc/tool/conf.yaml") then Some (Ok (u "net: {tags: [x]}")) else None)
    {| a_config_dir := None; a_prefix := u "/"; a_no_user_config := false;
       a_values := [(u "name", CLText (u "N")); (u "tag", CLNone); (u "map", CLNone); (u "dir", CLNone)] |}
    ex_desc (u "tool") = Ok c /\
    option_at (u "net/tags") c (VList [VStr (u "x")]) /\ option_at (u "name") c (VStr (u "N")) /\
    option_at (u "map") c (VDict [(KStr (u "k"), VStr (u "default"))]).
Proof.
  split.
  - intros name it H; simpl in H; destruct H as [E|[E|[E|[E|[]]]]]; injection E as <- <-; simpl; eauto.
    exists [(KStr (u "k"), VStr (u "default"))]; split; [reflexivity|].
    constructor; [split; [right; exists (u "k"); reflexivity|right; exists (u "default"); reflexivity]|constructor].
  - eexists; split; [reflexivity|]; repeat split; apply option_at_get; reflexivity.
Qed.

(** ** C48 *)
(** [env_ok]: the current directory of the process is an absolute path. *)
Theorem C48_value_idempotent env t v w :
  env_ok env -> from_yaml env t v = Ok w -> from_yaml env t w = Ok w.
Proof. apply from_yaml_id. Qed.

Theorem C48_config_idempotent env data d c :
  env_ok env -> reachable d ->
  config_from_parsed_yaml env data d false = Ok c -> config_from_parsed_yaml env c d false = Ok c.
Proof.
  intros He Hd E; apply reachable_names_ok in Hd.
  pose proof E as E0; rewrite parsed_eq in E |- *.
  destruct (build_get _ _ _ _ Hd E) as (_ & Hgr & Hg).
  destruct (parsed_Ok _ _ _ _ Hd E0) as [_ Hp].
  eapply build_mono; [assumption|exact E|].
  intros name it v Hit Hv.
  destruct (Hp name it Hit) as (raw & w & _ & Hw & Hcw).
  destruct (Hg name it Hit) as (w' & Hw' & Hcw').
  assert (v = w) by congruence; subst w; assert (v = w') by congruence; subst w'.
  change (parsed_value env c name it = Ok v).
  rewrite (parsed_value_mapping env d c name it v Hd).
  - eapply from_yaml_id; [assumption|exact Hw].
  - intros g Hin; destruct (Hgr g Hin) as (gd & Egd & _); right; exists gd; assumption.
  - assumption.
  - apply file_gives_get; rewrite Hcw; reflexivity.
Qed.

Example C48_nonvacuous :
  let env := work_env in
  env_ok env /\
  from_yaml env (TList TPath) (VList [VStr (u "~/a"); VStr (u "b/../c")]) =
    Ok (VList [VStr (u "/home/me/a"); VStr (u "/work/c")]).
Proof. split; reflexivity. Qed.

(** ** C64 *)
(** A path value is stored as an absolute, normalised path, and expanding it again does not
    change it. *)
Theorem C64_paths_absolute env s :
  env_ok env ->
  exists p, from_yaml env TPath (VStr s) = Ok (VStr p) /\ normal_abs p /\
            expand_input_path env p = p.
Proof.
  intros He; exists (expand_input_path env s); split; [reflexivity|].
  pose proof (expand_input_path_normal env s He) as Hn; split; [assumption|apply expand_input_path_id; assumption].
Qed.

Example C64_nonvacuous :
  normal_abs (u "/home/me/a") /\ ~ normal_abs (u "a/b") /\
  expand_input_path work_env (u "~/./x//y/..") = u "/home/me/x".
Proof.
  split; [exists [slash], [u "home"; u "me"; u "a"]; repeat split; auto|].
  - repeat constructor; try discriminate; intros H; vm_compute in H; intuition discriminate.
  - split; [intros H; apply normal_abs_prefix in H; discriminate|reflexivity].
Qed.

(** ** C50 *)
Definition text_keys (data : pydict) : Prop := forall k v, In (k, v) data -> exists s, k = KStr s.

(** What a configuration file may contain: nothing at all, or a mapping with text keys in
    which groups are mappings and every described option has a value of the right shape or
    none. *)
Definition file_ok (d : desc) (v : pyval) : Prop :=
  v = VNone \/
  exists data, v = VDict data /\ text_keys data /\ groups_are_mappings d data /\
    forall name it raw, In (name, it) (d_items d) -> file_gives name data raw -> yaml_ok (i_type it) raw.

Definition config_from_contents (env : penv) (d : desc) (v : pyval) : res pydict :=
  let* data := process_config_file_yaml v in config_from_parsed_yaml env data d false.

Lemma contents_mapping v data : process_config_file_yaml v = Ok data <->
  (v = VNone /\ data = []) \/ (v = VDict data /\ text_keys data).
Proof.
  assert (Hk : forall d : pydict, forallb (fun p : pkey * pyval => match fst p with KStr _ => true | _ => false end) d = true
               <-> text_keys d).
  { intros dd; rewrite forallb_forall; split.
    - intros H k w Hin; specialize (H _ Hin); cbn [fst] in H; destruct k; try discriminate; eauto.
    - intros H [k w] Hin; destruct (H k w Hin) as [s ->]; reflexivity. }
  unfold process_config_file_yaml; destruct v as [|b|z|s|s|l|dd];
    try (split; [discriminate|intros [[E _]|[E _]]; discriminate]).
  - simpl; split; [intros E; injection E as <-; auto|].
    intros [[_ ->]|[E _]]; [reflexivity|discriminate].
  - destruct (forallb _ dd) eqn:E.
    + apply Hk in E; split; [intros Eq; injection Eq as <-; auto|].
      intros [[Eq _]|[Eq _]]; [discriminate|]; congruence.
    + split; [discriminate|]; intros [[Eq _]|[Eq Ht]]; [discriminate|].
      injection Eq as ->; apply Hk in Ht; congruence.
Qed.

Lemma contents_err v e : process_config_file_yaml v = Err e -> e = ConfigValueError.
Proof.
  unfold process_config_file_yaml; destruct v as [|b|z|s|s|l|dd]; cbn [forallb]; intros E;
    try (injection E as <-; reflexivity); try discriminate E.
  destruct (forallb _ dd); [discriminate|injection E as <-; reflexivity].
Qed.

Lemma parsed_accepts env d data : reachable d ->
  ((exists c, config_from_parsed_yaml env data d false = Ok c) <->
   groups_are_mappings d data /\
   forall name it raw, In (name, it) (d_items d) -> file_gives name data raw -> yaml_ok (i_type it) raw).
Proof.
  intros Hd; apply reachable_names_ok in Hd; split.
  - intros [c E]; pose proof E as E0; rewrite parsed_eq in E0.
    destruct (build_get _ _ _ _ Hd E0) as (_ & _ & Hg).
    assert (Hm : groups_are_mappings d data).
    { intros g Hin; destruct (get (KStr g) data) as [v|] eqn:Ev; [right|left; reflexivity].
      apply get_Some_keys in Hin; destruct Hin as [gd Hin]; destruct (ok_group _ Hd _ _ Hin) as [Hw Hne].
      destruct gd as [|[s it] gd]; [congruence|].
      assert (Hs : get s ((s, it) :: gd) = Some it) by (rewrite get_cons, eqb_refl; reflexivity).
      pose proof (ok_subname _ Hd _ _ _ _ Hin Hs) as Hns.
      assert (Hit : get (g ++ slash :: s) (d_items d) = Some it) by (apply (ok_sub _ Hd); eauto).
      destruct (Hg _ _ Hit) as (w & Ew & _).
      unfold item_value in Ew; rewrite (proj2 (is_group_name_In _) (group_name_In g s)) in Ew.
      rewrite split_group_app, Ev in Ew by assumption.
      destruct v as [| | | | | |gv]; try discriminate; exists gv; reflexivity. }
    split; [assumption|]; intros name it raw Hin Hf; apply In_get in Hin; [|apply (ok_items _ Hd)].
    destruct (Hg _ _ Hin) as (w & Ew & _).
    change (parsed_value env data name it = Ok w) in Ew.
    rewrite (parsed_value_mapping env d data name it raw Hd Hm Hin Hf) in Ew.
    apply (from_yaml_total env); eauto.
  - intros [Hm Hy]; rewrite parsed_eq; apply build_total; [assumption|].
    intros name it Hit; change (exists v, parsed_value env data name it = Ok v).
    destruct (file_gives_ex name data) as [raw Hf].
    rewrite (parsed_value_mapping env d data name it raw Hd Hm Hit Hf).
    apply from_yaml_total; eapply Hy; [apply get_In; exact Hit|exact Hf].
Qed.

Theorem C50_accepts_exactly env d v : reachable d ->
  ((exists c, config_from_contents env d v = Ok c) <-> file_ok d v).
Proof.
  intros Hd; unfold config_from_contents, file_ok; split.
  - intros [c E]; apply bind_Ok in E; destruct E as (data & E1 & E2); apply contents_mapping in E1.
    destruct E1 as [[-> _]|[-> Ht]]; [auto|right]; exists data; split; [reflexivity|].
    split; [assumption|]; apply (parsed_accepts env); eauto.
  - intros [->|(data & -> & Ht & Hm & Hy)].
    + assert (E : process_config_file_yaml VNone = Ok []) by reflexivity; rewrite E; cbn [bind].
      apply parsed_accepts; [assumption|]; split; [intros g _; left; reflexivity|].
      intros name it raw _ Hf; apply file_gives_get in Hf; unfold conf_get in Hf.
      assert (raw = VNone).
      { rewrite Hf; destruct (is_group_name name); [|reflexivity].
        destruct (split_group name); reflexivity. }
      subst raw; destruct (i_type it); simpl; auto.
    + assert (E : process_config_file_yaml (VDict data) = Ok data) by (apply contents_mapping; auto).
      rewrite E; cbn [bind]; apply parsed_accepts; auto.
Qed.

(** Rejection is by the configuration error as long as groups are mappings; missing: groups
    that are not. *)
Theorem C50_rejection_error_partial env d v e : reachable d ->
  (forall data, v = VDict data -> groups_are_mappings d data) ->
  config_from_contents env d v = Err e -> e = ConfigValueError.
Proof.
  intros Hd Hm E; apply reachable_names_ok in Hd; unfold config_from_contents in E.
  apply bind_Err in E; destruct E as [E|(data & E1 & E)].
  - eapply contents_err; exact E.
  - assert (Hg : groups_are_mappings d data).
    { apply contents_mapping in E1; destruct E1 as [[_ ->]|[-> _]]; [intros g _; left; reflexivity|auto]. }
    rewrite parsed_eq in E; apply build_Err in E; [|assumption].
    destruct E as (name & it & Hit & E); change (parsed_value env data name it = Err e) in E.
    destruct (file_gives_ex name data) as [raw Hf].
    rewrite (parsed_value_mapping env d data name it raw Hd Hg Hit Hf) in E.
    eapply from_yaml_err; exact E.
Qed.

(** The same from the file: unreadable files, invalid YAML and ill-typed contents. *)
Theorem C50_file_error_partial env yaml file path d e : reachable d ->
  (forall s e, yaml s = Err e -> e = YAMLError) ->
  (forall p e, file p = Some (Err e) -> e = IOError \/ e = OSError) ->
  (forall s data, file path = Some (Ok s) -> yaml s = Ok (VDict data) -> groups_are_mappings d data) ->
  config_from_file env yaml file path d = Err e -> e = ConfigValueError.
Proof.
  intros Hd Hy Hf Hm E; unfold config_from_file in E.
  apply bind_Err in E; destruct E as [E|(data & E1 & E)].
  - pose proof contents_err as Hp; unfold load_config_file_yaml in E; destruct (file path) as [[s|er]|] eqn:Ef.
    + destruct (yaml s) as [v|er] eqn:Ey; cbn [bind] in E.
      * destruct (process_config_file_yaml v) as [|er] eqn:Ep; [discriminate|].
        apply Hp in Ep; subst er; simpl in E; congruence.
      * apply Hy in Ey; subst er; simpl in E; congruence.
    + destruct (Hf _ _ Ef) as [->| ->]; simpl in E; congruence.
    + simpl in E; discriminate.
  - unfold load_config_file_yaml in E1; destruct (file path) as [[s|er]|] eqn:Ef.
    + destruct (yaml s) as [v|er] eqn:Ey; cbn [bind] in E1; [|destruct (is_env_error er || is_YAMLError er); discriminate].
      destruct (process_config_file_yaml v) as [dt|er] eqn:Ep;
        [|destruct (is_env_error er || is_YAMLError er); discriminate].
      injection E1 as ->; apply (C50_rejection_error_partial env d v e Hd).
      * intros dt ->; eapply Hm; [reflexivity|exact Ey].
      * unfold config_from_contents; rewrite Ep; exact E.
    + destruct (is_env_error er || is_YAMLError er); discriminate.
    + injection E1 as <-; apply (C50_rejection_error_partial env d VNone e Hd); [discriminate|exact E].
Qed.

(** A group that is null (or a list, a text, ...) is not rejected with the configuration error
    but ends in an AttributeError. *)
Theorem C50_group_error_refuted :
  ~ forall env d v e, reachable d -> config_from_contents env d v = Err e -> e = ConfigValueError.
Proof.
  intros H.
  specialize (H root_env ex_desc (VDict [(KStr (u "net"), VNone)]) AttributeError
                ex_reachable eq_refl); discriminate H.
Qed.

Example C50_nonvacuous :
  let env := root_env in
  config_from_contents env ex_desc (VList []) = Err ConfigValueError /\
  config_from_contents env ex_desc (VDict [(KStr (u "name"), VInt 3%Z)]) = Err ConfigValueError /\
  (exists c, config_from_contents env ex_desc
     (VDict [(KStr (u "net"), VDict [(KStr (u "tags"), VList [VStr (u "x")])])]) = Ok c) /\
  (exists c, config_from_contents env ex_desc VNone = Ok c).
Proof. repeat split; try reflexivity; eexists; reflexivity. Qed.

(** ** C65 *)
(** Entries that are not described are ignored, at the top level and in groups. *)
Theorem C65_unknown_entries_ignored env d data data' c : reachable d ->
  (forall g, In g (map fst (d_groups d)) ->
     (exists gd, get (KStr g) data = Some (VDict gd)) /\ (exists gd, get (KStr g) data' = Some (VDict gd))) ->
  (forall name it v, In (name, it) (d_items d) -> (option_at name data v <-> option_at name data' v)) ->
  config_from_parsed_yaml env data d false = Ok c -> config_from_parsed_yaml env data' d false = Ok c.
Proof.
  intros Hd Hg Hv; apply reachable_names_ok in Hd; rewrite !parsed_eq; intros E.
  eapply build_mono; [assumption|exact E|]; intros name it v Hit E1.
  change (parsed_value env data name it = Ok v) in E1; change (parsed_value env data' name it = Ok v).
  assert (Hm : groups_are_mappings d data) by (intros g Hin; right; apply Hg; assumption).
  assert (Hm' : groups_are_mappings d data') by (intros g Hin; right; apply Hg; assumption).
  destruct (file_gives_ex name data) as [raw Hf].
  rewrite (parsed_value_mapping env d data name it raw Hd Hm Hit Hf) in E1.
  rewrite (parsed_value_mapping env d data' name it raw Hd Hm' Hit); [assumption|].
  apply get_In in Hit; unfold file_gives in *; destruct Hf as [Hf|[Hf ->]].
  - left; apply (Hv name it raw Hit); assumption.
  - right; split; [|reflexivity]; intros w Hw; apply (Hf w), (Hv name it w Hit); assumption.
Qed.

Example C65_nonvacuous :
  let env := root_env in
  let g := (KStr (u "net"), VDict [(KStr (u "tags"), VNone); (KStr (u "other"), VInt 1%Z)]) in
  config_from_parsed_yaml env [(KStr (u "what"), VInt 1%Z); g] ex_desc false =
  config_from_parsed_yaml env [(KStr (u "net"), VDict [])] ex_desc false.
Proof. reflexivity. Qed.

(** ** C49 *)
(** Well-typed configurations whose merging dictionaries have unique keys (as all python
    dictionaries do). *)
Definition config_ok (d : desc) (c : pydict) : Prop :=
  forall name it, get name (d_items d) = Some it ->
    exists v, option_at name c v /\ has_type (i_type it) v /\
      forall k e dd, i_type it = TMerging k e -> v = VDict dd -> NoDup (map fst dd).

Definition same_options (d : desc) (c c' : pydict) : Prop :=
  forall name it v, In (name, it) (d_items d) -> (option_at name c v <-> option_at name c' v).

(** The configuration in which no described option is set. *)
Definition all_unset (d : desc) (c : pydict) : Prop :=
  forall name it, get name (d_items d) = Some it ->
    option_at name c (match i_type it with TMerging _ _ => VDict [] | _ => VNone end).

Lemma config_ok_complete d c : config_ok d c -> complete d c.
Proof. intros H name it Hit; destruct (H name it Hit) as (v & Hv & _); eauto. Qed.

Definition val_ok (t : ctype) (v : pyval) : Prop :=
  has_type t v /\ forall k e dd, t = TMerging k e -> v = VDict dd -> wf dd.

Lemma merge_type_val_ok t x y : val_ok t x -> val_ok t y -> exists m, merge_type t x y = Ok m /\ val_ok t m.
Proof.
  intros [Hx Wx] [Hy Wy]; destruct (merge_type_typed t x y Hx Hy) as (m & Em & Hm).
  exists m; split; [assumption|split; [assumption|]].
  intros k e dd -> ->; simpl in Hx, Hy; destruct Hx as (dx & -> & _), Hy as (dy & -> & _).
  simpl in Em; injection Em as <-; apply wf_update, (Wy k e); reflexivity.
Qed.

Lemma merge_type_assoc t x y z xy yz :
  val_ok t x -> val_ok t y -> val_ok t z ->
  merge_type t x y = Ok xy -> merge_type t y z = Ok yz ->
  exists r, merge_type t xy z = Ok r /\ merge_type t x yz = Ok r.
Proof.
  intros [Hx Wx] [Hy Wy] [Hz Wz] Exy Eyz; destruct t as [| | |e|k e|k e|].
  6: { simpl in Hx, Hy, Hz; destruct Hx as (dx & -> & _), Hy as (dy & -> & _), Hz as (dz & -> & _).
       simpl in Exy, Eyz; injection Exy as <-; injection Eyz as <-; simpl.
       exists (VDict (update (update dz dy) dx)); rewrite update_assoc; eauto. }
  all: cbn [merge_type] in *;
    match type of Exy with Ok ?a = _ => assert (E1 : xy = a) by congruence end;
    match type of Eyz with Ok ?a = _ => assert (E2 : yz = a) by congruence end;
    rewrite E1, E2; clear E1 E2 Exy Eyz; (eexists; split; [reflexivity|]);
    destruct (is_unset _ x) eqn:E; rewrite ?E; reflexivity.
Qed.

Lemma merge_configs_ok2 d a b : reachable d -> config_ok d a -> config_ok d b ->
  exists r, merge_configs d a [b] = Ok r /\ config_ok d r /\
    forall name it x y, get name (d_items d) = Some it -> option_at name a x -> option_at name b y ->
      exists m, merge_type (i_type it) x y = Ok m /\ option_at name r m.
Proof.
  intros Hr Ha Hb; pose proof (reachable_names_ok _ Hr) as Hd.
  assert (Hval : forall c, config_ok d c -> forall name it v, get name (d_items d) = Some it ->
                 conf_get name c = Some v -> val_ok (i_type it) v).
  { intros c Hc name it v Hit Hv; destruct (Hc name it Hit) as (w & Hw & Ht & Hn).
    apply option_at_get in Hw; assert (w = v) by congruence; subst; split; assumption. }
  destruct (merge_configs_total d a [b] Hd) as [r Er].
  - apply config_ok_complete; assumption.
  - constructor; [apply config_ok_complete; assumption|constructor].
  - intros name it x ys Hit Hx Hys; inversion Hys as [|? y ? l Hy Hl]; subst; inversion Hl; subst.
    destruct (merge_type_val_ok (i_type it) x y) as (m & Em & _); [exact (Hval a Ha name it x Hit Hx)|exact (Hval b Hb name it y Hit Hy)|].
    exists m; simpl; rewrite Em; reflexivity.
  - exists r; split; [assumption|].
    destruct (merge_configs_Ok _ _ _ _ Hd (config_ok_complete _ _ Ha) Er) as [_ Hm].
    assert (Hres : forall name it, get name (d_items d) = Some it ->
      exists x y m, conf_get name a = Some x /\ conf_get name b = Some y /\
        merge_type (i_type it) x y = Ok m /\ conf_get name r = Some m).
    { intros name it Hit; destruct (Hm name it Hit) as (x & ys & v & Hx & Hys & Em & Hv).
      inversion Hys as [|? y ? l Hy Hl]; subst; inversion Hl; subst.
      cbn [foldM] in Em; apply bind_Ok in Em; destruct Em as (m & Em & Eq); injection Eq as ->.
      exists x, y, v; auto. }
    split.
    + intros name it Hit; destruct (Hres name it Hit) as (x & y & m & Hx & Hy & Em & Hv).
      destruct (merge_type_val_ok (i_type it) x y) as (m' & Em' & [Ht Hw]);
        [exact (Hval a Ha name it x Hit Hx)|exact (Hval b Hb name it y Hit Hy)|].
      exists m; split; [apply option_at_get; assumption|].
      assert (m' = m) by congruence; subst; split; [assumption|exact Hw].
    + intros name it x y Hit Hx Hy; apply option_at_get in Hx, Hy.
      destruct (Hres name it Hit) as (x' & y' & m & Hx' & Hy' & Em & Hv).
      exists m; split; [congruence|apply option_at_get; assumption].
Qed.

Theorem C49_associative d a b c : reachable d -> config_ok d a -> config_ok d b -> config_ok d c ->
  exists ab bc r r', merge_configs d a [b] = Ok ab /\ merge_configs d b [c] = Ok bc /\
    merge_configs d ab [c] = Ok r /\ merge_configs d a [bc] = Ok r' /\ same_options d r r' /\
    merge_configs d a [b; c] = Ok r.
Proof.
  intros Hr Ha Hb Hc; pose proof (reachable_names_ok _ Hr) as Hd.
  destruct (merge_configs_ok2 d a b Hr Ha Hb) as (ab & Eab & Hab & Gab).
  destruct (merge_configs_ok2 d b c Hr Hb Hc) as (bc & Ebc & Hbc & Gbc).
  destruct (merge_configs_ok2 d ab c Hr Hab Hc) as (r & Er & Hrr & Gr).
  destruct (merge_configs_ok2 d a bc Hr Ha Hbc) as (r' & Er' & Hr' & Gr').
  exists ab, bc, r, r'; split; [assumption|split; [assumption|split; [assumption|split; [assumption|split]]]].
  - intros name it v Hin; apply In_get in Hin; [|apply (ok_items _ Hd)].
    assert (E : exists w, option_at name r w /\ option_at name r' w).
    { destruct (Ha name it Hin) as (x & Hx & Tx & Wx), (Hb name it Hin) as (y & Hy & Ty & Wy),
        (Hc name it Hin) as (z & Hz & Tz & Wz).
      destruct (Gab _ _ _ _ Hin Hx Hy) as (xy & Exy & Hxy), (Gbc _ _ _ _ Hin Hy Hz) as (yz & Eyz & Hyz).
      destruct (merge_type_assoc (i_type it) x y z xy yz) as (w & E1 & E2);
        [split; assumption|split; assumption|split; assumption|assumption|assumption|].
      destruct (Gr _ _ _ _ Hin Hxy Hz) as (w1 & Ew1 & Hw1), (Gr' _ _ _ _ Hin Hx Hyz) as (w2 & Ew2 & Hw2).
      exists w; split; congruence. }
    destruct E as (w & Hw & Hw'); split; intros H.
    + rewrite (option_at_fun _ _ _ _ H Hw); assumption.
    + rewrite (option_at_fun _ _ _ _ H Hw'); assumption.
  - unfold merge_configs in Eab, Er |- *.
    rewrite copy_config_id in Eab, Er |- * by (try assumption; apply config_ok_complete; assumption).
    cbn [bind foldM] in *; destruct (foldM (merge_item b) (d_items d) a); cbn [bind] in *; [|discriminate].
    injection Eab as <-; exact Er.
Qed.

Theorem C49_unset_is_unit d c n : reachable d -> config_ok d c -> all_unset d n ->
  exists r r', merge_configs d n [c] = Ok r /\ merge_configs d c [n] = Ok r' /\
    same_options d r c /\ same_options d r' c.
Proof.
  intros Hr Hc Hn; pose proof (reachable_names_ok _ Hr) as Hd.
  assert (Hno : config_ok d n).
  { intros name it Hit; eexists; split; [apply (Hn name it Hit)|]; split.
    - destruct (i_type it); simpl; auto; exists []; split; [reflexivity|constructor].
    - intros k e dd Et; rewrite Et; intros E; injection E as <-; constructor. }
  destruct (merge_configs_ok2 d n c Hr Hno Hc) as (r & Er & _ & Gr).
  destruct (merge_configs_ok2 d c n Hr Hc Hno) as (r' & Er' & _ & Gr').
  exists r, r'; split; [assumption|split; [assumption|]].
  assert (Hboth : forall name it v, get name (d_items d) = Some it -> option_at name c v ->
                  option_at name r v /\ option_at name r' v).
  { intros name it v Hit Hv; pose proof (Hn name it Hit) as Hu.
    destruct (Gr _ _ _ _ Hit Hu Hv) as (m & Em & Hm), (Gr' _ _ _ _ Hit Hv Hu) as (m' & Em' & Hm').
    destruct (Hc name it Hit) as (w & Hw & Ht & Hnd); assert (w = v) by (eapply option_at_fun; eassumption); subst w.
    destruct (i_type it) as [| | |e|k e|k e|] eqn:Et.
    6: { simpl in Ht; destruct Ht as (dd & -> & _); simpl in Em, Em'.
         injection Em as <-; injection Em' as <-; split; [exact Hm|].
         rewrite update_nil_l in Hm' by (eapply Hnd; reflexivity); exact Hm'. }
    all: cbn [merge_type] in Em, Em'; injection Em as <-; injection Em' as <-; split; [exact Hm|];
      destruct (is_unset _ v) eqn:Eu; [|exact Hm'];
      apply is_unset_none in Eu; [|exact I]; subst v; exact Hm'. }
  split; intros name it v Hin; apply In_get in Hin; try apply (ok_items _ Hd);
    (split; [|intros H; apply (Hboth name it); assumption]);
    intros H; destruct (Hc name it Hin) as (w & Hw & _); destruct (Hboth name it w Hin Hw) as [H1 H2].
  - rewrite (option_at_fun _ _ _ _ H H1); assumption.
  - rewrite (option_at_fun _ _ _ _ H H2); assumption.
Qed.

(** Nothing set in the configuration of higher priority is lost: a set value stays, and of a
    merging dictionary every entry stays. *)
Theorem C49_higher_priority_kept d a b name it x : reachable d -> config_ok d a -> config_ok d b ->
  In (name, it) (d_items d) -> option_at name a x ->
  exists r v, merge_configs d a [b] = Ok r /\ option_at name r v /\
    match i_type it with
    | TMerging _ _ => exists dx dv, x = VDict dx /\ v = VDict dv /\
                        forall k w, get k dx = Some w -> get k dv = Some w
    | _ => x <> VNone -> v = x
    end.
Proof.
  intros Hr Ha Hb Hin Hx; pose proof (reachable_names_ok _ Hr) as Hd.
  apply In_get in Hin; [|apply (ok_items _ Hd)].
  destruct (merge_configs_ok2 d a b Hr Ha Hb) as (r & Er & _ & Gr).
  destruct (Hb name it Hin) as (y & Hy & Ty & Wy).
  destruct (Ha name it Hin) as (x' & Hx' & Tx & Wx).
  assert (x' = x) by (eapply option_at_fun; eassumption); subst x'.
  destruct (Gr _ _ _ _ Hin Hx Hy) as (m & Em & Hm).
  exists r, m; split; [assumption|split; [assumption|]].
  destruct (i_type it) as [| | |e|k e|k e|] eqn:Et.
  6: { simpl in Tx, Ty; destruct Tx as (dx & -> & _), Ty as (dy & -> & _); simpl in Em; injection Em as <-.
       exists dx, (update dy dx); split; [reflexivity|split; [reflexivity|]].
       intros k0 w Hw; rewrite get_update, Hw by (eapply Wx; reflexivity); reflexivity. }
  all: intros Hne; cbn [merge_type] in Em; injection Em as <-;
    destruct (is_unset _ x) eqn:Eu; [|reflexivity]; apply is_unset_none in Eu; [congruence|exact I].
Qed.

Example C49_nonvacuous :
  let c m := [(KStr (u "net"), VDict [(KStr (u "tags"), VNone)]); (KStr (u "name"), VNone);
              (KStr (u "map"), VDict m); (KStr (u "dir"), VStr (u "/x"))] in
  let a := c [(KStr (u "k"), VStr (u "1"))] in
  let b := c [(KStr (u "k"), VStr (u "2")); (KStr (u "l"), VStr (u "3"))] in
  config_ok ex_desc a /\ config_ok ex_desc b /\
  merge_configs ex_desc a [b] = Ok (c [(KStr (u "k"), VStr (u "1")); (KStr (u "l"), VStr (u "3"))]).
Proof.
  assert (H : forall m, wf m -> Forall (fun p => key_has_type KtString (fst p) /\ has_type TString (snd p)) m ->
    config_ok ex_desc [(KStr (u "net"), VDict [(KStr (u "tags"), VNone)]); (KStr (u "name"), VNone);
              (KStr (u "map"), VDict m); (KStr (u "dir"), VStr (u "/x"))]).
  { intros m Hw Hm name it Hit; apply get_In in Hit; simpl in Hit.
    destruct Hit as [E|[E|[E|[E|[]]]]]; injection E as <- <-;
      (eexists; split; [apply option_at_get; reflexivity|]); split; simpl; eauto; try discriminate.
    intros k e dd _ E; injection E as <-; exact Hw. }
  cbv zeta; split; [|split; [|reflexivity]]; apply H.
  - repeat constructor; simpl; intuition congruence.
  - constructor; [|constructor]; split; right; eexists; reflexivity.
  - repeat constructor; simpl; intuition congruence.
  - constructor; [|constructor; [|constructor]]; split; right; eexists; reflexivity.
Qed.

(** ** C46 *)
(** The value the command line gives to an option, [None] standing for "not given". *)
Definition command_line_gives (env : penv) (yaml : text -> res pyval) (args : clargs) (it : item) (v : pyval) : Prop :=
  if i_command_line it then
    exists f given, i_argument it = Some f /\ get (underscorify f) (a_values args) = Some given /\
      from_command_line env yaml (i_type it) given = Ok v
  else v = unset (i_type it).

(** The value a configuration file gives to an option. *)
Definition config_file_gives (env : penv) (yaml : text -> res pyval) (file : text -> option (res text))
    (path name : text) (it : item) (v : pyval) : Prop :=
  exists data raw, load_config_file_yaml yaml file path = Ok data /\ file_gives name data raw /\
    from_yaml env (i_type it) raw = Ok v.

Theorem C46_priority env yaml file args d tool c name it :
  reachable d -> In (name, it) (d_items d) ->
  (forall dd, i_default it = VDict dd -> NoDup (map fst dd)) ->
  load_config env yaml file args d tool = Ok c ->
  exists vcl vfs v,
    command_line_gives env yaml args it vcl /\
    Forall2 (fun dir => config_file_gives env yaml file (path_join dir (d_namespace d)) name it)
      (config_dirs env args tool) vfs /\
    option_at name c v /\
    combined (i_type it) (vcl :: vfs ++ [i_default it]) v.
Proof.
  intros Hr Hin Hdf E; pose proof (reachable_names_ok _ Hr) as Hd.
  apply In_get in Hin; [|apply (ok_items _ Hd)].
  destruct (load_config_values _ _ _ _ _ _ _ Hd E) as [_ Hv].
  destruct (Hv name it Hin) as (vcl & vfs & v & Ecl & Hfs & Hm & Hc).
  exists vcl, vfs, v; split; [|split; [|split]].
  - unfold arg_value in Ecl; unfold command_line_gives; destruct (i_command_line it); [|congruence].
    destruct (i_argument it) as [f|]; [|discriminate]; apply bind_Ok in Ecl; destruct Ecl as (g & Eg & Ecl).
    exists f, g; split; [reflexivity|split; [apply getitem_Ok; assumption|assumption]].
  - clear - Hfs; induction Hfs as [|dir vf l l' (data & raw & H1 & H2 & H3) Hl IH]; constructor; [|assumption].
    exists data, raw; auto.
  - apply option_at_get; assumption.
  - apply merge_values_combined; [|eapply arg_value_typed; exact Ecl|assumption].
    destruct (i_type it) as [| | |e|k e|k e|] eqn:Et; try exact I.
    constructor; [eapply arg_value_top_wf; eassumption|]; apply Forall_app; split.
    + clear - Hfs; induction Hfs as [|x y l l' (data & raw & _ & _ & Ey) Hl IH]; constructor;
        [eapply from_yaml_top_wf; exact Ey|assumption].
    + constructor; [exact Hdf|constructor].
Qed.

(** Which files are read, in order of priority. *)
Theorem C46_files env args tool :
  (forall dir, a_config_dir args = Some dir -> config_dirs env args tool = [dir]) /\
  (a_config_dir args = None -> a_no_user_config args = true ->
     config_dirs env args tool = [path_join (path_join (a_prefix args) (u "etc")) tool]) /\
  (a_config_dir args = None -> a_no_user_config args = false ->
     config_dirs env args tool = [path_join (expanduser env (u "~/.config")) tool;
                                  path_join (path_join (a_prefix args) (u "etc")) tool]).
Proof.
  unfold config_dirs; split; [intros dir ->; reflexivity|].
  split; intros -> ->; reflexivity.
Qed.

(** What the occurrences of its flag on the command line give to an option. *)
Definition values_of (flag : text) (occs : list (text * text)) : list text :=
  map snd (filter (fun o => eqb (fst o) flag) occs).
Definition own_occurrences (it : item) (flag : text) (occs : list (text * text)) : clval :=
  match values_of flag occs with
  | [] => CLNone
  | l => if cl_multiple (i_type it) then CLList l else CLText (List.last l [])
  end.

(** Flags that argparse stores under the name the configuration looks them up by, and under
    different names for different flags. *)
Definition flags_ok (d : desc) : Prop :=
  (forall f it, In (f, it) (d_arguments d) -> ~ In slash f /\ forall r, f <> minus :: r) /\
  (forall f i g j, In (f, i) (d_arguments d) -> In (g, j) (d_arguments d) -> f <> g ->
     replace_char minus underscore f <> replace_char minus underscore g).

Lemma lstrip_minus_id f : (forall r, f <> minus :: r) -> lstrip_minus f = f.
Proof.
  destruct f as [|c r]; simpl; intros H; [reflexivity|].
  destruct (eqb_spec c minus) as [->|]; [exfalso; apply (H r); reflexivity|reflexivity].
Qed.

Lemma replace_char_id a b s : ~ In a s -> replace_char a b s = s.
Proof.
  unfold replace_char; induction s as [|c s IH]; simpl; intros H; [reflexivity|].
  destruct (eqb_spec c a) as [->|]; [tauto|]; rewrite IH by tauto; reflexivity.
Qed.

Lemma replace_char_In a b c s : c <> b -> In c (replace_char a b s) -> In c s.
Proof.
  unfold replace_char; intros Hn Hin; apply in_map_iff in Hin; destruct Hin as (x & E & Hx).
  destruct (eqb_spec x a); [subst; congruence|]; subst; assumption.
Qed.

Lemma values_of_app flag l o : values_of flag (l ++ [o]) =
  values_of flag l ++ (if eqb (fst o) flag then [snd o] else []).
Proof.
  unfold values_of; rewrite filter_app, map_app; simpl; destruct (eqb (fst o) flag); reflexivity.
Qed.

Theorem C46_command_line d occs ns f it :
  NoDup (map fst (d_arguments d)) -> flags_ok d ->
  parse_args d occs = Ok ns -> In (f, it) (d_arguments d) ->
  get (underscorify f) ns = Some (own_occurrences it f occs).
Proof.
  intros Hnd [Hplain Hdist] E Hin.
  assert (Hdest : forall f i, In (f, i) (d_arguments d) -> argparse_dest f = replace_char minus underscore f).
  { intros f0 i0 H0; destruct (Hplain _ _ H0) as [_ Hm]; unfold argparse_dest; rewrite lstrip_minus_id; auto. }
  assert (Hu : underscorify f = argparse_dest f).
  { rewrite (Hdest _ _ Hin); unfold underscorify; apply replace_char_id; intros H.
    apply replace_char_In in H; [|discriminate]; destruct (Hplain _ _ Hin); tauto. }
  rewrite Hu.
  assert (Hstep : forall l occ0 s s', foldM (parse_occurrence d) l s = Ok s' ->
            get (argparse_dest f) s = Some (own_occurrences it f occ0) ->
            get (argparse_dest f) s' = Some (own_occurrences it f (occ0 ++ l))).
  { induction l as [|o l IH]; cbn [foldM]; intros occ0 s s' El Hs.
    - rewrite app_nil_r; congruence.
    - apply bind_Ok in El; destruct El as (s1 & E1 & El).
      replace (occ0 ++ o :: l) with ((occ0 ++ [o]) ++ l) by (rewrite <- app_assoc; reflexivity).
      apply (IH _ s1 s' El); unfold parse_occurrence in E1.
      destruct (get (fst o) (d_arguments d)) as [io|] eqn:Eo; [|discriminate].
      apply get_In in Eo; unfold own_occurrences; rewrite values_of_app.
      destruct (eqb_spec (fst o) f) as [Ef|Ef].
      + assert (io = it).
        { rewrite Ef in Eo; apply In_get in Eo; [|assumption]; apply In_get in Hin; [|assumption]; congruence. }
        subst io; rewrite Ef in E1; unfold own_occurrences in Hs; rewrite Hs in E1.
        destruct (cl_multiple (i_type it)).
        * injection E1 as <-; rewrite get_set, eqb_refl; f_equal.
          destruct (values_of f occ0) as [|x l0]; reflexivity.
        * injection E1 as <-; rewrite get_set, eqb_refl; f_equal.
          destruct (values_of f occ0) as [|x l0]; [reflexivity|].
          cbn [app]; rewrite app_comm_cons, last_last; reflexivity.
      + rewrite app_nil_r; fold (own_occurrences it f occ0); rewrite <- Hs.
        assert (Hne : argparse_dest f <> argparse_dest (fst o)).
        { rewrite (Hdest _ _ Hin), (Hdest _ _ Eo); apply (Hdist _ _ _ _ Hin Eo); congruence. }
        destruct (cl_multiple (i_type io)); injection E1 as <-; rewrite get_set;
          destruct (eqb_spec (argparse_dest f) (argparse_dest (fst o))); congruence. }
  unfold parse_args in E; apply (Hstep occs [] _ _ E).
  change (own_occurrences it f []) with CLNone; unfold initial_values.
  clear - Hin; revert Hin; generalize (@nil (text * clval)); generalize (d_arguments d).
  assert (H : forall (l : dict text item) s, get (argparse_dest f) s = Some CLNone ->
    get (argparse_dest f) (fold_left (fun ns p => set (argparse_dest (fst p)) CLNone ns) l s) = Some CLNone).
  { induction l as [|p l IH]; simpl; intros s Hs; [assumption|].
    apply IH; rewrite get_set; destruct (eqb _ _); congruence. }
  induction l as [|p l IH]; cbn [fold_left]; intros s Hin; [destruct Hin|].
  destruct Hin as [->|Hin]; [|apply IH; assumption].
  apply H; rewrite get_set, eqb_refl; reflexivity.
Qed.

(** The flags of xylem's own options are of this kind. *)
Theorem C46_xylem_flags : exists d,
  build_config_description = Ok d /\ reachable d /\ NoDup (map fst (d_arguments d)) /\ flags_ok d.
Proof.
  destruct build_config_description as [d|e] eqn:E; [|vm_compute in E; discriminate].
  exists d; split; [reflexivity|].
  assert (Hd : d = description_of (u "config.yaml") xylem_items).
  { vm_compute in E; injection E as <-; vm_compute; reflexivity. }
  split; [exists (u "config.yaml"), xylem_items; assumption|].
  clear E; subst d.
  assert (Hf : map fst (d_arguments (description_of (u "config.yaml") xylem_items)) =
    [u "os"; u "os-features"; u "core-installers"; u "use-additional-installers"; u "install-from";
     u "installer-options"; u "user-sources"; u "cache-dir"; u "sources-dir"; u "disable-os-plugins";
     u "disable-installer-plugins"; u "disable-spec-plugins"]) by (vm_compute; reflexivity).
  set (D := d_arguments (description_of (u "config.yaml") xylem_items)) in *.
  split.
  - rewrite Hf.
    assert (Hb : forall l : list text, (fix nodupb (l : list text) := match l with [] => true | x :: l => negb (mem x l) && nodupb l end) l = true -> NoDup l).
    { induction l as [|x l IH]; intros H; constructor; apply andb_true_iff in H; destruct H as [H1 H2];
        [|apply IH; assumption]; apply negb_true_iff in H1; intros Hin.
      apply mem_In in Hin; congruence. }
    apply Hb; vm_compute; reflexivity.
  - assert (Hfl : forall f it, In (f, it) D -> In f (map fst D)) by (intros f it H; apply (in_map fst) in H; exact H).
    split.
    + intros f it H; apply Hfl in H; rewrite Hf in H.
      assert (Hall : forallb (fun f => negb (mem slash f) && match f with c :: _ => negb (eqb c minus) | [] => true end) 
                       (map fst D) = true) by (rewrite Hf; vm_compute; reflexivity).
      rewrite Hf in Hall; rewrite forallb_forall in Hall; specialize (Hall f H).
      apply andb_true_iff in Hall; destruct Hall as [H1 H2]; split.
      * intros Hs; apply mem_In in Hs; rewrite Hs in H1; discriminate.
      * intros r ->; rewrite eqb_refl in H2; discriminate.
    + intros f i g j H1 H2 Hne Eq; apply Hfl in H1, H2; rewrite Hf in H1, H2.
      assert (Hinj : forall l : list text, forallb (fun f => forallb (fun g => eqb f g || negb (eqb (replace_char minus underscore f) (replace_char minus underscore g))) l) l = true ->
        forall f g, In f l -> In g l -> f <> g -> replace_char minus underscore f <> replace_char minus underscore g).
      { intros l Hl f0 g0 Hf0 Hg0 Hn0 E0; rewrite forallb_forall in Hl; specialize (Hl f0 Hf0).
        rewrite forallb_forall in Hl; specialize (Hl g0 Hg0).
        apply orb_true_iff in Hl; destruct Hl as [Hl|Hl]; [destruct (eqb_spec f0 g0); [contradiction|discriminate]|].
        rewrite E0, eqb_refl in Hl; discriminate. }
      revert Eq; refine (Hinj _ _ f g H1 H2 Hne); vm_compute; reflexivity.
Qed.

(** In general two accepted options can share one destination: the value given for one flag is
    then taken for the other option as well. *)
Theorem C46_shared_destination_refuted :
  ~ forall d occs ns f it, reachable d -> NoDup (map fst (d_arguments d)) ->
      parse_args d occs = Ok ns -> In (f, it) (d_arguments d) ->
      get (underscorify f) ns = Some (own_occurrences it f occs).
Proof.
  intros H.
  set (i1 := make_item (u "one") TString VNone None (Some (u "a-b")) None).
  set (i2 := make_item (u "two") TString VNone None (Some (u "a_b")) None).
  set (d := description_of [] [i1; i2]).
  assert (Hr : reachable d) by (exists [], [i1; i2]; reflexivity).
  assert (Hn : NoDup (map fst (d_arguments d)))
    by (repeat constructor; simpl; intuition discriminate).
  specialize (H d [(u "a_b", u "X")] [(u "a_b", CLText (u "X"))] (u "a-b") i1 Hr Hn eq_refl (or_introl eq_refl)).
  discriminate H.
Qed.

Example C46_nonvacuous :
  let env := me_env in
  let user := VDict [(KStr (u "name"), VStr (u "user")); (KStr (u "map"), VDict [(KStr (u "m"), VStr (u "user"))])] in
  let system := VDict [(KStr (u "name"), VStr (u "system")); (KStr (u "dir"), VStr (u "/sys"));
                       (KStr (u "map"), VDict [(KStr (u "m"), VStr (u "system")); (KStr (u "k"), VStr (u "system"))])] in
  let yaml s := if eqb s (u "USER") then Ok user else if eqb s (u "SYSTEM") then Ok system
                else Ok (VList [VStr s]) in
  let file p := if eqb p (u "/home/me/.config/tool/conf.yaml") then Some (Ok (u "USER"))
                else if eqb p (u "/etc/tool/conf.yaml") then Some (Ok (u "SYSTEM")) else None in
  exists ns c,
    parse_args ex_desc [(u "tag", u "a"); (u "tag", u "b")] = Ok ns /\
    load_config env yaml file {| a_config_dir := None; a_prefix := u "/"; a_no_user_config := false; a_values := ns |}
      ex_desc (u "tool") = Ok c /\
    option_at (u "net/tags") c (VList [VStr (u "a"); VStr (u "b")]) /\
    option_at (u "name") c (VStr (u "user")) /\ option_at (u "dir") c (VStr (u "/sys")) /\
    option_at (u "map") c (VDict [(KStr (u "k"), VStr (u "system")); (KStr (u "m"), VStr (u "user"))]).
Proof.
  cbv zeta; eexists; eexists; split; [reflexivity|split; [reflexivity|]].
  repeat split; apply option_at_get; reflexivity.
Qed.

(** ** C52 *)
(** The texts of overrides are read back exactly; missing for the full property: rejection of
    texts that are not of the form (see below). *)
Theorem C52_format_parse_partial name version features :
  override_ok name version features ->
  parse_os_override (format_override name version features) = (name, version, features).
Proof. apply parse_format. Qed.

(** Whatever is parsed can be formatted and parsed again. *)
Theorem C52_parse_stable_partial s name version features :
  parse_os_override s = (name, version, features) ->
  override_ok name version features /\
  parse_os_override (format_override name version features) = (name, version, features).
Proof. intros E; apply parse_ok in E; split; [assumption|apply parse_format; assumption]. Qed.

(** Nothing is rejected: texts without name or version give an empty name or version. *)
Theorem C52_empty_parts_refuted :
  ~ forall s name version features, parse_os_override s = (name, version, features) ->
      name <> [] /\ version <> Some [].
Proof. intros H; specialize (H (u ":") [] (Some []) None eq_refl); destruct H as [H _]; congruence. Qed.

Example C52_nonvacuous :
  override_ok (u "ubuntu") (Some (u "14.04")) (Some [u "a"; u "b"]) /\
  format_override (u "ubuntu") (Some (u "14.04")) (Some [u "a"; u "b"]) = u "ubuntu:14.04&a,b" /\
  parse_os_override (u " ubuntu : 14.04 & a , b ") = (u "ubuntu", Some (u "14.04"), Some [u "a"; u "b"]).
Proof.
  split; [|split; reflexivity].
  apply (parse_ok (u "ubuntu:14.04&a,b")); reflexivity.
Qed.

(** ** C66 *)
(** The directories after post-processing: an explicit setting wins; otherwise they are below
    the configuration directory given on the command line, or below the user's or the
    system's directories depending on [user_sources]. *)
Definition chosen_dir (explicit : pyval) (config_dir : option text) (user_sources : bool)
    (below_config user system : text) : pyval :=
  match explicit with
  | VNone => VStr (match config_dir with
                   | Some ((_ :: _) as d) => below_config
                   | _ => if user_sources then user else system
                   end)
  | _ => explicit
  end.

Theorem C66_directories env c args cache sources us ov c' :
  get (KStr (u "cache_dir")) c = Some cache -> get (KStr (u "sources_dir")) c = Some sources ->
  get (KStr (u "user_sources")) c = Some (VBool us) -> get (KStr (u "os_override")) c = Some ov ->
  process_config env c args = Ok c' ->
  let cd := match a_config_dir args with Some d => d | None => [] end in
  let user := path_join (expanduser env (u "~/.config")) (u "xylem") in
  get (KStr (u "cache_dir")) c' = Some (chosen_dir cache (a_config_dir args) us
    (path_join cd (u "cache")) (path_join user (u "cache"))
    (path_join (path_join (a_prefix args) (u "var/cache")) (u "xylem"))) /\
  get (KStr (u "sources_dir")) c' = Some (chosen_dir sources (a_config_dir args) us
    (path_join cd (u "sources.d")) (path_join user (u "sources.d"))
    (path_join (path_join (path_join (a_prefix args) (u "etc")) (u "xylem")) (u "sources.d"))).
Proof.
  intros Hc Hs Hu Ho E; unfold process_config in E.
  assert (Hattr : forall (c : pydict) n v, get (KStr n) c = Some v -> attr c n = Ok v)
    by (intros ? ? ? H; unfold attr; rewrite H; reflexivity).
  assert (N1 : eqb (KStr (u "sources_dir")) (KStr (u "cache_dir")) = false) by reflexivity.
  assert (N2 : eqb (KStr (u "user_sources")) (KStr (u "cache_dir")) = false) by reflexivity.
  assert (N3 : eqb (KStr (u "cache_dir")) (KStr (u "sources_dir")) = false) by reflexivity.
  assert (N4 : eqb (KStr (u "cache_dir")) (KStr (u "os_override")) = false) by reflexivity.
  assert (N5 : eqb (KStr (u "sources_dir")) (KStr (u "os_override")) = false) by reflexivity.
  assert (N6 : eqb (KStr (u "cache_dir")) (KStr (u "os_options")) = false) by reflexivity.
  assert (N7 : eqb (KStr (u "sources_dir")) (KStr (u "os_options")) = false) by reflexivity.
  rewrite (Hattr _ _ _ Hc) in E; cbn [bind] in E.
  apply bind_Ok in E; destruct E as (c1 & E1 & E).
  assert (G1 : get (KStr (u "cache_dir")) c1 = Some (chosen_dir cache (a_config_dir args) us
      (path_join (match a_config_dir args with Some d => d | None => [] end) (u "cache"))
      (path_join (path_join (expanduser env (u "~/.config")) (u "xylem")) (u "cache"))
      (path_join (path_join (a_prefix args) (u "var/cache")) (u "xylem"))) /\
    get (KStr (u "sources_dir")) c1 = Some sources /\ get (KStr (u "user_sources")) c1 = Some (VBool us)).
  { unfold chosen_dir; destruct cache;
      try (injection E1 as <-; rewrite Hc, Hs, Hu; split; [reflexivity|split; reflexivity]).
    assert (Hset : forall v, get (KStr (u "cache_dir")) (set (KStr (u "cache_dir")) v c) = Some v /\
      get (KStr (u "sources_dir")) (set (KStr (u "cache_dir")) v c) = Some sources /\
      get (KStr (u "user_sources")) (set (KStr (u "cache_dir")) v c) = Some (VBool us)).
    { intros v; rewrite !get_set, eqb_refl, N1, N2; auto. }
    destruct (a_config_dir args) as [[|x l]|];
      try (rewrite (Hattr _ _ _ Hu) in E1; cbn [bind truthy] in E1);
      injection E1 as <-; try exact (Hset _); destruct us; exact (Hset _). }
  destruct G1 as (G1 & G1s & G1u); rewrite (Hattr _ _ _ G1s) in E; cbn [bind] in E.
  apply bind_Ok in E; destruct E as (c2 & E2 & E).
  assert (G2 : get (KStr (u "cache_dir")) c2 = get (KStr (u "cache_dir")) c1 /\
    get (KStr (u "sources_dir")) c2 = Some (chosen_dir sources (a_config_dir args) us
    (path_join (match a_config_dir args with Some d => d | None => [] end) (u "sources.d"))
    (path_join (path_join (expanduser env (u "~/.config")) (u "xylem")) (u "sources.d"))
    (path_join (path_join (path_join (a_prefix args) (u "etc")) (u "xylem")) (u "sources.d")))).
  { unfold chosen_dir; destruct sources; try (injection E2 as <-; rewrite G1s; split; reflexivity).
    assert (Hset : forall v, get (KStr (u "cache_dir")) (set (KStr (u "sources_dir")) v c1) = get (KStr (u "cache_dir")) c1 /\
      get (KStr (u "sources_dir")) (set (KStr (u "sources_dir")) v c1) = Some v).
    { intros v; rewrite !get_set, eqb_refl, N3; auto. }
    destruct (a_config_dir args) as [[|x l]|];
      try (rewrite (Hattr _ _ _ G1u) in E2; cbn [bind truthy] in E2);
      injection E2 as <-; try exact (Hset _); destruct us; exact (Hset _). }
  destruct G2 as [G2 G2s]; rewrite G1 in G2.
  cbv zeta; rewrite <- G2, <- G2s.
  apply bind_Ok in E; destruct E as (o & Eo & E).
  destruct o as [| | |txt| | |]; try discriminate; [injection E as <-; split; reflexivity|].
  destruct (parse_os_override txt) as [[n v] [fs|]].
  - apply bind_Ok in E; destruct E as (oo & Eoo & E); destruct oo as [| | | | | |gd]; try discriminate.
    match type of E with Ok ?x = _ => assert (Ec : c' = x) by congruence end.
    rewrite Ec, !get_set, N4, N5, N6, N7; split; reflexivity.
  - match type of E with Ok ?x = _ => assert (Ec : c' = x) by congruence end.
    rewrite Ec, !get_set, N4, N5; split; reflexivity.
Qed.

(** Post-processing succeeds for every configuration that was loaded with xylem's own
    description, and stores the parsed override. *)
Theorem C66_post_processing_total env yaml file args d c :
  build_config_description = Ok d -> load_config env yaml file args d (u "xylem") = Ok c ->
  exists c', process_config env c args = Ok c' /\
    ((get (KStr (u "os_override")) c = Some VNone /\ get (KStr (u "os_override")) c' = Some VNone) \/
     exists s name version features,
       get (KStr (u "os_override")) c = Some (VStr s) /\ parse_os_override s = (name, version, features) /\
       get (KStr (u "os_override")) c' =
         Some (VList [VStr name; match version with Some v => VStr v | None => VNone end]) /\
       forall fs, features = Some fs -> option_at (u "os_options/features") c' (VList (map VStr fs))).
Proof.
  intros Ed El.
  assert (Hd : d = description_of (u "config.yaml") xylem_items)
    by (vm_compute in Ed; injection Ed as <-; vm_compute; reflexivity).
  assert (Hr : reachable d) by (exists (u "config.yaml"), xylem_items; assumption).
  assert (Hw : well_typed d c).
  { apply (C47_loaded_valid_partial env yaml file args d (u "xylem") c Hr); [|assumption].
    assert (Hx : forallb (fun p : text * item => match verify_type (i_type (snd p)) (i_default (snd p)) with Ok _ => true | Err _ => false end)
                   (d_items d) = true) by (rewrite Hd; vm_compute; reflexivity).
    rewrite forallb_forall in Hx; intros name it Hin; specialize (Hx _ Hin); cbn [snd] in Hx.
    destruct (verify_type (i_type it) (i_default it)) as [w|] eqn:E; [|discriminate].
    apply verify_Ok_eq in E; tauto. }
  assert (Hopt : forall n it, get n (d_items d) = Some it -> exists v, conf_get n c = Some v /\ has_type (i_type it) v).
  { intros n it H; destruct (Hw n it H) as (v & Hv & Ht); apply option_at_get in Hv; eauto. }
  assert (Hattr : forall (c : pydict) n v, get (KStr n) c = Some v -> attr c n = Ok v)
    by (intros ? ? ? H; unfold attr; rewrite H; reflexivity).
  assert (Hcache : exists v, get (KStr (u "cache_dir")) c = Some v).
  { edestruct (Hopt (u "cache_dir")) as (v & Hv & _); [rewrite Hd; vm_compute; reflexivity|]; exists v; exact Hv. }
  assert (Hsrc : exists v, get (KStr (u "sources_dir")) c = Some v).
  { edestruct (Hopt (u "sources_dir")) as (v & Hv & _); [rewrite Hd; vm_compute; reflexivity|]; exists v; exact Hv. }
  assert (Hus : exists v, get (KStr (u "user_sources")) c = Some v).
  { edestruct (Hopt (u "user_sources")) as (v & Hv & _); [rewrite Hd; vm_compute; reflexivity|]; exists v; exact Hv. }
  assert (Hov : exists v, get (KStr (u "os_override")) c = Some v /\ (v = VNone \/ exists s, v = VStr s)).
  { edestruct (Hopt (u "os_override")) as (v & Hv & Ht); [rewrite Hd; vm_compute; reflexivity|].
    exists v; split; [exact Hv|exact Ht]. }
  assert (Hoo : exists gd, get (KStr (u "os_options")) c = Some (VDict gd)).
  { edestruct (Hopt (u "os_options/features")) as (v & Hv & _); [rewrite Hd; vm_compute; reflexivity|].
    apply option_at_get in Hv; destruct Hv as [[Hn _]|(g & sn & gd & En & Hs & Hg & _)].
    - exfalso; apply Hn; vm_compute; tauto.
    - change (u "os_options" ++ slash :: u "features" = g ++ slash :: sn) in En.
      apply split_inj in En; [|vm_compute; intuition discriminate|assumption].
      destruct En as [<- _]; exists gd; exact Hg. }
  destruct Hcache as [vc Hvc], Hsrc as [vs Hvs], Hus as [vu Hvu], Hov as (vo & Hvo & Hto), Hoo as [gd Hgd].
  unfold process_config; rewrite (Hattr _ _ _ Hvc); cbn [bind].
  match goal with |- exists c', (let* c1 := ?X in _) = _ /\ _ =>
    assert (H1 : exists c1, X = Ok c1 /\ (c1 = c \/ exists v, c1 = set (KStr (u "cache_dir")) v c)) end.
  { destruct vc; try (eexists; split; [reflexivity|left; reflexivity]).
    destruct (a_config_dir args) as [[|x l]|]; try (rewrite (Hattr _ _ _ Hvu); cbn [bind]);
      eexists; (split; [reflexivity|right; eexists; reflexivity]). }
  destruct H1 as (c1 & -> & H1); cbn [bind].
  assert (G1 : forall n, eqb (KStr n) (KStr (u "cache_dir")) = false -> get (KStr n) c1 = get (KStr n) c).
  { intros n Hn; destruct H1 as [->|[v ->]]; [reflexivity|]; rewrite get_set, Hn; reflexivity. }
  rewrite (Hattr c1 (u "sources_dir") vs) by (rewrite G1; [exact Hvs|reflexivity]); cbn [bind].
  match goal with |- exists c', (let* c2 := ?X in _) = _ /\ _ =>
    assert (H2 : exists c2, X = Ok c2 /\ (c2 = c1 \/ exists v, c2 = set (KStr (u "sources_dir")) v c1)) end.
  { assert (Hvu1 : attr c1 (u "user_sources") = Ok vu) by (apply Hattr; rewrite G1; [exact Hvu|reflexivity]).
    destruct vs; try (eexists; split; [reflexivity|left; reflexivity]).
    destruct (a_config_dir args) as [[|x l]|]; try (rewrite Hvu1; cbn [bind]);
      eexists; (split; [reflexivity|right; eexists; reflexivity]). }
  destruct H2 as (c2 & -> & H2); cbn [bind].
  assert (G2 : forall n, eqb (KStr n) (KStr (u "cache_dir")) = false ->
               eqb (KStr n) (KStr (u "sources_dir")) = false -> get (KStr n) c2 = get (KStr n) c).
  { intros n Hn Hn'; rewrite <- (G1 n Hn); destruct H2 as [->|[v ->]]; [reflexivity|]; rewrite get_set, Hn'; reflexivity. }
  assert (Hvo2 : get (KStr (u "os_override")) c2 = Some vo) by (rewrite G2; [exact Hvo|reflexivity|reflexivity]).
  rewrite (Hattr _ _ _ Hvo2); cbn [bind].
  destruct Hto as [->|[s ->]]; [exists c2; split; [reflexivity|left; split; assumption]|].
  destruct (parse_os_override s) as [[name version] features] eqn:Ep.
  set (pair := VList [VStr name; match version with Some v => VStr v | None => VNone end]).
  assert (G3 : get (KStr (u "os_options")) (set (KStr (u "os_override")) pair c2) = Some (VDict gd)).
  { rewrite get_set; change (eqb (KStr (u "os_options")) (KStr (u "os_override"))) with false; cbv iota.
    rewrite G2; [exact Hgd|reflexivity|reflexivity]. }
  destruct features as [fs|].
  - rewrite (Hattr _ _ _ G3); cbn [bind]; eexists; split; [reflexivity|right].
    exists s, name, version, (Some fs); split; [assumption|split; [exact Ep|split]].
    + rewrite get_set; change (eqb (KStr (u "os_override")) (KStr (u "os_options"))) with false; cbv iota.
      rewrite get_set, eqb_refl; reflexivity.
    + intros fs' E; injection E as <-; right; exists (u "os_options"), (u "features"); eexists.
      split; [reflexivity|split; [vm_compute; intuition discriminate|]].
      rewrite get_set_same; split; [reflexivity|apply get_set_same].
  - eexists; split; [reflexivity|right]; exists s, name, version, None.
    split; [assumption|split; [exact Ep|split; [apply get_set_same|discriminate]]].
Qed.

Example C66_nonvacuous :
  exists c c', load_config me_env (fun _ => Ok VNone) (fun _ => None)
    {| a_config_dir := None; a_prefix := u "/"; a_no_user_config := false;
       a_values := map (fun n => (n, CLNone)) [u "os_features"; u "core_installers"; u "use_additional_installers";
         u "install_from"; u "installer_options"; u "user_sources"; u "cache_dir"; u "disable_os_plugins";
         u "disable_installer_plugins"; u "disable_spec_plugins"]
         ++ [(u "os", CLText (u "ubuntu:14.04")); (u "sources_dir", CLText (u "~/s"))] |}
    (description_of (u "config.yaml") xylem_items) (u "xylem") = Ok c /\
  process_config me_env c {| a_config_dir := None; a_prefix := u "/"; a_no_user_config := false; a_values := [] |} = Ok c' /\
  get (KStr (u "user_sources")) c = Some (VBool false) /\
  get (KStr (u "cache_dir")) c' = Some (VStr (u "/var/cache/xylem")) /\
  get (KStr (u "sources_dir")) c' = Some (VStr (u "/home/me/s")) /\
  get (KStr (u "os_override")) c' = Some (VList [VStr (u "ubuntu"); VStr (u "14.04")]).
Proof. do 2 eexists; split; [vm_compute; reflexivity|]; split; [vm_compute; reflexivity|]; repeat split; vm_compute; reflexivity. Qed.

Print Assumptions C46_priority.
Print Assumptions C46_files.
Print Assumptions C46_command_line.
Print Assumptions C46_xylem_flags.
Print Assumptions C46_shared_destination_refuted.
Print Assumptions C47_verification_exact.
Print Assumptions C47_parsed_values_valid.
Print Assumptions C47_loaded_valid_partial.
Print Assumptions C47_dictionary_valid_partial.
Print Assumptions C47_invalid_default_refuted.
Print Assumptions C47_declared_defaults.
Print Assumptions C48_value_idempotent.
Print Assumptions C48_config_idempotent.
Print Assumptions C49_associative.
Print Assumptions C49_unset_is_unit.
Print Assumptions C49_higher_priority_kept.
Print Assumptions C50_accepts_exactly.
Print Assumptions C50_rejection_error_partial.
Print Assumptions C50_file_error_partial.
Print Assumptions C50_group_error_refuted.
(** The flag of an option on the command line, without the dashes before it: [given] without leading --, or else
    the name, with - in place of _ and /. *)
Inductive flag_of (name : text) : option text -> text -> Prop :=
| flag_given f : f <> [] -> (forall r, f <> u "--" ++ r) -> flag_of name (Some f) f
| flag_dashes f : flag_of name (Some (u "--" ++ f)) f
| flag_from_name given f : given = None \/ given = Some [] ->
    Forall2 (fun a b : N => if eqb a 95%N || eqb a 47%N then b = 45%N else b = a) name f -> flag_of name given f.

Lemma dashify_char (name : text) : Forall2 (fun a b : N => if eqb a 95%N || eqb a 47%N then b = 45%N else b = a) name (dashify name).
Proof.
  unfold dashify, replace_char; induction name as [|c s IH]; cbn [map]; constructor; [|exact IH].
  unfold underscore, minus, slash; destruct (eqb_spec c 95%N) as [->|N1]; [reflexivity|].
  destruct (eqb_spec c 47%N) as [->|N2]; [reflexivity|]; reflexivity.
Qed.

(** An option is on the command line if asked for, or if not said and a flag or a placeholder is given. *)
Theorem C51_flag name t df cl given metavar :
  (i_command_line (make_item name t df cl given metavar) = true <->
     cl = Some true \/ cl = None /\ (given <> None \/ metavar <> None)) /\
  (i_command_line (make_item name t df cl given metavar) = true ->
     exists f, i_argument (make_item name t df cl given metavar) = Some f /\ flag_of name given f).
Proof.
  unfold make_item; cbn [i_command_line i_argument]; split.
  - destruct cl as [[]|].
    + split; auto.
    + split; [discriminate|]; intros [H|[H _]]; discriminate.
    + destruct given as [g|], metavar as [m|]; split; intros H; try reflexivity; try discriminate;
        try (right; split; [reflexivity|]; (left; discriminate) || (right; discriminate)).
      destruct H as [H|[_ [H|H]]]; [discriminate|exfalso; apply H; reflexivity|exfalso; apply H; reflexivity].
  - intros H; destruct given as [[|a g]|].
    + rewrite H; eexists; split; [reflexivity|]; apply flag_from_name; [auto|apply dashify_char].
    + eexists; split; [reflexivity|]; unfold strip_leading_dashdash; destruct g as [|b g].
      * apply flag_given; [discriminate|]; intros r E; discriminate.
      * destruct (eqb_spec a minus) as [->|N1]; [destruct (eqb_spec b minus) as [->|N2]|]; cbn [andb].
        -- apply (flag_dashes name g).
        -- apply flag_given; [discriminate|]; intros r E; unfold minus in *; injection E; intros; congruence.
        -- apply flag_given; [discriminate|]; intros r E; unfold minus in *; injection E; intros; congruence.
    + rewrite H; eexists; split; [reflexivity|]; apply flag_from_name; [auto|apply dashify_char].
Qed.

Example C51_flag_nonvacuous :
  i_argument (make_item (u "disabled_plugins/os") TAny VNone (Some true) None None) = Some (u "disabled-plugins-os") /\
  i_argument (make_item (u "os_override") TAny VNone None (Some (u "--os")) None) = Some (u "os").
Proof. split; vm_compute; reflexivity. Qed.

Print Assumptions C51_names_never_clash.
Print Assumptions C51_flags_distinct.
Print Assumptions C51_flag.
Print Assumptions C51_rejection_partial.
Print Assumptions C51_rejection_refuted.
Print Assumptions C52_format_parse_partial.
Print Assumptions C52_parse_stable_partial.
Print Assumptions C52_empty_parts_refuted.
Print Assumptions C64_paths_absolute.
Print Assumptions C65_unknown_entries_ignored.
Print Assumptions C66_directories.
Print Assumptions C66_post_processing_total.
