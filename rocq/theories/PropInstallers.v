(** Theorems about the installer base classes and plugins: C37-C39, C67-C70. *)
From Verif Require Import Base Dict PyVal Sources Util Terminal TerminalProofs Paths Config ConfigSpec
  ConfigTypeProofs ConfigProofs XylemConfig PropConfig Installer Installers Install InstallSpec
  InstallProofs PropInstall.

(** ** C37 *)
(** What a rule says under a key that holds a list of names: the list, or none if the key is
    missing or null.  [None] is a legal list entry for the type List(String). *)
Definition text_or_null (v : pyval) : Prop := v = VNone \/ exists s, v = VStr s.
Definition lists (rule : pydict) (key : text) (names : list pyval) : Prop :=
  (get (KStr key) rule = None /\ names = []) \/
  (get (KStr key) rule = Some VNone /\ names = []) \/
  (get (KStr key) rule = Some (VList names) /\ Forall text_or_null names).

Definition raw_of (k : text) (r : pydict) : pyval :=
  match get (KStr k) r with Some v => v | None => VNone end.

Lemma parse_base env r :
  config_from_parsed_yaml env r (rule_description []) true =
  let* p := from_yaml env (TList TString) (raw_of (u "packages") r) in
  let* q := from_yaml env (TList TString) (raw_of (u "depends") r) in
  let d v := if is_unset (TList TString) v then VList [] else v in
  Ok [(KStr (u "packages"), d p); (KStr (u "depends"), d q)].
Proof.
  assert (B : build (rule_description []) (fun _ => Ok tt)
                (fun g s it => yaml_value env (match get (KStr g) r with
                                           | Some v => v | None => VDict [] end) s it)
                (fun n it => yaml_value env (VDict r) n it) =
   let* p := from_yaml env (TList TString) (raw_of (u "packages") r) in
   let* q := from_yaml env (TList TString) (raw_of (u "depends") r) in
   Ok [(KStr (u "packages"), p); (KStr (u "depends"), q)]).
  { unfold build, raw_of; change (d_groups (rule_description [])) with (@nil (text * dict text item)).
    cbn [foldM bind].
    change (d_items (rule_description [])) with
      [(u "packages", make_item (u "packages") (TList TString) (VList []) None None None);
       (u "depends", make_item (u "depends") (TList TString) (VList []) None None None)].
    cbn [foldM].
    change (is_group_name (fst (u "packages", _))) with false.
    change (is_group_name (fst (u "depends", _))) with false.
    cbn [fst snd yaml_value make_item i_type].
    destruct (from_yaml env (TList TString) _); [|reflexivity]; cbn [bind].
    destruct (from_yaml env (TList TString) _); reflexivity. }
  unfold config_from_parsed_yaml; rewrite B.
  destruct (from_yaml _ _ _); [|reflexivity].
  cbn [bind]; destruct (from_yaml _ _ _); reflexivity.
Qed.

Lemma names_yaml env v w : from_yaml env (TList TString) v = Ok w <->
  (v = VNone /\ w = VNone) \/ (exists l, v = VList l /\ w = v /\ Forall text_or_null l).
Proof.
  assert (Hl : forall l w, mapM (from_yaml env TString) l = Ok w <-> w = l /\ Forall text_or_null l).
  { induction l as [|x l IH]; intros w'; cbn [mapM].
    - split; [intros E; injection E as <-; split; [reflexivity|constructor]|intros [-> _]; reflexivity].
    - split.
      + intros E; apply bind_Ok in E; destruct E as (y & Ey & E).
        apply bind_Ok in E; destruct E as (ys & Eys & E); injection E as <-.
        apply IH in Eys; destruct Eys as [-> HF].
        assert (Hx : text_or_null x /\ y = x).
        { destruct x; cbn in Ey; try discriminate; injection Ey as <-; split; try reflexivity;
            [left; reflexivity|right; eexists; reflexivity]. }
        destruct Hx as [Hx ->]; split; [reflexivity|constructor; assumption].
      + intros [-> HF]; inversion HF as [|? ? Hx HF']; subst.
        rewrite (proj2 (IH l) (conj eq_refl HF')).
        destruct Hx as [->|[s ->]]; reflexivity. }
  destruct v as [|b|z|s|s|l|d]; try (split; [discriminate|intros [[D _]|(l & D & _)]; discriminate]).
  - split; [intros E; injection E as <-; left; split; reflexivity|].
    intros [[_ ->]|(l & D & _)]; [reflexivity|discriminate].
  - change (from_yaml env (TList TString) (VList l)) with
      (let* l' := mapM (from_yaml env TString) l in verify_type (TList TString) (VList l')).
    split.
    + intros E; apply bind_Ok in E; destruct E as (l' & El & E).
      apply Hl in El; destruct El as [-> HF].
      apply verify_Ok_eq in E; destruct E as [-> _]; right; exists l; auto.
    + intros [[D _]|(l' & E & -> & HF)]; [discriminate|]; injection E as <-.
      rewrite (proj2 (Hl l l) (conj eq_refl HF)); cbn [bind].
      apply verify_type_spec; right; exists l; split; [reflexivity|exact HF].
Qed.

Lemma names_err env v e : from_yaml env (TList TString) v = Err e -> e = ConfigValueError.
Proof. intros E; eapply from_yaml_err; exact E. Qed.

Lemma lists_yaml env rule key names : lists rule key names <->
  exists w, from_yaml env (TList TString) (raw_of key rule) = Ok w /\
            (if is_unset (TList TString) w then VList [] else w) = VList names.
Proof.
  unfold raw_of, lists; split.
  - intros [[E ->]|[[E ->]|[E HF]]]; rewrite E.
    + exists VNone; split; reflexivity.
    + exists VNone; split; reflexivity.
    + exists (VList names); split; [apply names_yaml; right; exists names; auto|reflexivity].
  - intros (w & Ew & En); apply names_yaml in Ew; destruct Ew as [[Ev ->]|(l & Ev & -> & HF)].
    + change (VList [] = VList names) in En; injection En as <-.
      destruct (get (KStr key) rule) as [v|]; [subst v; auto|auto].
    + rewrite Ev in En; change (VList l = VList names) in En; injection En as <-.
      destruct (get (KStr key) rule) as [v|]; [subst v; auto|discriminate].
Qed.

(** A resolution without further options. *)
Definition plain_resolution (package : pyval) : pydict :=
  [(KStr (u "_to_list_keys"), VList [VStr (u "package")]); (KStr (u "package"), package)].

(** For the installers that add no rule options (all bundled ones): a rule is accepted exactly
    if its packages and depends are lists of texts (or null, or missing), and then gives one
    resolution per package, in order; otherwise InvalidRuleError. *)
Theorem C37_resolve_exact env rule :
  (forall rs, resolve_rule env (rule_description []) (VDict rule) = Ok rs <->
     exists packages depends,
       lists rule (u "packages") packages /\ lists rule (u "depends") depends /\
       rs = map plain_resolution packages) /\
  (forall e, resolve_rule env (rule_description []) (VDict rule) = Err e -> e = InvalidRuleError).
Proof.
  unfold resolve_rule, parse_installer_rule; rewrite parse_base.
  destruct (from_yaml env (TList TString) (raw_of (u "packages") rule)) as [p|e1] eqn:Ep; cbn [bind].
  2:{ split; [|intros e; rewrite (names_err _ _ _ Ep); cbn [bind]; intros E; injection E as <-; reflexivity].
      intros rs; rewrite (names_err _ _ _ Ep); split; [discriminate|].
      intros (ps & ds & Hp & _); apply (lists_yaml env) in Hp; destruct Hp as (w & Ew & _); congruence. }
  destruct (from_yaml env (TList TString) (raw_of (u "depends") rule)) as [q|e1] eqn:Eq; cbn [bind].
  2:{ split; [|intros e; rewrite (names_err _ _ _ Eq); cbn [bind]; intros E; injection E as <-; reflexivity].
      intros rs; rewrite (names_err _ _ _ Eq); split; [discriminate|].
      intros (ps & ds & _ & Hd & _); apply (lists_yaml env) in Hd; destruct Hd as (w & Ew & _); congruence. }
  assert (Hp : exists ps, (if is_unset (TList TString) p then VList [] else p) = VList ps).
  { apply names_yaml in Ep; destruct Ep as [[_ ->]|(l & Hl & -> & _)]; [exists []; reflexivity|].
    rewrite Hl; exists l; reflexivity. }
  assert (Hq : exists ps, (if is_unset (TList TString) q then VList [] else q) = VList ps).
  { apply names_yaml in Eq; destruct Eq as [[_ ->]|(l & Hl & -> & _)]; [exists []; reflexivity|].
    rewrite Hl; exists l; reflexivity. }
  destruct Hp as [ps Hp]; destruct Hq as [qs Hq]; rewrite Hp, Hq.
  change (getitem (KStr (u "packages")) _) with (@Ok pyval (VList ps)); cbn [bind].
  change (getitem (KStr (u "depends")) _) with (@Ok pyval (VList qs)); cbn [bind].
  split; [|intros e E; discriminate E].
  intros rs; split.
  - intros E; injection E as <-; exists ps, qs; split; [|split].
    + apply (lists_yaml env); exists p; split; assumption.
    + apply (lists_yaml env); exists q; split; assumption.
    + reflexivity.
  - intros (ps' & ds & H1 & _ & ->); apply (lists_yaml env) in H1; destruct H1 as (w & Ew & Hw).
    assert (w = p) by congruence; subst w; assert (ps' = ps) by congruence; subst ps'; reflexivity.
Qed.

(** Values of a dictionary parsed with defaults. *)
Lemma defaulted_values env data d c : names_ok d ->
  (forall name it, get name (d_items d) = Some it -> top_wf (i_default it)) ->
  config_from_parsed_yaml env data d true = Ok c ->
  forall name it, get name (d_items d) = Some it ->
    exists raw v w, file_gives name data raw /\ from_yaml env (i_type it) raw = Ok v /\
      combined (i_type it) [v; i_default it] w /\ option_at name c w.
Proof.
  intros Hd Hdf E name it Hit.
  unfold config_from_parsed_yaml in E; apply bind_Ok in E; destruct E as (c0 & E0 & E).
  apply bind_Ok in E; destruct E as (df & Edf & E).
  assert (E0' : config_from_parsed_yaml env data d false = Ok c0)
    by (unfold config_from_parsed_yaml; rewrite E0; reflexivity).
  destruct (parsed_Ok _ _ _ _ Hd E0') as [Hc Hv].
  destruct (merge_configs_Ok _ _ _ _ Hd Hc E) as [_ Hm].
  destruct (Hv name it Hit) as (raw & v & Hraw & Ev & Hcv).
  destruct (Hm name it Hit) as (x & ys & w & Hx & Hys & Em & Hw).
  inversion Hys as [|? y ? l Hy Hl]; subst; inversion Hl; subst.
  destruct (defaults_Ok d Hd) as (df' & Edf' & Hdv); rewrite Edf in Edf'; injection Edf' as <-.
  rewrite (Hdv name it Hit) in Hy; injection Hy as <-.
  assert (x = v) by congruence; subst x.
  exists raw, v, w; split; [assumption|]; split; [assumption|]; split; [|apply option_at_get; assumption].
  apply merge_values_combined; [|eapply from_yaml_typed; exact Ev|assumption].
  destruct (i_type it) as [| | |e|k e|k e|] eqn:Et; try exact I.
  constructor; [eapply from_yaml_top_wf; exact Ev|constructor; [eapply Hdf; exact Hit|constructor]].
Qed.

Lemma add_keeps d it n x : get n (d_items d) = Some x -> get n (d_items (fst (add d it))) = Some x.
Proof.
  intros H; unfold add.
  destruct (has (i_name it) (d_items d)) eqn:Eh; [exact H|].
  assert (Hn : n <> i_name it).
  { intros ->; unfold has in Eh; rewrite H in Eh; discriminate. }
  destruct (has (i_name it) (d_groups d)); [exact H|].
  assert (X : forall (g : dict text (dict text item)),
    get n (d_items (fst (match i_command_line it, i_argument it with
    | true, Some arg =>
      if has arg (d_arguments d) then ({| d_namespace := d_namespace d; d_itemlist := d_itemlist d ++ [it];
        d_items := set (i_name it) it (d_items d); d_groups := g; d_arguments := d_arguments d |}, Err ConfigDescriptionError)
      else ({| d_namespace := d_namespace d; d_itemlist := d_itemlist d ++ [it];
        d_items := set (i_name it) it (d_items d); d_groups := g; d_arguments := set arg it (d_arguments d) |}, Ok tt)
    | _, _ => ({| d_namespace := d_namespace d; d_itemlist := d_itemlist d ++ [it];
        d_items := set (i_name it) it (d_items d); d_groups := g; d_arguments := d_arguments d |}, Ok tt)
    end))) = Some x).
  { intros g; destruct (i_command_line it); [destruct (i_argument it) as [arg|]; [destruct (has arg _)|]|];
      cbn [fst d_items]; rewrite get_set_other by exact Hn; exact H. }
  destruct (is_group_name (i_name it)).
  - destruct (split_group (i_name it)) as [g s]; destruct (get g (d_groups d)); [apply X|].
    destruct (has g (d_items d)); [exact H|apply X].
  - apply X.
Qed.

Lemma add_items_keeps its : forall d n x, get n (d_items d) = Some x ->
  get n (d_items (fold_left (fun d it => fst (add d it)) its d)) = Some x.
Proof.
  induction its as [|it its IH]; intros d n x H; [exact H|]; cbn [fold_left]; apply IH, add_keeps, H.
Qed.

Definition packages_item := make_item (u "packages") (TList TString) (VList []) None None None.
Definition depends_item := make_item (u "depends") (TList TString) (VList []) None None None.

Lemma rule_desc_base extra :
  get (u "packages") (d_items (rule_description extra)) = Some packages_item /\
  get (u "depends") (d_items (rule_description extra)) = Some depends_item.
Proof.
  unfold rule_description, add_items; rewrite fold_left_app.
  split; apply add_items_keeps; reflexivity.
Qed.

Lemma rule_desc_reachable extra : reachable (rule_description extra).
Proof. exists (u "rule"), (rule_items ++ extra); reflexivity. Qed.

Lemma option_at_top (name : text) c v : ~ In slash name -> (option_at name c v <-> get (KStr name) c = Some v).
Proof.
  intros Hn; split.
  - intros [[_ H]|(g & s & gd & -> & _)]; [exact H|]; exfalso; apply Hn, group_name_In.
  - intros H; left; split; assumption.
Qed.

(** Name of the option or of the group an option is in. *)
Definition stored_under (name key : text) : Prop :=
  name = key \/ exists s, name = key ++ slash :: s /\ ~ In slash s.

Lemma option_at_same (name : text) (c c' : pydict) v :
  (forall key, stored_under name key -> get (KStr key) c' = get (KStr key) c) ->
  option_at name c v -> option_at name c' v.
Proof.
  intros H [[Hn Hv]|(g & s & gd & -> & Hs & Hg & Hv)].
  - left; split; [exact Hn|]; rewrite H; [exact Hv|left; reflexivity].
  - right; exists g, s, gd; split; [reflexivity|]; split; [exact Hs|]; split; [|exact Hv].
    rewrite H; [exact Hg|right; exists s; split; [reflexivity|exact Hs]].
Qed.

Lemma lists_defaulted env rule key v w raw :
  (forall z, file_gives key rule z -> z = raw_of key rule) ->
  file_gives key rule raw -> from_yaml env (TList TString) raw = Ok v ->
  combined (TList TString) [v; VList []] w -> exists names, w = VList names /\ lists rule key names.
Proof.
  intros Hu Hraw Ev Hw; rewrite (Hu _ Hraw) in Ev.
  destruct (names_yaml env (raw_of key rule) v) as [N _]; specialize (N Ev).
  destruct N as [[Er ->]|(l & Er & -> & HF)].
  - destruct Hw as [(l1 & l2 & El & Hn & Hl)|[-> Hl]].
    + destruct l1 as [|a l1]; [injection El as <- _; congruence|].
      injection El as <- El; destruct l1 as [|b l1].
      * injection El as <- _; exists []; split; [reflexivity|].
        apply (lists_yaml env); exists VNone; split; [exact Ev|reflexivity].
      * injection El as <- El; inversion Hl as [|? ? _ Hl']; subst; inversion Hl' as [|? ? D _]; discriminate.
    + inversion Hl as [|? ? _ Hl']; subst; inversion Hl' as [|? ? D _]; discriminate.
  - destruct Hw as [(l1 & l2 & El & Hn & Hl)|[-> Hl]].
    + destruct l1 as [|a l1]; [|injection El as <- _; inversion Hl as [|? ? D _]; subst; congruence].
      injection El as <- _; exists l; split; [exact Er|].
      apply (lists_yaml env); exists (raw_of key rule); split; [exact Ev|rewrite Er; reflexivity].
    + inversion Hl as [|? ? D _]; congruence.
Qed.

Lemma file_gives_top key rule z : ~ In slash key -> file_gives key rule z -> z = raw_of key rule.
Proof.
  intros Hn Hf; apply file_gives_get in Hf; subst z; unfold raw_of, conf_get.
  destruct (is_group_name key) eqn:E; [apply is_group_name_In in E; contradiction|].
  destruct (get (KStr key) rule); reflexivity.
Qed.

Definition is_dep_key (k : text) : Prop :=
  k = u "packages" \/ k = u "depends" \/ k = u "package" \/ k = u "_to_list_keys".

(** Installers may declare further options for their rules.  Whatever these are: one
    resolution per package, in order, each with the value of every further option as given in
    the rule or else its default; package and dependency lists are not part of it. *)
Theorem C37_options env extra rule rs :
  (forall name it, In (name, it) (d_items (rule_description extra)) -> top_wf (i_default it)) ->
  resolve_rule env (rule_description extra) (VDict rule) = Ok rs ->
  exists packages depends,
    lists rule (u "packages") packages /\ lists rule (u "depends") depends /\
    map (get (KStr (u "package"))) rs = map Some packages /\
    forall r, In r rs ->
      get (KStr (u "packages")) r = None /\ get (KStr (u "depends")) r = None /\
      forall name it, In (name, it) (d_items (rule_description extra)) ->
        (forall key, stored_under name key -> ~ is_dep_key key) ->
        exists raw v w, file_gives name rule raw /\ from_yaml env (i_type it) raw = Ok v /\
          combined (i_type it) [v; i_default it] w /\ option_at name r w.
Proof.
  intros Hdf E; pose proof (reachable_names_ok _ (rule_desc_reachable extra)) as Hd.
  destruct (rule_desc_base extra) as [Hp Hq].
  unfold resolve_rule, parse_installer_rule in E.
  apply bind_Ok in E; destruct E as (c & Ec & E).
  assert (Ec' : config_from_parsed_yaml env rule (rule_description extra) true = Ok c).
  { destruct (config_from_parsed_yaml env rule (rule_description extra) true) as [c'|[]]; congruence. }
  assert (Hdf' : forall name it, get name (d_items (rule_description extra)) = Some it -> top_wf (i_default it))
    by (intros name it Hit; apply (Hdf name), get_In, Hit).
  pose proof (defaulted_values env rule _ c Hd Hdf' Ec') as Hv.
  assert (Hs1 : ~ In slash (u "packages")) by (intros H; apply is_group_name_In in H; discriminate H).
  assert (Hs2 : ~ In slash (u "depends")) by (intros H; apply is_group_name_In in H; discriminate H).
  destruct (Hv _ _ Hp) as (raw1 & v1 & w1 & F1 & Y1 & C1 & O1).
  destruct (Hv _ _ Hq) as (raw2 & v2 & w2 & F2 & Y2 & C2 & O2).
  apply option_at_top in O1; [|exact Hs1]; apply option_at_top in O2; [|exact Hs2].
  destruct (lists_defaulted env rule (u "packages") v1 w1 raw1) as (ps & -> & Hps);
    [intros z; apply file_gives_top, Hs1|exact F1|exact Y1|exact C1|].
  destruct (lists_defaulted env rule (u "depends") v2 w2 raw2) as (ds & -> & Hds);
    [intros z; apply file_gives_top, Hs2|exact F2|exact Y2|exact C2|].
  exists ps, ds; split; [exact Hps|]; split; [exact Hds|].
  unfold getitem in E; rewrite O1 in E; cbn [bind] in E.
  rewrite get_del, O2 in E.
  change (eqb (KStr (u "depends")) (KStr (u "packages"))) with false in E; cbn [bind] in E.
  injection E as <-; split.
  - clear; induction ps as [|p ps IH]; [reflexivity|]; cbn [map]; rewrite get_set_same; f_equal; exact IH.
  - intros r Hr; apply in_map_iff in Hr; destruct Hr as (p & <- & _); unfold make_resolution.
    assert (G : forall k, get (KStr k) (set k_package p (set k_to_list_keys (VList [VStr (u "package")])
                 (del (KStr (u "depends")) (del (KStr (u "packages")) c)))) =
       if eqb k (u "package") then Some p else if eqb k (u "_to_list_keys") then Some (VList [VStr (u "package")])
       else if eqb k (u "depends") then None else if eqb k (u "packages") then None else get (KStr k) c).
    { intros k; unfold k_package, k_to_list_keys; rewrite !get_set, !get_del; reflexivity. }
    rewrite !G; split; [reflexivity|]; split; [reflexivity|].
    intros name it Hin Hkey; destruct (Hv name it) as (raw & v & w & H1 & H2 & H3 & H4);
      [apply In_get; [apply (ok_items _ Hd)|exact Hin]|].
    exists raw, v, w; split; [exact H1|]; split; [exact H2|]; split; [exact H3|].
    eapply option_at_same; [|exact H4]; intros key Hst; rewrite G.
    specialize (Hkey key Hst); unfold is_dep_key in Hkey.
    destruct (eqb_spec key (u "package")) as [E|_]; [exfalso; apply Hkey; auto|].
    destruct (eqb_spec key (u "_to_list_keys")) as [E|_]; [exfalso; apply Hkey; auto|].
    destruct (eqb_spec key (u "depends")) as [E|_]; [exfalso; apply Hkey; auto|].
    destruct (eqb_spec key (u "packages")) as [E|_]; [exfalso; apply Hkey; auto|reflexivity].
Qed.

(** The dependencies a rule declares. *)
Theorem C37_depends_exact env rule v :
  get_depends env (rule_description []) (VDict rule) = Ok v <->
  exists packages depends, lists rule (u "packages") packages /\ lists rule (u "depends") depends /\
    v = VList depends.
Proof.
  unfold get_depends, parse_installer_rule; rewrite parse_base.
  destruct (from_yaml env (TList TString) (raw_of (u "packages") rule)) as [p|e1] eqn:Ep; cbn [bind].
  2:{ rewrite (names_err _ _ _ Ep); split; [discriminate|].
      intros (ps & ds & Hp & _); apply (lists_yaml env) in Hp; destruct Hp as (w & Ew & _); congruence. }
  destruct (from_yaml env (TList TString) (raw_of (u "depends") rule)) as [q|e1] eqn:Eq; cbn [bind].
  2:{ rewrite (names_err _ _ _ Eq); split; [discriminate|].
      intros (ps & ds & _ & Hd & _); apply (lists_yaml env) in Hd; destruct Hd as (w & Ew & _); congruence. }
  assert (Hp : exists ps, (if is_unset (TList TString) p then VList [] else p) = VList ps).
  { apply names_yaml in Ep; destruct Ep as [[_ ->]|(l & Hl & -> & _)]; [exists []; reflexivity|].
    rewrite Hl; exists l; reflexivity. }
  assert (Hq : exists ps, (if is_unset (TList TString) q then VList [] else q) = VList ps).
  { apply names_yaml in Eq; destruct Eq as [[_ ->]|(l & Hl & -> & _)]; [exists []; reflexivity|].
    rewrite Hl; exists l; reflexivity. }
  destruct Hp as [ps Hp]; destruct Hq as [qs Hq]; rewrite Hp, Hq.
  change (get (KStr (u "depends")) _) with (Some (VList qs)); split.
  - intros E; injection E as <-; exists ps, qs; split; [|split; [|reflexivity]].
    + apply (lists_yaml env); exists p; split; assumption.
    + apply (lists_yaml env); exists q; split; assumption.
  - intros (ps' & ds & _ & H & ->); apply (lists_yaml env) in H; destruct H as (w & Ew & Hw).
    assert (w = q) by congruence; subst w; congruence.
Qed.

(** A null entry among the packages is accepted as if it were a package, and a rule that is
    not a mapping is not rejected with the documented error. *)
Theorem C37_null_package_refuted env :
  resolve_rule env (rule_description []) (VDict [(KStr (u "packages"), VList [VNone])]) =
    Ok [plain_resolution VNone].
Proof. reflexivity. Qed.
Theorem C37_not_a_mapping_refuted env d rule : (forall r, rule <> VDict r) ->
  resolve_rule env d rule = Err AttributeError.
Proof. destruct rule; try reflexivity; intros H; exfalso; eapply H; reflexivity. Qed.

Example C37_nonvacuous :
  resolve_rule root_env (rule_description []) (VDict [(KStr (u "packages"), VList [VStr (u "a"); VStr (u "b")])]) =
    Ok [plain_resolution (VStr (u "a")); plain_resolution (VStr (u "b"))] /\
  resolve_rule root_env (rule_description []) (VDict [(KStr (u "packages"), VStr (u "a b"))]) = Err InvalidRuleError /\
  exists r, resolve_rule root_env
    (rule_description [make_item (u "channel") TString (VStr (u "stable")) None None None])
    (VDict [(KStr (u "packages"), VList [VStr (u "a")])]) = Ok [r] /\
    get (KStr (u "channel")) r = Some (VStr (u "stable")).
Proof. split; [reflexivity|]; split; [reflexivity|]; eexists; split; reflexivity. Qed.

(** ** C38 *)
(** What the user expects of the commands that are run. *)
Definition elevated (as_root root : bool) (c c' : cmd) : Prop :=
  if as_root && negb root then
    (exists args, c = u "sudo" :: args /\ c' = c) \/
    (exists prog args, c = prog :: args /\ prog <> u "sudo" /\ c' = u "sudo" :: c)
  else c' = c.

Theorem C38_elevation as_root root commands out :
  get_install_commands as_root root commands = Ok out <-> Forall2 (elevated as_root root) commands out.
Proof.
  unfold get_install_commands, elevated; destruct (as_root && negb root).
  - revert out; induction commands as [|c cs IH]; intros out; cbn [mapM].
    + split; [intros E; injection E as <-; constructor|intros H; inversion H; reflexivity].
    + split.
      * intros E; apply bind_Ok in E; destruct E as (c' & Ec & E).
        apply bind_Ok in E; destruct E as (cs' & Ecs & E); injection E as <-.
        constructor; [|apply IH; exact Ecs].
        unfold elevate_privileges, sudo in Ec; destruct c as [|p a]; [discriminate|].
        destruct (eqb_spec p (u "sudo")) as [Ep|Hn]; cbn [negb] in Ec; injection Ec as <-.
        -- left; exists a; rewrite Ep; auto.
        -- right; exists p, a; auto.
      * intros H; inversion H as [|? c' ? cs' Hc Hcs]; subst.
        apply IH in Hcs; rewrite Hcs; unfold elevate_privileges, sudo.
        destruct Hc as [(a & Ec & ->)|(p & a & Ec & Hn & ->)]; rewrite Ec.
        -- rewrite eqb_refl; reflexivity.
        -- destruct (eqb_spec p (u "sudo")) as [Ep|_]; [contradiction|reflexivity].
  - split; [intros E; injection E as <-; clear; induction commands; constructor; auto|].
    intros H; f_equal; induction H; [reflexivity|congruence].
Qed.

(** It fails only for an empty command. *)
Theorem C38_total as_root root commands :
  (forall c, In c commands -> c <> []) -> exists out, get_install_commands as_root root commands = Ok out.
Proof.
  intros H; unfold get_install_commands; destruct (as_root && negb root); [|eexists; reflexivity].
  induction commands as [|c cs IH]; [eexists; reflexivity|].
  destruct IH as [out Hout]; [intros; apply H; right; assumption|].
  cbn [mapM]; rewrite Hout; destruct c as [|p a]; [exfalso; apply (H []); [left|]; reflexivity|].
  unfold elevate_privileges; destruct (eqb p sudo); cbn; eexists; reflexivity.
Qed.

Theorem C38_idempotent as_root root commands out :
  get_install_commands as_root root commands = Ok out -> get_install_commands as_root root out = Ok out.
Proof.
  rewrite !C38_elevation; intros H; induction H as [|c c' cs cs' Hc Hcs IH]; constructor; [|exact IH].
  unfold elevated in *; destruct (as_root && negb root); [|reflexivity].
  destruct Hc as [(a & Ec & ->)|(p & a & Ec & _ & ->)]; left; eexists; split; try reflexivity; exact Ec.
Qed.

(** Whether root is wanted is the option as_root: the configured value, else the installer's
    default. *)
Theorem C38_as_root_option env dflt extra value c :
  (forall name it, In (name, it) (d_items (options_description dflt extra)) -> top_wf (i_default it)) ->
  set_options env (options_description dflt extra) value = Ok c ->
  exists v b, value = VDict v /\ as_root c = Ok b /\
    (get (KStr (u "as_root")) v = Some (VBool b) \/
     ((get (KStr (u "as_root")) v = None \/ get (KStr (u "as_root")) v = Some VNone) /\ b = dflt)).
Proof.
  intros Hdf E; unfold set_options in E; destruct value as [| | | | | |v]; try discriminate.
  set (it := make_item (u "as_root") TBoolean (VBool dflt) None None None).
  assert (Hr : names_ok (options_description dflt extra)).
  { apply reachable_names_ok; exists (u "options"), (it :: extra); reflexivity. }
  assert (Hit : get (u "as_root") (d_items (options_description dflt extra)) = Some it).
  { unfold options_description, add_items; cbn [fold_left]; apply add_items_keeps; reflexivity. }
  assert (Hdf' : forall name it, get name (d_items (options_description dflt extra)) = Some it -> top_wf (i_default it))
    by (intros name i Hi; apply (Hdf name), get_In, Hi).
  destruct (defaulted_values env v _ c Hr Hdf' E _ _ Hit) as (raw & x & w & Hf & Hx & Hw & Hc).
  assert (Hs : ~ In slash (u "as_root")) by (intros H; apply is_group_name_In in H; discriminate H).
  apply option_at_top in Hc; [|exact Hs]; apply file_gives_top in Hf; [|exact Hs]; subst raw.
  exists v; unfold as_root, attr; rewrite Hc; cbn [bind].
  unfold raw_of in Hx; change (i_type it) with TBoolean in *; change (i_default it) with (VBool dflt) in *.
  assert (Hn : x = VNone -> w = VBool dflt).
  { intros ->; destruct Hw as [(l1 & l2 & El & Hnn & Hl)|[-> Hl]].
    - destruct l1 as [|a l1]; [injection El as <- _; congruence|]; injection El as <- El.
      destruct l1 as [|b l1]; [injection El as <- _; reflexivity|].
      injection El as <- El; inversion Hl as [|? ? _ Hl']; subst; inversion Hl' as [|? ? D _]; discriminate.
    - inversion Hl as [|? ? _ Hl']; subst; inversion Hl' as [|? ? D _]; discriminate. }
  assert (Hb : forall b, x = VBool b -> w = VBool b).
  { intros b ->; destruct Hw as [(l1 & l2 & El & Hnn & Hl)|[-> Hl]].
    - destruct l1 as [|a l1]; [injection El as <- _; reflexivity|]; injection El as <- El.
      inversion Hl as [|? ? D _]; discriminate.
    - inversion Hl as [|? ? D _]; discriminate. }
  destruct (get (KStr (u "as_root")) v) as [y|] eqn:Ey.
  - destruct y as [|b|z|s|s|l|d]; try discriminate Hx; injection Hx as <-.
    + exists dflt; rewrite (Hn eq_refl); split; [reflexivity|]; split; [destruct dflt; reflexivity|].
      right; split; [right|]; reflexivity.
    + exists b; rewrite (Hb b eq_refl); split; [reflexivity|]; split; [destruct b; reflexivity|left; reflexivity].
  - injection Hx as <-; exists dflt; rewrite (Hn eq_refl); split; [reflexivity|].
    split; [destruct dflt; reflexivity|]; right; split; [left|]; reflexivity.
Qed.

Example C38_nonvacuous :
  get_install_commands true false [[u "apt-get"; u "install"; u "p"]; [u "sudo"; u "x"]] =
    Ok [[u "sudo"; u "apt-get"; u "install"; u "p"]; [u "sudo"; u "x"]] /\
  get_install_commands true true [[u "x"]] = Ok [[u "x"]] /\
  get_install_commands true false [[]] = Err IndexError /\
  exists c, set_options root_env (options_description true []) (VDict [(KStr (u "as_root"), VBool false)]) = Ok c /\
            as_root c = Ok false.
Proof. repeat split; try reflexivity; eexists; split; reflexivity. Qed.

(** ** C39 *)
Section C39.
  Context {W : Type}.
  Variable pm : package_manager W.

  (** Success exactly if the package manager is installed, or fixing was requested, an
      installation was attempted and it is installed afterwards. *)
  Theorem C39_installed_exact fix_ interactive w w' :
    check_package_manager_installed pm fix_ interactive w = (Ok tt, w') <->
    pm_is_installed pm w = (Ok true, w') \/
    (fix_ = true /\ exists w1 w2, pm_is_installed pm w = (Ok false, w1) /\
       pm_install pm interactive w1 = (Ok tt, w2) /\ pm_is_installed pm w2 = (Ok true, w')).
  Proof.
    unfold check_package_manager_installed.
    destruct (pm_is_installed pm w) as [[[]|e] w1].
    - split; [intros E; injection E as <-; left; reflexivity|].
      intros [E|(_ & a & b & E & _)]; [|discriminate]; injection E as ->; reflexivity.
    - destruct fix_.
      2:{ split; [discriminate|]; intros [E|(D & _)]; discriminate. }
      destruct (pm_install pm interactive w1) as [[[]|e] w2] eqn:Ei.
      + destruct (pm_is_installed pm w2) as [[[]|e] w3] eqn:E2; split; intros H;
          try (destruct e; discriminate H); try discriminate H.
        * injection H as ->; right; split; [reflexivity|]; exists w1, w2; auto.
        * destruct H as [D|(_ & a & b & Ea & Eb & Ec)]; [discriminate|].
          injection Ea as ->; assert (b = w2) by congruence; subst b; congruence.
        * destruct H as [D|(_ & a & b & Ea & Eb & Ec)]; [discriminate|].
          injection Ea as ->; assert (b = w2) by congruence; subst b; congruence.
        * destruct H as [D|(_ & a & b & Ea & Eb & Ec)]; [discriminate|].
          injection Ea as ->; assert (b = w2) by congruence; subst b; congruence.
      + split; [intros H; destruct e; discriminate H|].
        intros [D|(_ & a & b & Ea & Eb & Ec)]; [discriminate|].
        injection Ea as ->; congruence.
    - split; [discriminate|]; intros [E|(_ & a & b & E & _)]; discriminate.
  Qed.

  (** The package manager's own functions raise nothing but NotImplementedError, and finding
      out whether it is installed raises nothing. *)
  Definition only_unimplemented : Prop :=
    (forall w, exists b w', pm_is_installed pm w = (Ok b, w')) /\
    (forall i w e w', pm_install pm i w = (Err e, w') -> e = NotImplementedError) /\
    (forall w e w', pm_is_updated pm w = (Err e, w') -> e = NotImplementedError) /\
    (forall i w e w', pm_update pm i w = (Err e, w') -> e = NotImplementedError).

  (** Then every failure of the whole check is the documented installer error. *)
  Theorem C39_error_partial fix_ interactive w e w' : only_unimplemented ->
    pm_check_general pm fix_ interactive w = (Err e, w') -> e = InstallerPrerequisiteError.
  Proof.
    intros (H1 & H2 & H3 & H4); unfold pm_check_general, check_package_manager_installed.
    destruct (H1 w) as (b & w1 & E1); rewrite E1.
    assert (Hup : forall a w e w', check_package_manager_updated pm fix_ a w <> (Err e, w')).
    { intros a v e0 v'; unfold check_package_manager_updated.
      destruct (pm_is_updated pm v) as [[[]|x] v1] eqn:Eu; try discriminate.
      - destruct fix_; [|discriminate].
        destruct (pm_update pm a v1) as [[[]|y] v2] eqn:Ev.
        + destruct (pm_is_updated pm v2) as [[[]|z] v3] eqn:Ez; try discriminate.
          rewrite (H3 _ _ _ Ez); discriminate.
        + rewrite (H4 _ _ _ _ Ev); discriminate.
      - rewrite (H3 _ _ _ Eu); discriminate. }
    destruct b; [intros H; exfalso; exact (Hup _ _ _ _ H)|].
    destruct fix_; [|congruence].
    destruct (pm_install pm interactive w1) as [[[]|x] w2] eqn:Ei.
    - destruct (H1 w2) as (b & w3 & E3); rewrite E3; destruct b; [|congruence].
      intros H; exfalso; exact (Hup _ _ _ _ H).
    - rewrite (H2 _ _ _ _ Ei); cbn [is_NotImplementedError]; congruence.
  Qed.

  (** The whole check succeeds iff the first part does: an out-of-date package manager is no
      failure. *)
  Theorem C39_out_of_date_tolerated_partial fix_ interactive w : only_unimplemented ->
    (exists w', pm_check_general pm fix_ interactive w = (Ok tt, w')) <->
    (exists w', check_package_manager_installed pm fix_ interactive w = (Ok tt, w')).
  Proof.
    intros (H1 & H2 & H3 & H4); unfold pm_check_general.
    destruct (check_package_manager_installed pm fix_ interactive w) as [[[]|e] w1].
    2:{ split; intros [w' E]; discriminate. }
    split; intros _; [eexists; reflexivity|]; unfold check_package_manager_updated.
    destruct (pm_is_updated pm w1) as [[[]|x] v1] eqn:Eu; [eexists; reflexivity| |].
    - destruct fix_; [|eexists; reflexivity].
      destruct (pm_update pm interactive v1) as [[[]|y] v2] eqn:Ev.
      + destruct (pm_is_updated pm v2) as [[[]|z] v3] eqn:Ez; try (eexists; reflexivity).
        rewrite (H3 _ _ _ Ez); eexists; reflexivity.
      + rewrite (H4 _ _ _ _ Ev); eexists; reflexivity.
    - rewrite (H3 _ _ _ Eu); eexists; reflexivity.
  Qed.
End C39.

(** The bundled installers apt, homebrew, macports and pip do not follow that: asked to fix a
    missing package manager they fail with a TypeError instead of the installer error. *)
Theorem C39_bundled_refuted {W} (env : penv) (root : bool) (program_installed : text -> act W bool)
    (freeze : act W text) (as_root : bool) (interactive : bool) w w' i executable :
  In (i, executable) [(apt env root program_installed as_root, u "apt-get");
        (homebrew env root program_installed as_root, u "brew");
        (macports env root program_installed as_root, u "port");
        (pip env root program_installed freeze as_root, u "pip")] ->
  program_installed executable w = (Ok false, w') ->
  in_check_general i true interactive w = (Err TypeError, w').
Proof.
  intros Hi; simpl in Hi; destruct Hi as [E|[E|[E|[E|[]]]]]; injection E as <- <-; intros Hn;
    cbn; unfold pm_check_general, check_package_manager_installed; cbn [pm_is_installed system_pm];
    rewrite Hn; reflexivity.
Qed.

(** Without the request to fix, and for the fake installer in any case, the check behaves as
    documented. *)
Theorem C39_bundled_no_fix {W} (env : penv) (root : bool) (program_installed : text -> act W bool)
    (freeze : act W text) (as_root interactive : bool) w b w' i executable :
  In (i, executable) [(apt env root program_installed as_root, u "apt-get");
        (homebrew env root program_installed as_root, u "brew");
        (macports env root program_installed as_root, u "port");
        (pip env root program_installed freeze as_root, u "pip")] ->
  program_installed executable w = (Ok b, w') ->
  in_check_general i false interactive w = (if b then Ok tt else Err InstallerPrerequisiteError, w').
Proof.
  intros Hi; simpl in Hi; destruct Hi as [E|[E|[E|[E|[]]]]]; injection E as <- <-; intros Hn;
    cbn; unfold pm_check_general, check_package_manager_installed; cbn [pm_is_installed system_pm];
    rewrite Hn; destruct b; reflexivity.
Qed.

Example C39_nonvacuous :
  let pm := fake_pm (fun p w => mem p w) (fun p w => mem p w) (fun p w => (Ok tt, p :: w)) (u "/d") in
  only_unimplemented pm /\
  pm_check_general pm true true [] = (Ok tt, [u "/d"]) /\
  pm_check_general pm false true [] = (Err InstallerPrerequisiteError, []) /\
  pm_check_general pm false true [u "/d"] = (Ok tt, [u "/d"]).
Proof.
  cbv zeta; split; [|repeat split; reflexivity].
  unfold only_unimplemented, fake_pm; cbn [pm_is_installed pm_install pm_is_updated pm_update].
  split; [intros w; eexists _, _; reflexivity|].
  split; [intros i w e w' E; destruct (mem (u "/d") w); discriminate|].
  split; [intros w e w' E; congruence|intros i w e w' E; congruence].
Qed.

(** ** C67: a successful installation is reported as success *)
Local Opaque fmt exec_message.

Section Success.
  Context {W R : Type}.
  Variable run : cmd -> act W Z.
  Variable ansi : dict text text.
  Hypothesis ansi_ok : ansi = ansi_enabled \/ ansi = ansi_disabled.
  Variable cx : context W R.
  (** An invariant of the machine during installation, and which resolutions are considered. *)
  Variable ready : W -> Prop.
  Variable good : R -> Prop.

  (** The commands all exit with 0 and lead from one machine state to another. *)
  Inductive runs : list cmd -> W -> W -> Prop :=
  | runs_nil w : runs [] w w
  | runs_cons c cs w w1 w2 : run c w = (Ok 0%Z, w1) -> runs cs w1 w2 -> runs (c :: cs) w w2.

  (** An installer that works: its checks pass, its queries succeed, and the commands it
      composes succeed and install what was asked for. *)
  Definition works (i : installer W R) : Prop :=
    (forall fix_ inter w, ready w -> exists w', in_check_general i fix_ inter w = (Ok tt, w') /\ ready w') /\
    (forall rs fix_ inter w, ready w -> exists w', in_check_install i rs fix_ inter w = (Ok tt, w') /\ ready w') /\
    (forall rs w, ready w -> Forall good rs ->
       exists rs' w', in_filter_uninstalled i rs w = (Ok rs', w') /\ ready w' /\ incl rs' rs) /\
    (forall rs inter re w, ready w -> Forall good rs ->
       exists cs w', in_commands i rs inter re w = (Ok cs, w') /\ ready w' /\
         (forall c t, In c cs -> In t c -> ~ In at_ t) /\
         exists w2, runs cs w' w2 /\ ready w2 /\
           (forall r, In r rs -> in_is_installed i r w2 = (Ok true, w2))).

  Notation st := (W * list (event R))%type.

  Lemma runs_all cont cs w w2 : runs cs w w2 -> forall errs (l : list (event R)),
    (forall c t, In c cs -> In t c -> ~ In at_ t) ->
    exists l', run_commands run ansi cont cs errs (w, l) = (Ok (inr errs), (w2, l')).
  Proof.
    intros H; induction H as [w|c cs w w1 w2 Hc Hcs IH]; intros errs l Hat; [eexists; reflexivity|].
    cbn [run_commands]; unfold then_, lift, call.
    destruct (exec_message_fmt ansi c ansi_ok) as [t Ht]; [intros t; apply Hat; left; reflexivity|].
    rewrite Ht; cbn [fst snd]; rewrite Hc; cbn [Z.eqb].
    apply IH; intros c' t' Hc'; apply Hat; right; exact Hc'.
  Qed.

  Lemma checks_all (i : installer W R) name w items : (forall r, In r items -> in_is_installed i r w = (Ok true, w)) ->
    forall errs (l : list (event R)), exists l', check_items i name items errs (w, l) = (Ok errs, (w, l')).
  Proof.
    induction items as [|r items IH]; intros H errs l; [eexists; reflexivity|].
    cbn [check_items]; unfold then_, catch, call; cbn [fst snd].
    rewrite (H r (or_introl eq_refl)); unfold ret; rewrite app_nil_r.
    apply IH; intros r' Hr'; apply H; right; exact Hr'.
  Qed.

  (** What is asked for can be served. *)
  Definition served (groups : list (text * list R)) : Prop :=
    forall n rs, In (n, rs) groups -> Forall good rs /\
      exists i, lookup_installer cx n = Some i /\ works i.

  Lemma works_resolutions o n rs w l : ready w -> served [(n, rs)] ->
    exists w' l', install_resolutions run ansi cx o n rs (w, l) = (Ok [], (w', l')) /\ ready w'.
  Proof.
    intros Hr Hs; destruct (Hs n rs (or_introl eq_refl)) as (Hg & i & Hi & _ & _ & _ & Hc).
    unfold install_resolutions, with_installer; rewrite Hi; unfold catch, call; cbn [fst snd].
    destruct (Hc rs (o_interactive o) (o_reinstall o) w Hr Hg) as (cs & w1 & Ec & Hr1 & Hat & w2 & Hrun & Hr2 & Hin).
    rewrite Ec; destruct cs as [|c cs]; [exists w1; eexists; split; [reflexivity|exact Hr1]|].
    destruct (o_simulate o).
    - assert (X : forall cs (s : st), exists l', each (fun c => note (EShow c)) cs s = (Ok tt, (fst s, l'))).
      { induction cs0 as [|c0 cs0 IH]; intros s; [exists (snd s); destruct s; reflexivity|].
        cbn [each]; unfold then_, note; destruct (IH (fst s, snd s ++ [EShow c0])) as [l' Hl'].
        exists l'; exact Hl'. }
      destruct (X (c :: cs) (w1, l ++ [ECompose n rs (Ok (c :: cs))])) as [l' Hl'].
      unfold then_; rewrite Hl'; exists w1, l'; split; [reflexivity|exact Hr1].
    - destruct (runs_all (o_continue o) (c :: cs) w1 w2 Hrun [] (l ++ [ECompose n rs (Ok (c :: cs))]) Hat) as [l1 Hl1].
      unfold then_; rewrite Hl1.
      destruct (checks_all i n w2 rs Hin [] l1) as [l2 Hl2]; rewrite Hl2; exists w2, l2; split; [reflexivity|exact Hr2].
  Qed.

  Lemma works_groups o groups : served groups -> forall w l, ready w ->
    exists w' l', install_groups run ansi cx o groups [] (w, l) = (Ok [], (w', l')) /\ ready w'.
  Proof.
    induction groups as [|[n rs] groups IH]; intros Hs w l Hr; [exists w, l; split; [reflexivity|exact Hr]|].
    cbn [install_groups]; destruct (works_resolutions o n rs w l Hr) as (w1 & l1 & E & Hr1).
    { intros n' rs' [Eq|[]]; apply Hs; left; exact Eq. }
    unfold then_; rewrite E; cbn [app].
    apply IH; [intros n' rs' Hin; apply Hs; right; exact Hin|exact Hr1].
  Qed.

  Lemma works_filter groups : served groups -> forall w l, ready w ->
    exists groups' w' l', filter_uninstalled cx groups (w, l) = (Ok (groups', []), (w', l')) /\
      ready w' /\ served groups'.
  Proof.
    induction groups as [|[n rs] groups IH]; intros Hs w l Hr.
    { exists [], w, l; split; [reflexivity|]; split; [exact Hr|intros ? ? []]. }
    destruct (Hs n rs (or_introl eq_refl)) as (Hg & i & Hi & Hw); pose proof Hw as (_ & _ & Hf & _).
    destruct (Hf rs w Hr Hg) as (rs' & w1 & Ef & Hr1 & Hincl).
    cbn [filter_uninstalled]; unfold with_installer; rewrite Hi; unfold then_, catch, call; cbn [fst snd].
    rewrite Ef; unfold ret.
    destruct (IH (fun n' rs' H => Hs n' rs' (or_intror H)) w1 (l ++ [EFilter n rs (Ok rs')]) Hr1)
      as (groups' & w2 & l2 & E2 & Hr2 & Hs2).
    rewrite E2; cbn [fst snd app]; eexists _, w2, l2; split; [reflexivity|]; split; [exact Hr2|].
    intros n' rs0 Hin; apply in_app_or in Hin; destruct Hin as [Hin|Hin]; [|apply Hs2; exact Hin].
    destruct rs' as [|r rs']; [destruct Hin|]; destruct Hin as [Eq|[]]; injection Eq as <- <-.
    split; [|exists i; split; [exact Hi|exact Hw]].
    rewrite Forall_forall in *; intros x Hx; apply Hg, Hincl, Hx.
  Qed.

  Lemma squash_In (groups : list (text * list R)) n rs :
    served groups -> In (n, rs) (squash_resolutions groups) ->
    Forall good rs /\ exists i, lookup_installer cx n = Some i /\ works i.
  Proof.
    unfold squash_resolutions.
    assert (X : forall groups cur, served groups -> (forall g, cur = Some g -> served [g]) ->
      served (squash_from cur groups)).
    { clear groups; induction groups as [|[m ms] groups IH]; intros cur Hs Hc.
      - destruct cur as [g|]; [apply Hc; reflexivity|intros ? ? []].
      - assert (Hs' : served groups) by (intros ? ? Hin; apply Hs; right; exact Hin).
        assert (Hm : served [(m, ms)]) by (intros ? ? [Eq|[]]; apply Hs; left; exact Eq).
        cbn [squash_from]; destruct cur as [[p ps]|].
        + specialize (Hc _ eq_refl); destruct (eqb_spec p m) as [E|_].
          * apply IH; [exact Hs'|]; intros g Eg; injection Eg as <-; intros ? ? [Eq|[]]; injection Eq as <- <-.
            destruct (Hc p ps (or_introl eq_refl)) as [H1 H2]; destruct (Hm m ms (or_introl eq_refl)) as [H3 _].
            split; [apply Forall_app; auto|exact H2].
          * intros n' rs' [Eq|Hin]; [injection Eq as <- <-; apply Hc; left; reflexivity|].
            revert n' rs' Hin; apply IH; [exact Hs'|]; intros g Eg; injection Eg as <-; exact Hm.
        + apply IH; [exact Hs'|]; intros g Eg; injection Eg as <-; exact Hm. }
    intros Hs; apply X; [exact Hs|intros; discriminate].
  Qed.

  (** All keys resolve, the installers work: no error is reported, whatever the other options
      (reinstall is broken, see C35). *)
  Theorem C67_success_reported_partial o results w :
    o_reinstall o = false -> ready w ->
    served (map snd results) ->
    exists s', install run ansi cx o (Ok (results, [])) (w, []) = (Ok ([], []), s').
  Proof.
    intros Hre Hr Hs; unfold install, then_ at 1; unfold lift; cbn [fst snd].
    assert (Hsq : served (squash_resolutions (map snd results))) by (intros n rs; apply squash_In; exact Hs).
    remember (squash_resolutions (map snd results)) as groups eqn:Eg; clear Eg.
    assert (G : forall names w l, ready w -> (forall n, In n names -> exists i, lookup_installer cx n = Some i /\ works i) ->
      exists w' l', check_general_prerequisites cx names (o_fix o) (o_interactive o) (w, l) = (Ok tt, (w', l')) /\ ready w').
    { unfold check_general_prerequisites.
      induction names as [|n names IH]; intros v l Hv Hn; [exists v, l; split; [reflexivity|exact Hv]|].
      destruct (Hn n (or_introl eq_refl)) as (i & Hi & Hw & _).
      destruct (Hw (o_fix o) (o_interactive o) v Hv) as (v' & Ev & Hv').
      cbn [each]; unfold then_ at 1; unfold with_installer at 1; rewrite Hi; unfold call at 1; cbn [fst snd].
      rewrite Ev; apply IH; [exact Hv'|intros; apply Hn; right; assumption]. }
    assert (P : forall m w l, ready w -> (forall n rs, In (n, rs) m -> exists i, lookup_installer cx n = Some i /\ works i) ->
      exists w' l', check_install_prerequisites cx m (o_fix o) (o_interactive o) (w, l) = (Ok tt, (w', l')) /\ ready w').
    { unfold check_install_prerequisites.
      induction m as [|[n rs] m IH]; intros v l Hv Hn; [exists v, l; split; [reflexivity|exact Hv]|].
      destruct (Hn n rs (or_introl eq_refl)) as (i & Hi & _ & Hw & _).
      destruct (Hw rs (o_fix o) (o_interactive o) v Hv) as (v' & Ev & Hv').
      cbn [each]; unfold then_ at 1; unfold with_installer at 1; cbn [fst snd]; rewrite Hi; unfold call at 1; cbn [fst snd].
      rewrite Ev; apply IH; [exact Hv'|intros n' rs' H'; apply (Hn n' rs'); right; assumption]. }
    destruct (G (installer_names groups) w [] Hr) as (w1 & l1 & E1 & Hr1).
    { intros n Hn; unfold installer_names in Hn; apply (proj1 (remove_duplicates_In _ _)) in Hn.
      apply in_map_iff in Hn; destruct Hn as ([m rs] & <- & Hin); exact (proj2 (Hsq _ _ Hin)). }
    unfold then_ at 1; rewrite E1, Hre.
    destruct (works_filter groups Hsq w1 l1 Hr1) as (groups' & w2 & l2 & E2 & Hr2 & Hs2).
    unfold then_ at 1; rewrite (uninstalled_quiet _ _ _ _ _ E2).
    destruct (P (map_resolutions groups') w2 l2 Hr2) as (w3 & l3 & E3 & Hr3).
    { intros n rs Hin; destruct (C32_map groups') as [Hnd Hget].
      apply In_get in Hin; [|exact Hnd]; rewrite Hget in Hin.
      destruct (mem n (map fst groups')) eqn:Em; [|discriminate].
      apply mem_In in Em; apply in_map_iff in Em; destruct Em as ([m ms] & <- & Hm); exact (proj2 (Hs2 _ _ Hm)). }
    unfold then_ at 1; rewrite E3.
    assert (Hsq2 : served (squash_resolutions groups')) by (intros n rs; apply squash_In; exact Hs2).
    destruct (works_groups o _ Hsq2 w3 l3 Hr3) as (w4 & l4 & E4 & _).
    unfold then_ at 1; unfold install_resolved; rewrite E4; eexists; reflexivity.
  Qed.
End Success.

(** An installer that never detects anything as installed can never report success. *)
Section Blind.
  Context {W R : Type}.
  Variable run : cmd -> act W Z.
  Variable ansi : dict text text.
  Variable cx : context W R.
  Variable i : installer W R.
  Definition blind : Prop :=
    (forall r w, in_is_installed i r w = (Ok false, w)) /\
    (forall rs w, in_filter_uninstalled i rs w = (Ok rs, w)) /\
    (forall rs a b w cs w', rs <> [] -> in_commands i rs a b w = (Ok cs, w') -> cs <> []).
  Hypothesis Hblind : blind.
  Variable n : text.
  Hypothesis Hlookup : lookup_installer cx n = Some i.

  Notation st := (W * list (event R))%type.

  Lemma run_commands_early cont cs : forall errs (s : st) es s',
    run_commands run ansi cont cs errs s = (Ok (inl es), s') -> es <> [].
  Proof.
    induction cs as [|c cs IH]; intros errs s es s' H; cbn [run_commands] in H; [discriminate H|].
    unfold then_, lift, call in H; destruct (fmt ansi (exec_message c)); [|discriminate H].
    destruct (run c (fst s)) as [[code|e] w1]; [|discriminate H].
    destruct (Z.eqb code 0); [eapply IH; exact H|].
    destruct cont; [eapply IH; exact H|].
    injection H as <- _; intros D; apply app_eq_nil in D; destruct D; discriminate.
  Qed.

  Lemma blind_check items : forall errs (s : st) es s', items <> [] \/ errs <> [] ->
    check_items i n items errs s = (Ok es, s') -> es <> [].
  Proof.
    induction items as [|r items IH]; intros errs s es s' Hne H.
    { injection H as <- _; destruct Hne; congruence. }
    cbn [check_items] in H; unfold then_, catch, call in H; cbn [fst snd] in H.
    rewrite (proj1 Hblind r) in H; unfold ret in H.
    eapply IH; [|exact H]; right; intros D; apply app_eq_nil in D; destruct D; discriminate.
  Qed.

  Lemma blind_resolutions o rs (s : st) es s' : o_simulate o = false -> rs <> [] ->
    install_resolutions run ansi cx o n rs s = (Ok es, s') -> es <> [].
  Proof.
    intros Hs Hne H; unfold install_resolutions, with_installer in H; rewrite Hlookup in H.
    unfold catch, call in H.
    destruct (in_commands i rs (o_interactive o) (o_reinstall o) (fst s)) as [[cs|e] w1] eqn:Ec.
    - pose proof (proj2 (proj2 Hblind) _ _ _ _ _ _ Hne Ec) as Hcs.
      destruct cs as [|c cs]; [congruence|]; rewrite Hs in H; unfold then_ in H.
      destruct (run_commands run ansi (o_continue o) (c :: cs) [] _) as [[[errs|errs]|e] s1] eqn:Er; [| |discriminate H].
      + injection H as <- _; eapply run_commands_early; exact Er.
      + eapply blind_check; [left; exact Hne|exact H].
    - unfold handle, raise in H; destruct (is_InstallerError e); [discriminate H|].
      destruct (is_Exception e); discriminate H.
  Qed.

  Lemma blind_groups o groups : o_simulate o = false -> forall all (s : st) es s',
    all <> [] \/ (exists rs, In (n, rs) groups /\ rs <> []) ->
    install_groups run ansi cx o groups all s = (Ok es, s') -> es <> [].
  Proof.
    intros Hs; induction groups as [|[m ms] groups IH]; intros all s es s' Hne H.
    { injection H as <- _; destruct Hne as [Hne|(rs & [] & _)]; exact Hne. }
    cbn [install_groups] in H; unfold then_ in H.
    destruct (install_resolutions run ansi cx o m ms s) as [[errs|e] s1] eqn:Er; [|discriminate H].
    assert (Hnext : all ++ errs <> [] \/ exists rs, In (n, rs) groups /\ rs <> []).
    { destruct Hne as [Hne|(rs & [Eq|Hin] & Hrs)].
      - left; intros D; apply app_eq_nil in D; tauto.
      - injection Eq as -> ->; left; intros D; apply app_eq_nil in D; destruct D as [_ D].
        exact (blind_resolutions o rs s errs s1 Hs Hrs Er D).
      - right; exists rs; auto. }
    destruct errs as [|x errs]; [eapply IH; [exact Hnext|exact H]|].
    destruct (o_continue o); [eapply IH; [exact Hnext|exact H]|].
    injection H as <- _; discriminate.
  Qed.

  Lemma blind_filter_raw groups : (forall m rs, In (m, rs) groups -> m = n) -> forall (s : st) x s',
    filter_uninstalled cx groups s = (x, s') ->
    x = Ok (filter (fun g => match snd g with [] => false | _ => true end) groups, []).
  Proof.
    induction groups as [|[m rs] groups IH]; intros Hm s x s' H; [injection H as <- _; reflexivity|].
    assert (m = n) by (apply (Hm m rs); left; reflexivity); subst m.
    cbn [filter_uninstalled] in H; unfold with_installer in H; rewrite Hlookup in H.
    unfold then_, catch, call in H; rewrite (proj1 (proj2 Hblind)) in H; unfold ret in H.
    destruct (filter_uninstalled cx groups _) as [y s1] eqn:E in H.
    apply IH in E; [|intros m' rs' Hin; apply (Hm m' rs'); right; exact Hin]; subst y.
    cbn [fst snd app] in H; injection H as <- _; cbn [filter snd]; destruct rs; reflexivity.
  Qed.

  Lemma blind_filter groups : (forall m rs, In (m, rs) groups -> m = n) -> forall (s : st) x s',
    uninstalled cx groups s = (x, s') ->
    x = Ok (filter (fun g => match snd g with [] => false | _ => true end) groups, []).
  Proof.
    intros Hm s x s' H; apply uninstalled_inv in H; destruct H as [(e & -> & H)|(r & ue & s1 & -> & H & _)];
      exact (blind_filter_raw _ Hm _ _ _ H).
  Qed.

  Lemma squash_from_names (l : list (text * list R)) : forall cur,
    (forall g, cur = Some g -> fst g = n) -> (forall g, In g l -> fst g = n) ->
    forall g, In g (squash_from cur l) -> fst g = n.
  Proof.
    induction l as [|[k ks] l IH]; intros cur Hc Hl g Hg; cbn [squash_from] in Hg.
    - destruct cur as [g'|]; [destruct Hg as [<-|[]]; apply Hc; reflexivity|destruct Hg].
    - assert (Hk : k = n) by (apply (Hl (k, ks)); left; reflexivity).
      assert (Hl' : forall g, In g l -> fst g = n) by (intros g' Hg'; apply Hl; right; exact Hg').
      destruct cur as [[p ps]|]; [destruct (eqb p k)|].
      + apply (IH _) in Hg; [exact Hg| |exact Hl']; intros g' E; injection E as <-; apply (Hc _ eq_refl).
      + destruct Hg as [<-|Hg]; [apply (Hc _ eq_refl)|].
        apply (IH _) in Hg; [exact Hg| |exact Hl']; intros g' E; injection E as <-; exact Hk.
      + apply (IH _) in Hg; [exact Hg| |exact Hl']; intros g' E; injection E as <-; exact Hk.
  Qed.

  Lemma blind_install o results rerrs w x es s' :
    o_simulate o = false -> (rerrs = [] \/ o_continue o = true) ->
    (forall key m rs, In (key, (m, rs)) results -> m = n) ->
    (exists key rs, In (key, (n, rs)) results /\ rs <> []) ->
    install run ansi cx o (Ok (results, rerrs)) (w, []) = (Ok (x, es), s') -> es <> [].
  Proof.
    intros Hs Hcr Hall (key & rs & Hin & Hrs) H.
    assert (Hm : forall m ms, In (m, ms) (squash_resolutions (map snd results)) -> m = n).
    { intros m ms Hm; apply (squash_from_names (map snd results) None) in Hm; [exact Hm|discriminate|].
      intros g' Hg'; apply in_map_iff in Hg'; destruct Hg' as ([k' [m' rs']] & <- & Hg'); cbn; eapply Hall; exact Hg'. }
    assert (Hp : exists r, In (n, r) (pairs (squash_resolutions (map snd results)))).
    { destruct rs as [|r rs]; [congruence|]; exists r; rewrite squash_pairs; apply pairs_In.
      exists (r :: rs); split; [|left; reflexivity]; apply in_map_iff; exists (key, (n, r :: rs)); auto. }
    remember (squash_resolutions (map snd results)) as groups eqn:Egr.
    remember (Ok (x, es)) as z eqn:Ez; apply install_phases in H.
    destruct H as [e Hres|results' rerrs' Hres Hr Hc|results' rerrs' e s1 Hres Hr Eg
        |results' rerrs' s1 Hres Hr Eg Ho|results' rerrs' s1 e s2 Hres Hr Eg Ho Ef
        |results' rerrs' s1 resolved uerrs s2 Hres Hr Eg Ho Ef Hu Hc
        |results' rerrs' s1 resolved uerrs s2 e s3 Hres Hr Eg Ho Ef Hu Ep
        |results' rerrs' s1 resolved uerrs s2 s3 y s4 Hres Hr Eg Ho Ef Hu Ep Ei];
        try discriminate; injection Hres as <- <-; try rewrite <- Egr in *.
    - destruct Hcr; congruence.
    - exfalso; apply blind_filter in Ef; [congruence|exact Hm].
    - apply blind_filter in Ef; [|exact Hm]; injection Ef as -> ->.
      destruct y as [es'|e]; [|discriminate]; injection Ez as _ ->.
      unfold install_resolved in Ei; eapply blind_groups; [exact Hs| |exact Ei]; right.
      destruct Hp as [r Hp]; apply pairs_In in Hp; destruct Hp as (ms & Hms & Hr').
      assert (Hp2 : In (n, r) (pairs (squash_resolutions
         (filter (fun g : text * list R => match snd g with [] => false | _ => true end) groups)))).
      { rewrite squash_pairs; apply pairs_In; exists ms; split; [|exact Hr'].
        apply filter_In; split; [exact Hms|]; cbn [snd]; destruct ms; [destruct Hr'|reflexivity]. }
      apply pairs_In in Hp2; destruct Hp2 as (ks & Hks & Hrk); exists ks; split; [exact Hks|].
      destruct ks; [destruct Hrk|discriminate].
  Qed.
End Blind.

(** The bundled installers apt, homebrew and macports do not detect installed packages (their
    filter_uninstalled returns everything): installing at least one package with them always
    reports an error (or raises), even if all commands succeed. *)
Theorem C67_bundled_refuted {W} (env : penv) (root : bool) (program_installed : text -> act W bool)
    (as_root : bool) run ansi (cx : context W pydict) i o results rerrs w x es s' :
  In i [apt env root program_installed as_root; homebrew env root program_installed as_root;
        macports env root program_installed as_root] ->
  lookup_installer cx (in_name i) = Some i ->
  o_simulate o = false -> (rerrs = [] \/ o_continue o = true) ->
  (forall key m rs, In (key, (m, rs)) results -> m = in_name i) ->
  (exists key rs, In (key, (in_name i, rs)) results /\ rs <> []) ->
  install run ansi cx o (Ok (results, rerrs)) (w, []) = (Ok (x, es), s') -> es <> [].
Proof.
  intros Hi Hl; apply (blind_install run ansi cx i); [|exact Hl].
  assert (B : forall name ex cmd1, blind (pm_installer env root name false as_root cmd1 filter_nothing
                                   (system_pm program_installed ex))).
  { intros name ex cmd1; split; [reflexivity|]; split; [reflexivity|].
    intros rs a b v cs v' Hne E; cbn [in_commands pm_installer] in E; injection E as E _.
    apply bind_Ok in E; destruct E as (ps & Eps & E); apply C38_elevation in E.
    destruct rs as [|r rs]; [congruence|]; apply mapM_Ok in Eps; inversion Eps; subst; cbn [map] in E.
    inversion E; discriminate. }
  simpl in Hi; destruct Hi as [<-|[<-|[<-|[]]]]; apply B.
Qed.

(** The fake installer works: for any packages whose files can be touched in the install
    directory, installation is reported as success.  [root || negb as_root]: commands are
    not prefixed with sudo. *)
Section Fake.
  Context {W : Type}.
  Variables (env : penv) (root as_root : bool) (name install_dir : text).
  Variable exists_ isdir : text -> W -> bool.
  Variable makedirs : text -> act W unit.
  Variable run : cmd -> act W Z.
  Variable touchable : text -> Prop.

  Definition the_fake : installer W pydict := fake env root exists_ isdir makedirs install_dir name as_root.

  (** Running touch on a touchable file makes it exist, removes nothing and exits with 0. *)
  Definition touch_works : Prop := forall f w, touchable f -> isdir install_dir w = true ->
    exists w', run [u "touch"; f] w = (Ok 0%Z, w') /\ exists_ f w' = true /\
      isdir install_dir w' = true /\ forall g, exists_ g w = true -> exists_ g w' = true.

  Definition fakeable (r : pydict) : Prop :=
    exists p, get (KStr (u "package")) r = Some (VStr p) /\
      touchable (path_join install_dir p) /\ ~ In at_ (path_join install_dir p).

  Lemma fake_runs : touch_works -> forall fs w, isdir install_dir w = true ->
    (forall f, In f fs -> touchable f) ->
    exists w', runs run (map (fun f => [u "touch"; f]) fs) w w' /\ isdir install_dir w' = true /\
      (forall f, In f fs -> exists_ f w' = true) /\ (forall g, exists_ g w = true -> exists_ g w' = true).
  Proof.
    intros Ht; induction fs as [|f fs IH]; intros w Hd Hf.
    - exists w; split; [constructor|]; split; [exact Hd|]; split; [intros ? []|auto].
    - destruct (Ht f w (Hf f (or_introl eq_refl)) Hd) as (w1 & E1 & X1 & D1 & M1).
      destruct (IH w1 D1 (fun g H => Hf g (or_intror H))) as (w2 & R2 & D2 & X2 & M2).
      exists w2; split; [econstructor; [exact E1|exact R2]|]; split; [exact D2|]; split.
      + intros g [<-|Hg]; [apply M2, X1|apply X2, Hg].
      + intros g Hg; apply M2, M1, Hg.
  Qed.

  Lemma fake_packages rs : Forall fakeable rs ->
    exists ps, mapM package_of rs = Ok ps /\
      Forall2 (fun r p => get (KStr (u "package")) r = Some (VStr p)) rs ps /\
      (forall p, In p ps -> touchable (path_join install_dir p) /\ ~ In at_ (path_join install_dir p)).
  Proof.
    intros H; induction H as [|r rs (p & Hp & Ht & Ha) _ (ps & E & HF & Hall)].
    - exists []; split; [reflexivity|]; split; [constructor|intros ? []].
    - exists (p :: ps); cbn [mapM]; unfold package_of at 1, k_package; rewrite Hp; cbn [bind]; rewrite E; cbn [bind].
      split; [reflexivity|]; split; [constructor; assumption|].
      intros q [<-|Hq]; [split; assumption|apply Hall, Hq].
  Qed.

  Lemma fake_works : touch_works -> as_root && negb root = false ->
    works run (fun w => isdir install_dir w = true) fakeable the_fake.
  Proof.
    intros Ht Hroot; split; [|split; [|split]].
    - intros fix_ inter w Hd; exists w; split; [|exact Hd].
      unfold the_fake, fake, pm_installer; cbn [in_check_general].
      unfold pm_check_general, check_package_manager_installed, fake_pm; cbn [pm_is_installed].
      rewrite Hd; reflexivity.
    - intros rs fix_ inter w Hd; exists w; split; [reflexivity|exact Hd].
    - intros rs w Hd Hg; unfold the_fake, fake, pm_installer; cbn [in_filter_uninstalled].
      unfold fake_filter_uninstalled; destruct (fake_packages rs Hg) as (ps & _ & HF & _).
      assert (X : exists l, mapM (fun r => let* p := package_of r in
                  Ok (if exists_ (fake_filename install_dir p) w then [] else [r])) rs = Ok l /\
                  incl (List.concat l) rs).
      { clear Hg; induction HF as [|r p rs ps Hp HF (l & El & Hi)]; [exists []; split; [reflexivity|intros ? []]|].
        cbn [mapM]; unfold package_of at 1, k_package; rewrite Hp; cbn [bind]; rewrite El; cbn [bind].
        eexists; split; [reflexivity|]; cbn [List.concat].
        destruct (exists_ (fake_filename install_dir p) w); cbn [app];
          [intros x Hx; right; apply Hi, Hx|intros x [<-|Hx]; [left; reflexivity|right; apply Hi, Hx]]. }
      destruct X as (l & El & Hi); rewrite El; cbn [bind]; exists (List.concat l), w.
      split; [reflexivity|]; split; [exact Hd|exact Hi].
    - intros rs inter re w Hd Hg; unfold the_fake, fake, pm_installer; cbn [in_commands in_is_installed].
      destruct (fake_packages rs Hg) as (ps & E & HF & Hall); rewrite E; cbn [bind].
      unfold get_install_commands; rewrite Hroot.
      eexists _, w; split; [reflexivity|]; split; [exact Hd|]; split.
      + intros c t Hc Hin; apply in_map_iff in Hc; destruct Hc as (p & <- & Hp).
        destruct Hin as [<-|[<-|[]]]; [|apply Hall, Hp].
        intros D; cbv in D; repeat (destruct D as [D|D]; [discriminate|]); contradiction.
      + destruct (fake_runs Ht (map (path_join install_dir) ps) w Hd) as (w2 & R2 & D2 & X2 & _).
        { intros f Hf; apply in_map_iff in Hf; destruct Hf as (p & <- & Hp); apply Hall, Hp. }
        rewrite map_map in R2; exists w2; split; [exact R2|]; split; [exact D2|].
        intros r Hr; unfold is_installed_of, fake_filter_uninstalled; cbn [mapM].
        assert (Hp : exists p, get (KStr (u "package")) r = Some (VStr p) /\ In p ps).
        { clear - HF Hr; induction HF as [|x p rs ps Hp HF IH]; [destruct Hr|].
          destruct Hr as [<-|Hr]; [exists p; split; [exact Hp|left; reflexivity]|].
          destruct (IH Hr) as (q & Hq & Hin); exists q; split; [exact Hq|right; exact Hin]. }
        destruct Hp as (p & Hp & Hin); unfold package_of, k_package; rewrite Hp; cbn [bind].
        unfold fake_filename; rewrite X2; [reflexivity|apply in_map, Hin].
  Qed.

  (** End to end. *)
  Theorem C67_fake_success ansi (cx : context W pydict) o results w :
    ansi = ansi_enabled \/ ansi = ansi_disabled ->
    touch_works -> as_root && negb root = false ->
    lookup_installer cx (in_name the_fake) = Some the_fake ->
    isdir install_dir w = true -> o_reinstall o = false ->
    (forall key n rs, In (key, (n, rs)) results -> n = in_name the_fake /\ Forall fakeable rs) ->
    exists s', install run ansi cx o (Ok (results, [])) (w, []) = (Ok ([], []), s').
  Proof.
    intros Ha Ht Hroot Hl Hd Hre Hall.
    apply (C67_success_reported_partial run ansi Ha cx (fun w => isdir install_dir w = true) fakeable);
      [exact Hre|exact Hd|].
    intros n rs Hin; apply in_map_iff in Hin; destruct Hin as ([key g] & Eg & Hin); cbn [snd] in Eg; subst g.
    destruct (Hall _ _ _ Hin) as [-> HF]; split; [exact HF|].
    exists the_fake; split; [exact Hl|apply fake_works; assumption].
  Qed.
End Fake.

(** A machine is its list of existing files and directories. *)
Definition fs_run (c : cmd) : act (list text) Z := fun w =>
  match c with
  | [p; f] => if eqb p (u "touch") then (Ok 0%Z, f :: w) else (Ok 0%Z, w)
  | _ => (Ok 0%Z, w)
  end.
Definition fs_has (f : text) (w : list text) : bool := mem f w.
Definition fs_fake : installer (list text) pydict :=
  the_fake root_env false false [] (u "/d") fs_has fs_has (fun p w => (Ok tt, p :: w)).
Definition fs_apt : installer (list text) pydict := apt root_env false (fun _ w => (Ok true, w)) false.
Definition fs_context : context (list text) pydict :=
  {| cx_ic := {| ic_os := u "ubuntu"; ic_version := u "trusty"; ic_default := None |};
     cx_plugins := [fs_fake; fs_apt]; cx_core := []; cx_additional := [] |}.
Definition fs_options : options :=
  {| o_interactive := false; o_reinstall := false; o_simulate := false; o_continue := false; o_fix := false |}.

Example C67_nonvacuous :
  touch_works (u "/d") fs_has fs_has fs_run (fun _ => True) /\
  lookup_installer fs_context (in_name fs_fake) = Some fs_fake /\
  lookup_installer fs_context (in_name fs_apt) = Some fs_apt /\
  (exists s, install fs_run ansi_disabled fs_context fs_options
     (Ok ([(u "k", (u "fake", [plain_resolution (VStr (u "p")); plain_resolution (VStr (u "q"))]))], []))
     ([u "/d"], []) = (Ok ([], []), s) /\ fst s = [u "/d/q"; u "/d/p"; u "/d"]) /\
  (exists s, install fs_run ansi_disabled fs_context fs_options
     (Ok ([(u "k", (u "apt", [plain_resolution (VStr (u "p"))]))], [])) ([], []) = (Ok ([], [InstallError]), s) /\
     executed (snd s) = [[u "apt-get"; u "install"; u "p"]]).
Proof.
  split; [|split; [reflexivity|split; [reflexivity|split]]].
  - intros f w _ Hd; exists (f :: w); split; [reflexivity|]; unfold fs_has in *.
    split; [apply mem_In; left; reflexivity|].
    split; [apply mem_In; right; apply mem_In; exact Hd|intros g Hg; apply mem_In; right; apply mem_In; exact Hg].
  - eexists; split; [vm_compute; reflexivity|reflexivity].
  - eexists; split; [vm_compute; reflexivity|reflexivity].
Qed.

(** ** C68: resolution objects as set members and dictionary keys *)
(** "These objects are hashable, which is used to remove duplicates": no resolution object is,
    because the constructor stores a list in it. *)
Theorem C68_hashable_refuted d : resolution_hash (make_resolution d) = Err TypeError.
Proof.
  unfold resolution_hash.
  destruct (forallb (fun p => hashable (snd p)) (make_resolution d)) eqn:E; [|reflexivity].
  rewrite forallb_forall in E.
  assert (H : In (k_to_list_keys, VList [VStr (u "package")]) (make_resolution d)).
  { apply get_In; unfold make_resolution; apply get_set_same. }
  specialize (E _ H); discriminate E.
Qed.
Theorem C68_resolved_refuted env extra rule rs r :
  resolve_rule env (rule_description extra) (VDict rule) = Ok rs -> In r rs ->
  resolution_hash r = Err TypeError.
Proof.
  unfold resolve_rule; intros E Hr; apply bind_Ok in E; destruct E as (c & _ & E).
  apply bind_Ok in E; destruct E as (p & _ & E); apply bind_Ok in E; destruct E as (q & _ & E).
  destruct p as [| | | | |l|]; try discriminate E; injection E as <-.
  apply in_map_iff in Hr; destruct Hr as (x & <- & _); unfold resolution_hash.
  match goal with |- context [forallb ?f ?d] => destruct (forallb f d) eqn:E; [|reflexivity] end.
  rewrite forallb_forall in E.
  match type of E with forall x, In x ?d -> _ =>
    assert (H : In (k_to_list_keys, VList [VStr (u "package")]) d) end.
  { apply get_In; unfold make_resolution; rewrite get_set_other; [apply get_set_same|discriminate]. }
  specialize (E _ H); discriminate E.
Qed.

(** ** C69: interactive and reinstall settings *)
(** The bundled installers compose the same commands whether or not interaction is allowed and
    whether or not reinstallation is requested; so neither setting has an effect on them. *)
Theorem C69_flags_ignored_refuted {W} (env : penv) (root : bool) (program_installed : text -> act W bool)
    (freeze : act W text) exists_ isdir makedirs dir name (as_root : bool) rs a b a' b' w i :
  In i [apt env root program_installed as_root; homebrew env root program_installed as_root;
        macports env root program_installed as_root; pip env root program_installed freeze as_root;
        fake env root exists_ isdir makedirs dir name as_root] ->
  in_commands i rs a b w = in_commands i rs a' b' w.
Proof. intros Hi; simpl in Hi; destruct Hi as [<-|[<-|[<-|[<-|[<-|[]]]]]]; reflexivity. Qed.

(** The commands they compose: one per package, in order, elevated as in C38. *)
Definition names_package (r : pydict) (p : text) : Prop := get (KStr (u "package")) r = Some (VStr p).

Lemma packages_of rs ps : mapM package_of rs = Ok ps <-> Forall2 names_package rs ps.
Proof.
  assert (X : forall r p, package_of r = Ok p <-> names_package r p).
  { intros r p; unfold package_of, names_package, k_package; destruct (get (KStr (u "package")) r) as [[| | |s| | |]|];
      split; intros E; try discriminate E; injection E as <-; reflexivity. }
  revert ps; induction rs as [|r rs IH]; intros ps; cbn [mapM].
  - split; [intros E; injection E as <-; constructor|intros H; inversion H; reflexivity].
  - split.
    + intros E; apply bind_Ok in E; destruct E as (p & Ep & E); apply bind_Ok in E; destruct E as (qs & Eq & E).
      injection E as <-; constructor; [apply X, Ep|apply IH, Eq].
    + intros H; inversion H as [|? p ? qs Hp Hq]; subst; apply X in Hp; apply IH in Hq; rewrite Hp, Hq; reflexivity.
Qed.

Theorem C69_commands {W} (env : penv) (root : bool) (program_installed : text -> act W bool)
    (freeze : act W text) exists_ isdir makedirs dir name (as_root : bool) rs a b w cs w' i prefix file :
  In (i, (prefix, file))
     [(apt env root program_installed as_root, ([u "apt-get"; u "install"], fun p => p));
      (homebrew env root program_installed as_root, ([u "brew"; u "install"], fun p => p));
      (macports env root program_installed as_root, ([u "port"; u "install"], fun p => p));
      (pip env root program_installed freeze as_root, ([u "pip"; u "install"; u "-U"], fun p => p));
      (fake env root exists_ isdir makedirs dir name as_root, ([u "touch"], fun p => path_join dir p))] ->
  in_commands i rs a b w = (Ok cs, w') <->
  w' = w /\ exists ps, Forall2 names_package rs ps /\
    Forall2 (fun p c => c = (if as_root && negb root then [u "sudo"] else []) ++ prefix ++ [file p]) ps cs.
Proof.
  assert (X : forall command filter name0 add0 pm0 (pre : text -> cmd),
    (forall p, elevated as_root root (command p) (pre p)) ->
    in_commands (pm_installer env root name0 add0 as_root command filter pm0) rs a b w = (Ok cs, w') <->
    w' = w /\ exists ps, Forall2 names_package rs ps /\ Forall2 (fun p c => c = pre p) ps cs).
  { intros command flt name0 add0 pm0 pre Hpre; cbn [in_commands pm_installer]; split.
    - intros E.
      match type of E with (?r, _) = _ => assert (Er : r = Ok cs) by congruence; assert (Ew : w' = w) by congruence end.
      split; [exact Ew|].
      apply bind_Ok in Er; destruct Er as (ps & Eps & Ec); exists ps; split; [apply packages_of, Eps|].
      apply C38_elevation in Ec; clear - Ec Hpre; revert cs Ec; induction ps as [|p ps IH]; intros cs H;
        inversion H as [|? c ? cs' Hc Hcs]; subst; constructor; [|apply IH, Hcs].
      specialize (Hpre p); unfold elevated in *; destruct (as_root && negb root); [|congruence].
      destruct Hpre as [(x & Ex & ->)|(x & y & Ex & Hn & ->)]; destruct Hc as [(x' & Ex' & ->)|(x' & y' & Ex' & Hn' & ->)];
        try reflexivity; exfalso; congruence.
    - intros [-> (ps & Hps & Hcs)]; apply packages_of in Hps; rewrite Hps; cbn [bind]; f_equal.
      apply C38_elevation; clear - Hcs Hpre; induction Hcs as [|p c ps cs -> H IH]; constructor; [apply Hpre|exact IH]. }
  assert (Y : forall (c : cmd) x l, c = x :: l -> x <> u "sudo" ->
    elevated as_root root c ((if as_root && negb root then [u "sudo"] else []) ++ c)).
  { intros c x l -> Hn; unfold elevated; destruct (as_root && negb root); [right; exists x, l; auto|reflexivity]. }
  intros Hi; simpl in Hi; destruct Hi as [E|[E|[E|[E|[E|[]]]]]]; injection E as <- <- <-;
    apply X; intros p; cbn [app]; eapply Y; try reflexivity; discriminate.
Qed.

Example C69_nonvacuous :
  in_commands (apt root_env false (fun _ (w : unit) => (Ok true, w)) true)
    [plain_resolution (VStr (u "a")); plain_resolution (VStr (u "b"))] false true tt =
  (Ok [[u "sudo"; u "apt-get"; u "install"; u "a"]; [u "sudo"; u "apt-get"; u "install"; u "b"]], tt).
Proof. reflexivity. Qed.

(** ** C70: which packages pip considers installed *)
Definition equals_sign : N := 61%N.
(** A line of the output of pip freeze that shows the package as installed. *)
Definition shows (line p : text) : Prop :=
  line = p \/ exists version, line = p ++ [equals_sign; equals_sign] ++ version.

Lemma before_eqeq_spec p : ~ In equals_sign p -> forall row, before_eqeq row = p <-> shows row p.
Proof.
  unfold shows; induction p as [|c p IH]; intros Hp row.
  - destruct row as [|x row]; cbn [before_eqeq]; [split; [left; reflexivity|reflexivity]|].
    destruct (is_prefix (u "==") (x :: row)) eqn:E.
    + split; [intros _; right|reflexivity].
      destruct row as [|y row]; [cbn in E; rewrite andb_false_r in E; discriminate E|].
      change (u "==") with [equals_sign; equals_sign] in E.
      cbn [is_prefix] in E; destruct (eqb_spec equals_sign x) as [<-|_]; [|discriminate E].
      destruct (eqb_spec equals_sign y) as [<-|_]; [|discriminate E]; exists row; reflexivity.
    + split; [discriminate|]; intros [D|(v & D)]; [discriminate D|]; rewrite D in E; discriminate E.
  - assert (Hc : c <> equals_sign) by (intros ->; apply Hp; left; reflexivity).
    assert (Hp' : ~ In equals_sign p) by (intros H; apply Hp; right; exact H).
    destruct row as [|x row]; cbn [before_eqeq].
    { split; [discriminate|]; intros [D|(v & D)]; discriminate D. }
    destruct (is_prefix (u "==") (x :: row)) eqn:E.
    + split; [discriminate|]; change (u "==") with [equals_sign; equals_sign] in E; cbn [is_prefix] in E.
      destruct (eqb_spec equals_sign x) as [Ex|_]; [|discriminate E].
      intros [D|(v & D)]; injection D as D _; congruence.
    + specialize (IH Hp' row); split.
      * intros Eq; injection Eq as -> Eq; apply IH in Eq; destruct Eq as [->|(v & ->)];
          [left; reflexivity|right; exists v; reflexivity].
      * intros [D|(v & D)]; injection D as -> D; f_equal; apply IH; [left; exact D|right; exists v; exact D].
Qed.

(** What is still to install with pip: in order, exactly the resolutions whose package no line
    of the output of pip freeze shows. *)
Theorem C70_pip_detection {W} (freeze : act W text) rs ps w out w' lines :
  freeze w = (Ok out, w') ->
  out = join [newline] lines -> lines <> [] -> (forall line, In line lines -> ~ In newline line) ->
  Forall2 names_package rs ps -> (forall p, In p ps -> ~ In equals_sign p) ->
  exists keep,
    Forall2 (fun p k => k = true <-> forall line, In line lines -> ~ shows line p) ps keep /\
    pip_filter_uninstalled freeze rs w = (Ok (map fst (filter snd (combine rs keep))), w').
Proof.
  intros Ef Eo Hne Hnl HF Heq; unfold pip_filter_uninstalled; rewrite Ef, Eo.
  rewrite split_on_join; [|exact Hne|apply Forall_forall; exact Hnl].
  assert (M : forall p, ~ In equals_sign p ->
     (mem p (map before_eqeq lines) = true <-> exists line, In line lines /\ shows line p)).
  { intros p Hp; rewrite mem_In, in_map_iff; split.
    - intros (l & El & Hl); exists l; split; [exact Hl|apply before_eqeq_spec; assumption].
    - intros (l & Hl & Hs); exists l; split; [apply before_eqeq_spec; assumption|exact Hl]. }
  induction HF as [|r p rs ps Hp HF IH]; [exists []; split; [constructor|reflexivity]|].
  destruct IH as (keep & Hk & E); [intros q Hq; apply Heq; right; exact Hq|].
  exists (negb (mem p (map before_eqeq lines)) :: keep); split.
  - constructor; [|exact Hk]; specialize (M p (Heq p (or_introl eq_refl))).
    destruct (mem p (map before_eqeq lines)); cbn [negb]; split; intros H.
    + discriminate H.
    + destruct (proj1 M eq_refl) as (line & Hline & Hs); exfalso; exact (H line Hline Hs).
    + intros line Hl Hs; discriminate (proj2 M (ex_intro _ line (conj Hl Hs))).
    + reflexivity.
  - cbn [mapM]; unfold k_package; unfold k_package in E; rewrite Hp; cbn [bind].
    assert (E' := f_equal fst E); cbn [fst] in E'; apply bind_Ok in E'; destruct E' as (l & El & Ec).
    injection Ec as Ec; rewrite El; cbn [bind List.concat]; rewrite Ec.
    cbn [combine filter snd]; destruct (mem p (map before_eqeq lines)); reflexivity.
Qed.

(** The same for packages that need not be texts: one that is no text is never taken as installed. *)
Theorem C70_pip_any_package {W} (freeze : act W text) (rs : list resolution) (vs : list pyval) w out w' lines :
  freeze w = (Ok out, w') ->
  out = join [newline] lines -> lines <> [] -> (forall line, In line lines -> ~ In newline line) ->
  Forall2 (fun r v => get (KStr (u "package")) r = Some v) rs vs -> (forall p, In (VStr p) vs -> ~ In equals_sign p) ->
  exists keep,
    Forall2 (fun v k => k = true <-> forall p line, v = VStr p -> In line lines -> ~ shows line p) vs keep /\
    pip_filter_uninstalled freeze rs w = (Ok (map fst (filter snd (combine rs keep))), w').
Proof.
  intros Ef Eo Hne Hnl HF Heq; unfold pip_filter_uninstalled; rewrite Ef, Eo.
  rewrite split_on_join; [|exact Hne|apply Forall_forall; exact Hnl].
  assert (M : forall p, ~ In equals_sign p ->
     (mem p (map before_eqeq lines) = true <-> exists line, In line lines /\ shows line p)).
  { intros p Hp; rewrite mem_In, in_map_iff; split.
    - intros (l & El & Hl); exists l; split; [exact Hl|apply before_eqeq_spec; assumption].
    - intros (l & Hl & Hs); exists l; split; [apply before_eqeq_spec; assumption|exact Hl]. }
  induction HF as [|r v rs vs Hp HF IH]; [exists []; split; [constructor|reflexivity]|].
  destruct IH as (keep & Hk & E); [intros q Hq; apply Heq; right; exact Hq|].
  assert (E' := f_equal fst E); cbn [fst] in E'; apply bind_Ok in E'; destruct E' as (l & El & Ec); injection Ec as Ec.
  assert (B : exists b, (b = true <-> forall p line, v = VStr p -> In line lines -> ~ shows line p) /\
     match v with VStr p => Ok (if mem p (map before_eqeq lines) then [] else [r]) | _ => Ok [r] end = Ok (if b then [r] else [])).
  { destruct v as [|x|x|q|x|x|x]; try (exists true; split; [split; [intros _ ? ? D; discriminate D|reflexivity]|reflexivity]).
    exists (negb (mem q (map before_eqeq lines))); split; [|destruct (mem q _); reflexivity].
    specialize (M q (Heq q (or_introl eq_refl))); destruct (mem q (map before_eqeq lines)); cbn [negb]; split; intros H.
    - discriminate H.
    - destruct (proj1 M eq_refl) as (line & Hline & Hs); exfalso; exact (H q line eq_refl Hline Hs).
    - intros p line D Hl Hs; injection D as <-; discriminate (proj2 M (ex_intro _ line (conj Hl Hs))).
    - reflexivity. }
  destruct B as (b & Hb & Eb); exists (b :: keep); split; [constructor; assumption|].
  cbn [mapM]; unfold k_package; unfold k_package in El; rewrite Hp.
  assert (Eb' : match v with
                | VStr p => Ok (if mem p (map before_eqeq lines) then [] else [r])
                | _ => Ok [r]
                end = Ok (if b then [r] else [])) by exact Eb.
  rewrite Eb'; cbn [bind]; rewrite El; cbn [bind List.concat]; rewrite Ec.
  cbn [combine filter snd]; destruct b; reflexivity.
Qed.

(** Package names are compared character by character: an installed package under its
    canonical spelling is not recognised and would be installed again. *)
Theorem C70_spelling_refuted :
  let freeze (w : unit) := (Ok (u "PyYAML==3.11" ++ [newline]), w) in
  pip_filter_uninstalled freeze [plain_resolution (VStr (u "pyyaml"))] tt =
    (Ok [plain_resolution (VStr (u "pyyaml"))], tt).
Proof. reflexivity. Qed.

Example C70_nonvacuous :
  let freeze (w : unit) := (Ok (join [newline] [u "PyYAML==3.11"; u "six==1.0"; []]), w) in
  pip_filter_uninstalled freeze [plain_resolution (VStr (u "PyYAML")); plain_resolution (VStr (u "mock"));
                                 plain_resolution (VStr (u "si"))] tt =
    (Ok [plain_resolution (VStr (u "mock")); plain_resolution (VStr (u "si"))], tt).
Proof. reflexivity. Qed.

Example C70_any_package_nonvacuous :
  let freeze (w : unit) := (Ok (join [newline] [u "six==1.0"; []]), w) in
  pip_filter_uninstalled freeze [[(KStr (u "package"), VInt 6%Z)]; [(KStr (u "package"), VStr (u "six"))]] tt =
    (Ok [[(KStr (u "package"), VInt 6%Z)]], tt).
Proof. reflexivity. Qed.

Print Assumptions C70_pip_any_package.
Print Assumptions C37_resolve_exact.
Print Assumptions C37_options.
Print Assumptions C37_depends_exact.
Print Assumptions C37_null_package_refuted.
Print Assumptions C37_not_a_mapping_refuted.
Print Assumptions C38_elevation.
Print Assumptions C38_total.
Print Assumptions C38_idempotent.
Print Assumptions C38_as_root_option.
Print Assumptions C39_installed_exact.
Print Assumptions C39_error_partial.
Print Assumptions C39_out_of_date_tolerated_partial.
Print Assumptions C39_bundled_refuted.
Print Assumptions C39_bundled_no_fix.
Print Assumptions C67_success_reported_partial.
Print Assumptions C67_bundled_refuted.
Print Assumptions C67_fake_success.
Print Assumptions C68_hashable_refuted.
Print Assumptions C68_resolved_refuted.
Print Assumptions C69_flags_ignored_refuted.
Print Assumptions C69_commands.
Print Assumptions C70_pip_detection.
Print Assumptions C70_spelling_refuted.
