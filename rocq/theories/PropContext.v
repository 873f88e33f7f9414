(** C41, C74-C76: the installer context. *)
From Verif Require Import Base Dict PyVal RulesDict Verify Sources Util Paths Config ConfigSpec ConfigTypeProofs ConfigProofs XylemConfig PropConfig Installer Installers Plugins OsSupport Context PropOs.

(** ** Lemmas *)
Section Lemmas.
  Context {W R : Type}.
  Implicit Types (insts : list (installer W R)) (i : installer W R).

  Lemma find_index_nth {A} (f : A -> bool) l k : find_index f l = Some k ->
    exists a, nth_error l k = Some a /\ f a = true /\ find f l = Some a.
  Proof.
    revert k; induction l as [|a l IH]; intros k; cbn [find_index find]; [discriminate|].
    destruct (f a) eqn:Ef.
    - intros E; injection E as <-. exists a; auto.
    - destruct (find_index f l) as [j|]; [|discriminate]. intros E; injection E as <-.
      destruct (IH j eq_refl) as (b & H1 & H2 & H3). exists b; auto.
  Qed.

  Lemma find_index_None {A} (f : A -> bool) l : find_index f l = None -> forall a, In a l -> f a = false.
  Proof.
    induction l as [|a l IH]; cbn [find_index]; [intros _ ? []|].
    destruct (f a) eqn:Ef; [discriminate|]. destruct (find_index f l); [discriminate|].
    intros _ b [<-|Hb]; auto.
  Qed.

  Lemma at_indices_In {A} (l : list A) ks a : In a (at_indices l ks) <-> exists k, In k ks /\ nth_error l k = Some a.
  Proof.
    unfold at_indices. rewrite in_flat_map. split.
    - intros (k & Hk & Ha). destruct (nth_error l k) eqn:E; [|destruct Ha]. destruct Ha as [<-|[]]. eauto.
    - intros (k & Hk & E). exists k. split; [exact Hk|]. rewrite E. left; reflexivity.
  Qed.

  Lemma core_names_eq insts names :
    map in_name (at_indices insts (core_indices insts names)) =
    filter (fun n => mem n (map in_name insts)) names.
  Proof.
    unfold at_indices, core_indices. induction names as [|n names IH]; [reflexivity|]. cbn [flat_map filter].
    rewrite flat_map_app, map_app, IH.
    destruct (find_index (fun i => eqb (in_name i) n) insts) as [k|] eqn:E.
    - destruct (find_index_nth _ _ _ E) as (i & Hn & Hf & _). apply (proj1 (eqb_eq _ _)) in Hf.
      assert (M : mem n (map in_name insts) = true).
      { apply mem_In. rewrite <- Hf. apply in_map. apply nth_error_In in Hn. exact Hn. }
      rewrite M. cbn [flat_map]. rewrite Hn. cbn. rewrite Hf. reflexivity.
    - assert (M : mem n (map in_name insts) = false).
      { apply mem_not_In. rewrite in_map_iff. intros (i & Hi & Hin).
        pose proof (find_index_None _ _ E i Hin) as F. cbn in F. rewrite Hi, eqb_refl in F. discriminate. }
      rewrite M. reflexivity.
  Qed.

  (** An object found under a name is the first of that name. *)
  Lemma core_first insts names i : In i (at_indices insts (core_indices insts names)) ->
    find (fun j => eqb (in_name j) (in_name i)) insts = Some i /\ In (in_name i) names.
  Proof.
    rewrite at_indices_In. intros (k & Hk & Hn). unfold core_indices in Hk. apply in_flat_map in Hk as (n & Hin & Hk).
    destruct (find_index (fun i => eqb (in_name i) n) insts) as [k'|] eqn:E; [|destruct Hk].
    destruct Hk as [->|[]]. destruct (find_index_nth _ _ _ E) as (j & Hj & Hf & Hfind).
    assert (j = i) by congruence; subst j. apply (proj1 (eqb_eq _ _)) in Hf. subst n. split; assumption.
  Qed.

  Lemma nth_error_seq_filter {A} (P : nat -> bool) (Q : A -> bool) (l : list A) n :
    (forall k a, nth_error l k = Some a -> P (n + k) = Q a) ->
    flat_map (fun k => match nth_error l (k - n) with Some a => [a] | None => [] end) (filter P (seq n (List.length l)))
    = filter Q l.
  Proof.
    revert n; induction l as [|a l IH]; intros n H; [reflexivity|].
    cbn [List.length seq filter].
    assert (H0 : P n = Q a). { rewrite <- (H 0 a eq_refl). f_equal. lia. }
    assert (Hrec : flat_map (fun k => match nth_error (a :: l) (k - n) with Some b => [b] | None => [] end)
                     (filter P (seq (S n) (List.length l))) = filter Q l).
    { rewrite <- (IH (S n)).
      - rewrite !flat_map_concat_map. f_equal. apply map_ext_in. intros k Hk.
        apply filter_In in Hk as [Hk _]. apply in_seq in Hk.
        replace (k - n) with (S (k - S n)) by lia. reflexivity.
      - intros k b Hb. rewrite <- (H (S k) b Hb). f_equal. lia. }
    rewrite H0. destruct (Q a); [|exact Hrec].
    cbn [flat_map]. rewrite Nat.sub_diag. cbn [nth_error app]. rewrite Hrec. reflexivity.
  Qed.

  Lemma at_filter_seq {A} (P : nat -> bool) (Q : A -> bool) (l : list A) :
    (forall k a, nth_error l k = Some a -> P k = Q a) ->
    at_indices l (filter P (seq 0 (List.length l))) = filter Q l.
  Proof.
    intros H. unfold at_indices. rewrite <- (nth_error_seq_filter P Q l 0); [|exact H].
    rewrite !flat_map_concat_map. f_equal. apply map_ext. intros k. rewrite Nat.sub_0_r. reflexivity.
  Qed.

  Lemma core_indices_name insts names k i : NoDup (map in_name insts) -> nth_error insts k = Some i ->
    mem k (core_indices insts names) = mem (in_name i) names.
  Proof.
    intros ND Hk. apply eq_true_iff_eq. rewrite !mem_In. unfold core_indices. rewrite in_flat_map. split.
    - intros (n & Hn & Hin). destruct (find_index (fun i => eqb (in_name i) n) insts) as [k'|] eqn:E; [|destruct Hin].
      destruct Hin as [->|[]]. destruct (find_index_nth _ _ _ E) as (j & Hj & Hf & _).
      apply (proj1 (eqb_eq _ _)) in Hf. assert (j = i) by congruence; subst j. subst n. exact Hn.
    - intros Hn. exists (in_name i). split; [exact Hn|].
      destruct (find_index (fun j => eqb (in_name j) (in_name i)) insts) as [k'|] eqn:E.
      + destruct (find_index_nth _ _ _ E) as (j & Hj & Hf & _). apply (proj1 (eqb_eq _ _)) in Hf.
        left. apply (proj1 (NoDup_nth_error (map in_name insts)) ND).
        * rewrite map_length. apply nth_error_Some. congruence.
        * rewrite !nth_error_map, Hj, Hk. cbn. congruence.
      + pose proof (find_index_None _ _ E i (nth_error_In _ _ Hk)) as F. cbn in F.
        rewrite eqb_refl in F. discriminate.
  Qed.
End Lemmas.

Lemma find_unique {W R} (l : list (installer W R)) i : NoDup (map in_name l) -> In i l ->
  find (fun j => eqb (in_name j) (in_name i)) l = Some i.
Proof.
  induction l as [|j l IH]; intros ND Hi; [destruct Hi|]. cbn [find map] in *.
  inversion ND as [|? ? Hn ND']; subst. destruct Hi as [->|Hi]; [rewrite eqb_refl; reflexivity|].
  destruct (eqb_spec (in_name j) (in_name i)) as [E|N]; [|apply IH; assumption].
  exfalso. apply Hn. rewrite E. apply in_map; exact Hi.
Qed.

Lemma mapM_Forall2 {A B} (f : A -> res B) l ys : mapM f l = Ok ys -> Forall2 (fun x y => f x = Ok y) l ys.
Proof.
  revert ys; induction l as [|x l IH]; intros ys; cbn [mapM].
  - intros E; injection E as <-. constructor.
  - intros H. apply bind_Ok in H as (y & Hy & H). apply bind_Ok in H as (r & Hr & E). injection E as <-.
    constructor; auto.
Qed.

Lemma names_of_texts names : names_of (VList (map VStr names)) = Ok names.
Proof.
  cbn [names_of]. induction names as [|n l IH]; [reflexivity|]. cbn [map mapM bind].
  rewrite IH. reflexivity.
Qed.

(** ** C41 *)
Section C41.
  Context {W R : Type}.
  Variables (config : pydict) (x : os_object W) (oo : pydict) (plugins : list (inst_plugin W R)) (w : W).
  Variable ctx : context W R.
  Hypothesis Hctx : setup_installers config x oo plugins w = Ok ctx.

  Lemma setup_inv : exists os version names ua,
    obj_tuple x w = Ok (os, version) /\
    configure_installers config plugins = Ok (cx_plugins ctx) /\
    core_names config x version oo = Ok names /\
    get (KStr (u "use_additional_installers")) config = Some ua /\
    cx_ic ctx = {| ic_os := os; ic_version := version; ic_default := os_default (delegate x) |} /\
    cx_core ctx = at_indices (cx_plugins ctx) (core_indices (cx_plugins ctx) names) /\
    cx_additional ctx = at_indices (cx_plugins ctx)
      (if truthy ua then additional_indices (cx_plugins ctx) (core_indices (cx_plugins ctx) names) else []).
  Proof.
    unfold setup_installers in Hctx.
    apply bind_Ok in Hctx as ([os version] & E1 & H). apply bind_Ok in H as (insts & E2 & H).
    apply bind_Ok in H as (names & E3 & H). apply bind_Ok in H as (ua & E4 & H).
    assert (E : ctx = {| cx_ic := {| ic_os := os; ic_version := version; ic_default := os_default (delegate x) |};
          cx_plugins := insts; cx_core := at_indices insts (core_indices insts names);
          cx_additional := at_indices insts
             (if truthy ua then additional_indices insts (core_indices insts names) else []) |}).
    { injection H as <-. reflexivity. }
    clear H. subst ctx. exists os, version, names, ua. cbn [cx_ic cx_plugins cx_core cx_additional].
    assert (E5 : get (KStr (u "use_additional_installers")) config = Some ua).
    { unfold attr in E4. destruct (get (KStr (u "use_additional_installers")) config); congruence. }
    split; [exact E1|]. split; [exact E2|]. split; [exact E3|]. split; [exact E5|].
    split; [reflexivity|]. split; reflexivity.
  Qed.

  (** The core installers are those named in the configuration, in that order, as far as
      they are loaded. *)
  Theorem C41_configured_core names :
    get (KStr (u "core_installers")) config = Some (VList (map VStr names)) ->
    map in_name (cx_core ctx) = filter (fun n => mem n (map in_name (cx_plugins ctx))) names.
  Proof.
    intros Hc. destruct setup_inv as (os & version & names' & ua & _ & _ & E3 & _ & _ & -> & _).
    unfold core_names, attr in E3. rewrite Hc in E3. cbn [bind] in E3.
    rewrite names_of_texts in E3. injection E3 as <-. apply core_names_eq.
  Qed.

  (** If none are configured, they are those of the os for its version. *)
  Theorem C41_os_core version :
    get (KStr (u "core_installers")) config = Some VNone -> obj_version x w = Ok version ->
    map in_name (cx_core ctx) =
    filter (fun n => mem n (map in_name (cx_plugins ctx))) (os_core (delegate x) version oo).
  Proof.
    intros Hc Hv. destruct setup_inv as (os & version' & names' & ua & E1 & _ & E3 & _ & _ & -> & _).
    unfold core_names, attr in E3. rewrite Hc in E3. cbn [bind] in E3. injection E3 as <-.
    unfold obj_tuple in E1. rewrite Hv in E1. injection E1 as _ ->. apply core_names_eq.
  Qed.

  (** All of them are loaded plugins with their configured options. *)
  Theorem C41_all_loaded : Forall (fun i => In i (cx_plugins ctx)) (cx_core ctx ++ cx_additional ctx) /\
    exists options, get (KStr (u "installer_options")) config = Some options /\
    forall d, options = VDict d ->
    Forall2 (fun p i => ip_set_options p (match get (KStr (ip_name p)) d with Some v => v | None => VDict [] end) = Ok i)
      plugins (cx_plugins ctx).
  Proof.
    destruct setup_inv as (os & version & names & ua & _ & E2 & _ & _ & _ & -> & ->). split.
    - apply Forall_forall. intros i Hi. apply in_app_iff in Hi as [Hi|Hi];
        apply at_indices_In in Hi as (k & _ & Hk); apply nth_error_In in Hk; exact Hk.
    - unfold configure_installers, attr in E2.
      destruct (get (KStr (u "installer_options")) config) as [io|]; [|discriminate].
      exists io. split; [reflexivity|]. intros d ->. cbn [bind] in E2. apply mapM_Forall2 in E2. exact E2.
  Qed.

  (** No additional installers unless enabled. *)
  Theorem C41_additional_disabled :
    get (KStr (u "use_additional_installers")) config = Some (VBool false) -> cx_additional ctx = [].
  Proof.
    intros Hu. destruct setup_inv as (os & version & names & ua & _ & _ & _ & E4 & _ & _ & ->).
    rewrite Hu in E4. injection E4 as <-. reflexivity.
  Qed.

  (** The additional installers are, in the order of the plugins, exactly those that declare
      themselves as such and are not core; the names being distinct (C74). *)
  Theorem C41_additional_enabled :
    get (KStr (u "use_additional_installers")) config = Some (VBool true) ->
    NoDup (map in_name (cx_plugins ctx)) ->
    cx_additional ctx =
    filter (fun i => in_additional i && negb (mem (in_name i) (map in_name (cx_core ctx)))) (cx_plugins ctx).
  Proof.
    intros Hu ND. destruct setup_inv as (os & version & names & ua & _ & _ & _ & E4 & _ & Ec & ->).
    rewrite Hu in E4. injection E4 as <-. cbn [truthy]. unfold additional_indices.
    apply at_filter_seq. intros k i Hk. rewrite Hk.
    rewrite (core_indices_name _ names k i ND Hk). rewrite Ec, core_names_eq.
    rewrite andb_comm. f_equal. f_equal. apply eq_true_iff_eq. rewrite !mem_In, filter_In, mem_In.
    split; [|tauto]. intros Hi. split; [exact Hi|]. apply in_map. apply nth_error_In in Hk. exact Hk.
  Qed.

  (** Whatever the names: additional installers are loaded and declare themselves as such. *)
  Theorem C41_additional_sound i : In i (cx_additional ctx) -> In i (cx_plugins ctx) /\ in_additional i = true.
  Proof.
    destruct setup_inv as (os & version & names & ua & _ & _ & _ & _ & _ & _ & ->).
    rewrite at_indices_In. intros (k & Hk & Hn). split; [apply nth_error_In in Hn; exact Hn|].
    destruct (truthy ua); [|destruct Hk]. unfold additional_indices in Hk.
    apply filter_In in Hk as [_ Hk]. rewrite Hn in Hk. apply andb_true_iff in Hk. apply Hk.
  Qed.

  (** The os and its version, for lookups. *)
  Theorem C41_os : exists os version, obj_tuple x w = Ok (os, version) /\ ic_os (cx_ic ctx) = os /\
    ic_version (cx_ic ctx) = version /\ ic_default (cx_ic ctx) = os_default (delegate x).
  Proof.
    destruct setup_inv as (os & version & names & ua & E1 & _ & _ & _ & -> & _). exists os, version. auto.
  Qed.
End C41.

(** Looking up a name finds a loaded installer of that name iff there is one; the only one
    if names are distinct. *)
Theorem C41_lookup_finds {W R} (ctx : context W R) name :
  (exists i, lookup_installer ctx name = Some i /\ In i (cx_plugins ctx) /\ in_name i = name) \/
  (lookup_installer ctx name = None /\ ~ In name (map in_name (cx_plugins ctx))).
Proof.
  unfold lookup_installer. destruct (find (fun i => eqb (in_name i) name) (cx_plugins ctx)) as [i|] eqn:E.
  - left. exists i. split; [reflexivity|]. apply find_some in E as [Hi He].
    apply (proj1 (eqb_eq _ _)) in He. auto.
  - right. split; [reflexivity|]. rewrite in_map_iff. intros (i & Hn & Hi).
    pose proof (find_none _ _ E i Hi) as F. cbn in F. rewrite Hn, eqb_refl in F. discriminate.
Qed.

Theorem C41_lookup_unique {W R} (ctx : context W R) i :
  NoDup (map in_name (cx_plugins ctx)) -> In i (cx_plugins ctx) ->
  lookup_installer ctx (in_name i) = Some i.
Proof. intros ND Hi. apply find_unique; assumption. Qed.

(** ** C74: names of configured installers *)
(** If setting options never changes a name, the installers of the context have distinct
    names, like the loaded plugins. *)
Theorem C74_distinct_partial {W R} config x oo (plugins : list (inst_plugin W R)) w ctx :
  (forall p v i, In p plugins -> ip_set_options p v = Ok i -> in_name i = ip_name p) ->
  NoDup (map ip_name plugins) ->
  setup_installers config x oo plugins w = Ok ctx ->
  map in_name (cx_plugins ctx) = map ip_name plugins /\ NoDup (map in_name (cx_plugins ctx)).
Proof.
  intros Hk ND H. destruct (setup_inv _ _ _ _ _ _ H) as (_ & _ & _ & _ & _ & E2 & _).
  assert (E : map in_name (cx_plugins ctx) = map ip_name plugins); [|rewrite E; split; [reflexivity|exact ND]].
  unfold configure_installers in E2. apply bind_Ok in E2 as (io & _ & E2).
  assert (G : forall d : pydict,
    mapM (fun p => ip_set_options p (match get (KStr (ip_name p)) d with Some v => v | None => VDict [] end)) plugins
      = Ok (cx_plugins ctx) -> map in_name (cx_plugins ctx) = map ip_name plugins).
  { intros d Hd. apply mapM_Forall2 in Hd. clear -Hk Hd. revert Hk. induction Hd as [|p i ps is Hp Hd IH]; intros Hk; [reflexivity|].
    cbn. f_equal; [|apply IH; intros; eapply Hk; [right; eassumption|eassumption]].
    eapply Hk; [left; reflexivity|exact Hp]. }
  destruct io; try exact (G _ E2);
    (destruct plugins; [injection E2 as E2; rewrite <- E2; reflexivity|discriminate E2]).
Qed.

(** ** Loading entry points with disabled plugins *)
Lemma load_enabled {P} uni (name : P -> text) (l : list P) disabled :
  (forall p, In p l -> base_verify_plugin (fun p => Ok (KStr (name p))) uni p = Ok tt) ->
  NoDup (map name l) ->
  load_plugins (fun p => Ok (KStr (name p)))
    (map (fun p => entry_point uni (fun p => Ok (KStr (name p))) (name p) p) l) disabled =
  Ok (filter (fun p => negb (mem (name p) disabled)) l).
Proof.
  intros Hv ND. unfold load_plugins.
  assert (G : forall acc ns, (forall p, In p l -> ~ In (KStr (name p)) ns) ->
    exists ns', foldM (load_step (fun p => Ok (KStr (name p))) disabled)
      (map (fun p => entry_point uni (fun p => Ok (KStr (name p))) (name p) p) l) (acc, ns) =
    Ok (acc ++ filter (fun p => negb (mem (name p) disabled)) l, ns')).
  { induction l as [|p l IH]; intros acc ns Hns.
    - exists ns. cbn [map foldM filter]. rewrite app_nil_r. reflexivity.
    - cbn [map] in ND. inversion ND as [|? ? Hp ND']; subst. cbn [map foldM].
      assert (E : load_step (fun p => Ok (KStr (name p))) disabled (acc, ns)
          (entry_point uni (fun p => Ok (KStr (name p))) (name p) p) =
          Ok (if mem (name p) disabled then (acc, ns) else (acc ++ [p], KStr (name p) :: ns))).
      { unfold load_step, entry_point. cbn [bind].
        change (verify_plugin_definition _) with
          (Ok (name p, {| pc_derived := true; pc_new := Ok p;
                          pc_verify := base_verify_plugin (fun p => Ok (KStr (name p))) uni |})).
        cbv beta iota. destruct (mem (name p) disabled); [reflexivity|]. cbn [pc_new pc_verify bind].
        rewrite (Hv p (or_introl eq_refl)).
        assert (M : mem (KStr (name p)) ns = false) by (apply mem_not_In, Hns; left; reflexivity).
        rewrite M. reflexivity. }
      rewrite E. cbn [bind filter]. destruct (mem (name p) disabled); cbn [negb].
      + apply IH; [intros q Hq; apply Hv; right; exact Hq|exact ND'|intros q Hq; apply Hns; right; exact Hq].
      + destruct (IH (fun q Hq => Hv q (or_intror Hq)) ND' (acc ++ [p]) (KStr (name p) :: ns)) as (ns' & E').
        { intros q Hq [Heq|Hin]; [|exact (Hns q (or_intror Hq) Hin)].
          injection Heq as Heq. apply Hp. rewrite Heq. apply in_map, Hq. }
        exists ns'. rewrite E', <- app_assoc. reflexivity. }
  destruct (G [] [] (fun p _ H => H)) as (ns' & ->). reflexivity.
Qed.

(** ** Setting options *)
Lemma options_outcome env d v : reachable d -> d_groups d = [] ->
  (forall name it, In (name, it) (d_items d) -> has_type (i_type it) (i_default it)) ->
  (exists c, set_options env d (VDict v) = Ok c /\ well_typed d c) \/
  set_options env d (VDict v) = Err ConfigValueError.
Proof.
  intros Hr Hg Hd. cbn [set_options].
  destruct (config_from_parsed_yaml env v d true) as [c|e] eqn:E.
  - left. exists c. split; [reflexivity|]. eapply C47_dictionary_valid_partial; eauto.
  - right. f_equal. pose proof (reachable_names_ok _ Hr) as Hn. unfold config_from_parsed_yaml in E.
    apply bind_Err in E as [E|(c0 & E0 & E)].
    + apply build_Err in E; [|exact Hn]. destruct E as (name & it & Hit & E).
      change (parsed_value env v name it = Err e) in E.
      destruct (file_gives_ex name v) as [raw Hf].
      rewrite (parsed_value_mapping env d v name it raw Hn) in E; [|intros g; rewrite Hg; intros []|exact Hit|exact Hf].
      eapply from_yaml_err; exact E.
    + exfalso. assert (E1 : config_from_parsed_yaml env v d false = Ok c0)
        by (unfold config_from_parsed_yaml; rewrite E0; reflexivity).
      destruct (parsed_Ok _ _ _ _ Hn E1) as [Hc Hv].
      destruct (defaults_Ok d Hn) as (df & Edf & Hdv). rewrite Edf in E. cbn [bind] in E.
      destruct (merge_configs_total d c0 [df] Hn Hc) as (m & Em); [| |congruence].
      { constructor; [|constructor]. eapply defaults_complete; eassumption. }
      intros name it x ys Hit Hx Hys. destruct (Hv name it Hit) as (raw & x' & _ & Ex & Hcx).
      assert (x' = x) by congruence; subst x'.
      inversion Hys as [|? y ? l Hy Hl]; subst. inversion Hl; subst.
      rewrite (Hdv name it Hit) in Hy. injection Hy as <-.
      destruct (merge_values_typed (i_type it) [i_default it] x) as (m & Em & _); [|eauto].
      constructor; [eapply from_yaml_typed; exact Ex|]. constructor; [|constructor].
      apply (Hd name), get_In, Hit.
Qed.

(** ** Bundled plugins *)
Section Bundled.
  Context {W : Type}.
  Variable uni : N -> bool.
  Variable env : penv.
  Variable root : bool.
  Variable program_installed : text -> act W bool.
  Variable freeze : act W text.
  Variables exists_ isdir : text -> W -> bool.
  Variable makedirs : text -> act W unit.
  Variable f : W -> machine.
  Notation plugins := (bundled_installers env root program_installed freeze exists_ isdir makedirs).
  Notation fake_ := (fake env root exists_ isdir makedirs).
  Notation apt_ := (apt env root program_installed).
  Notation homebrew_ := (homebrew env root program_installed).
  Notation macports_ := (macports env root program_installed).
  Notation pip_ := (pip env root program_installed freeze).
  Definition fake_dir : text := expand_input_path env (u "~/.fake-installer").


  (** A configuration with the defaults, but for the options of installers and whatever
      is not listed. *)
  Definition plain_config (c : pydict) (io : pydict) : Prop :=
    get (KStr (u "os_override")) c = Some VNone /\
    get (KStr (u "os_options")) c = Some (VDict [(KStr (u "features"), VNone)]) /\
    get (KStr (u "core_installers")) c = Some VNone /\
    get (KStr (u "use_additional_installers")) c = Some (VBool true) /\
    get (KStr (u "installer_options")) c = Some (VDict io) /\
    get (KStr (u "disabled_plugins")) c =
      Some (VDict [(KStr (u "os"), VList []); (KStr (u "installer"), VList []); (KStr (u "spec"), VList [])]).

  Lemma options_true : set_options env (options_description true []) (VDict []) = Ok [(KStr (u "as_root"), VBool true)].
  Proof. reflexivity. Qed.
  Lemma options_false : set_options env (options_description false []) (VDict []) = Ok [(KStr (u "as_root"), VBool false)].
  Proof. reflexivity. Qed.

  Local Opaque expand_input_path.
  Lemma options_fake : set_options env (options_description false (fake_options env)) (VDict []) =
    Ok [(KStr (u "as_root"), VBool false); (KStr (u "fake_name"), VStr (u "fake")); (KStr (u "install_dir"), VStr fake_dir)].
  Proof. unfold fake_dir. reflexivity. Qed.

  Lemma options_fake_named n : 
    set_options env (options_description false (fake_options env)) (VDict [(KStr (u "fake_name"), VStr n)]) =
    Ok [(KStr (u "as_root"), VBool false); (KStr (u "fake_name"), VStr n); (KStr (u "install_dir"), VStr fake_dir)].
  Proof. unfold fake_dir. reflexivity. Qed.

  Lemma default_fake : ip_set_options (fake_plugin env root exists_ isdir makedirs) (VDict []) =
    Ok (fake_ fake_dir (u "fake") false).
  Proof. cbn [fake_plugin ip_set_options]. rewrite options_fake. reflexivity. Qed.

  Lemma named_fake n :
    ip_set_options (fake_plugin env root exists_ isdir makedirs) (VDict [(KStr (u "fake_name"), VStr n)]) =
    Ok (fake_ fake_dir n false).
  Proof. cbn [fake_plugin ip_set_options]. rewrite options_fake_named. reflexivity. Qed.

  Definition os_at (b : builtin_os) : list (os_plugin W) :=
    match plugin_of b with Some o => [at_machine f o] | None => [] end.
  Definition bundled_oses : list (os_plugin W) := flat_map os_at builtin_oses.

  Lemma load_bundled_oses :
    load_plugins (fun o => Ok (KStr (os_name o))) (bundled_os_eps uni f) [] = Ok bundled_oses.
  Proof. reflexivity. Qed.

  Lemma load_bundled_installers :
    load_plugins (fun i => Ok (KStr (ip_name i))) (bundled_inst_eps uni plugins) [] = Ok plugins.
  Proof. reflexivity. Qed.

  Lemma configure_defaults c : get (KStr (u "installer_options")) c = Some (VDict []) ->
    configure_installers c plugins =
    Ok [fake_ fake_dir (u "fake") false; apt_ true; homebrew_ false; macports_ true; pip_ true].
  Proof.
    intros H. unfold configure_installers, attr. rewrite H. cbn [bind].
    unfold bundled_installers. cbn [mapM get]. rewrite get_nil. rewrite default_fake. cbn [bind].
    rewrite !get_nil. cbn [fixed_plugin ip_set_options].
    rewrite options_true, options_false. reflexivity.
  Qed.

  Lemma options_os : set_options env os_options_base (VDict [(KStr (u "features"), VNone)]) =
    Ok [(KStr (u "features"), VList [])].
  Proof. reflexivity. Qed.

  (** Which bundled os a machine is, and what version. *)
  Inductive runs (m : machine) : builtin_os -> text -> Prop :=
  | runs_debian rel code : m_lsb m = Some (u "debian", rel, code) -> m_sw_vers m = None -> runs m debian code
  | runs_ubuntu rel code : m_lsb m = Some (u "Ubuntu", rel, code) -> m_sw_vers m = None -> runs m ubuntu code
  | runs_xubuntu rel code : m_lsb m = Some (u "Xubuntu", rel, code) -> m_sw_vers m = None -> runs m xubuntu code
  | runs_osx c s minor code : m_lsb m = None -> m_sw_vers m = Some (Some (c :: s)) ->
      m_strict_version m (c :: s) = Some (10%Z, minor) -> get minor osx_codename_map = Some code -> runs m osx code.

  Lemma runs_detected w b v : runs (f w) b v ->
    exists o, plugin_of b = Some o /\
      detect_loop None bundled_oses w = Ok (Some (at_machine f o)) /\
      obj_tuple (Plugin (at_machine f o)) w = Ok (os_name o, v).
  Proof.
    intros H. destruct H as [rel code E1 E2|rel code E1 E2|rel code E1 E2|c s minor code E1 E2 E3 E4];
      (eexists; split; [reflexivity|split]);
      [ | | | | | | |].
    1,3,5,7: unfold bundled_oses; cbn [flat_map builtin_oses os_at plugin_of map fst b_names debian ubuntu xubuntu osx
        prepend_name app detect_loop at_machine os_is d_is b_detector lsb_detect osx_detect];
      rewrite ?E1, ?E2; reflexivity.
    1,2,3: unfold obj_tuple; cbn [obj_version at_machine os_version]; unfold builtin_version;
      cbn [b_use_codename b_detector debian ubuntu xubuntu osx prepend_name lsb_detect osx_detect d_get_codename bind];
      rewrite E1; reflexivity.
    unfold obj_tuple; cbn [obj_version at_machine os_version]; unfold builtin_version.
    cbn [b_use_codename osx b_detector osx_detect d_get_codename].
    rewrite E2, E3. cbn [bind]. unfold osx_codename. cbn [Z.eqb Pos.eqb negb]. rewrite E4. reflexivity.
  Qed.

  Lemma context_of_bundled c io w b v : plain_config c io -> runs (f w) b v ->
    exists o, plugin_of b = Some o /\
      make_context env c (bundled_os_eps uni f) (bundled_inst_eps uni plugins) w =
      setup_installers c (Plugin (at_machine f o)) [(KStr (u "features"), VList [])] plugins w.
  Proof.
    intros (C1 & C2 & C3 & C4 & C5 & C6) Hr. destruct (runs_detected _ _ _ Hr) as (o & Ho & Hd & Ht).
    exists o. split; [exact Ho|]. unfold make_context, attr2.
    unfold attr at 1. rewrite C6. cbn [bind].
    change (attr [(KStr (u "os"), VList []); (KStr (u "installer"), VList []); (KStr (u "spec"), VList [])] (u "os"))
      with (Ok (VList [])). cbn [bind texts_of flat_map]. rewrite load_bundled_oses. cbn [bind].
    unfold setup_os at 1. unfold attr at 1. rewrite C1. cbn [bind].
    unfold detect_os. cbn [s_plugins]. rewrite Hd. cbn [bind with_os s_os current_os fst s_plugins].
    rewrite Ht. cbn [bind]. unfold attr at 1. rewrite C2. cbn [bind delegate].
    assert (Eo : os_options_description (at_machine f o) = os_options_base).
    { unfold plugin_of in Ho. destruct (map fst (b_names b)); [discriminate|]. injection Ho as <-. reflexivity. }
    rewrite Eo, options_os. cbn [bind fst snd].
    unfold attr at 1. rewrite C6. cbn [bind].
    change (attr [(KStr (u "os"), VList []); (KStr (u "installer"), VList []); (KStr (u "spec"), VList [])] (u "installer"))
      with (Ok (VList [])). cbn [bind texts_of flat_map]. rewrite load_bundled_installers. reflexivity.
  Qed.

  Lemma setup_bundled c o w v io insts : plain_config c io ->
    obj_tuple (Plugin o) w = Ok (os_name o, v) ->
    configure_installers c plugins = Ok insts ->
    setup_installers c (Plugin o) [(KStr (u "features"), VList [])] plugins w =
    Ok {| cx_ic := {| ic_os := os_name o; ic_version := v; ic_default := os_default o |};
          cx_plugins := insts;
          cx_core := at_indices insts (core_indices insts (os_core o v [(KStr (u "features"), VList [])]));
          cx_additional := at_indices insts (additional_indices insts
             (core_indices insts (os_core o v [(KStr (u "features"), VList [])]))) |}.
  Proof.
    intros (C1 & C2 & C3 & C4 & C5 & C6) Ht Hi. unfold setup_installers. rewrite Ht. cbn [bind].
    rewrite Hi. cbn [bind]. unfold core_names, attr. rewrite C3. cbn [bind delegate]. rewrite C4. reflexivity.
  Qed.

  (** What [InstallerContext] is on the bundled systems with the default configuration. *)
  Definition os_names (b : builtin_os) : option text := option_map fst (hd_error (b_names b)).

  (** ** C76 *)
  Theorem C76_default_context c w b v : plain_config c [] -> runs (f w) b v ->
    exists ctx, make_context env c (bundled_os_eps uni f) (bundled_inst_eps uni plugins) w = Ok ctx /\
      Some (ic_os (cx_ic ctx)) = os_names b /\ ic_version (cx_ic ctx) = v /\ ic_default (cx_ic ctx) = b_default b /\
      cx_plugins ctx = [fake_ fake_dir (u "fake") false; apt_ true; homebrew_ false; macports_ true; pip_ true] /\
      cx_core ctx = (if eqb (ic_os (cx_ic ctx)) (u "osx") then [homebrew_ false; pip_ true] else [apt_ true]) /\
      cx_additional ctx = (if eqb (ic_os (cx_ic ctx)) (u "osx") then [] else [pip_ true]).
  Proof.
    intros Hc Hr. pose proof (runs_detected _ _ _ Hr) as (o & Ho & _ & Ht).
    destruct (context_of_bundled _ _ _ _ _ Hc Hr) as (o' & Ho' & E).
    assert (o' = o) by congruence; subst o'. rewrite E.
    rewrite (setup_bundled c (at_machine f o) w v [] _ Hc Ht
               (configure_defaults c (proj1 (proj2 (proj2 (proj2 (proj2 Hc))))))).
    eexists; split; [reflexivity|]. cbn [cx_ic ic_os ic_version ic_default cx_plugins cx_core cx_additional].
    destruct Hr; injection Ho as <-; repeat (split; [reflexivity|]); reflexivity.
  Qed.
  (** ** C74: the name of the fake installer is an option *)
  Theorem C74_refuted c w v :
    plain_config c [(KStr (u "fake"), VDict [(KStr (u "fake_name"), VStr (u "apt"))])] -> runs (f w) ubuntu v ->
    exists ctx, make_context env c (bundled_os_eps uni f) (bundled_inst_eps uni plugins) w = Ok ctx /\
      ~ NoDup (map in_name (cx_plugins ctx)) /\
      In (apt_ true) (cx_plugins ctx) /\ in_name (apt_ true) = u "apt" /\
      lookup_installer ctx (u "apt") = Some (fake_ fake_dir (u "apt") false) /\
      cx_core ctx = [fake_ fake_dir (u "apt") false].
  Proof.
    intros Hc Hr. pose proof (runs_detected _ _ _ Hr) as (o & Ho & _ & Ht).
    destruct (context_of_bundled _ _ _ _ _ Hc Hr) as (o' & Ho' & E).
    assert (o' = o) by congruence; subst o'. rewrite E.
    assert (Hi : configure_installers c plugins =
      Ok [fake_ fake_dir (u "apt") false; apt_ true; homebrew_ false; macports_ true; pip_ true]).
    { destruct Hc as (_ & _ & _ & _ & C5 & _). unfold configure_installers, attr. rewrite C5. cbn [bind].
      unfold bundled_installers. cbn [mapM].
      assert (G : forall n, n <> u "fake" ->
        get (KStr n) [(KStr (u "fake"), VDict [(KStr (u "fake_name"), VStr (u "apt"))])] = None).
      { intros n Hn. rewrite get_cons. destruct (eqb_spec (KStr n) (KStr (u "fake"))) as [Eq|_]; [|apply get_nil].
        injection Eq as Eq. contradiction. }
      change (ip_name (fake_plugin env root exists_ isdir makedirs)) with (u "fake").
      rewrite get_cons, eqb_refl. rewrite named_fake. cbn [bind fixed_plugin ip_name].
      rewrite !G by (intros D; discriminate D). cbn [fixed_plugin ip_set_options].
      rewrite options_true, options_false. reflexivity. }
    rewrite (setup_bundled c (at_machine f o) w v _ _ Hc Ht Hi).
    inversion Hr; subst. injection Ho as <-.
    eexists; split; [reflexivity|]. cbn [cx_plugins cx_core map].
    split. { intros ND. inversion ND as [|? ? Hn _]; subst. apply Hn. left; reflexivity. }
    split; [right; left; reflexivity|]. split; [reflexivity|]. split; reflexivity.
  Qed.

  (** ** C77: what can go wrong *)
  Lemma bundled_outcome p v : In p plugins ->
    (exists i, ip_set_options p (VDict v) = Ok i) \/ ip_set_options p (VDict v) = Err ConfigValueError.
  Proof.
    assert (F : forall n b make, (exists i, ip_set_options (fixed_plugin (W:=W) env n b make) (VDict v) = Ok i) \/
                ip_set_options (fixed_plugin env n b make) (VDict v) = Err ConfigValueError).
    { intros n b make. cbn [fixed_plugin ip_set_options].
      destruct (options_outcome env (options_description b []) v) as [(c & -> & Hw)|E].
      - eexists (u "options"), [_]; reflexivity.
      - reflexivity.
      - intros name it [E|[]]. injection E as <- <-. right. exists b. reflexivity.
      - left. cbn [bind]. destruct (Hw (u "as_root") _ eq_refl) as (x & Hx & _).
        apply (proj1 (option_at_get _ _ _)) in Hx. change (get (KStr (u "as_root")) c = Some x) in Hx.
        unfold as_root, attr. rewrite Hx. eexists; reflexivity.
      - right. rewrite E. reflexivity. }
    unfold bundled_installers. intros [<-|[<-|[<-|[<-|[<-|[]]]]]]; [|apply F|apply F|apply F|apply F].
    cbn [fake_plugin ip_set_options].
    destruct (options_outcome env (options_description false (fake_options env)) v) as [(c & -> & Hw)|E].
    - eexists (u "options"), (_ :: fake_options env); reflexivity.
    - reflexivity.
    - intros name it [E|[E|[E|[]]]]; injection E as <- <-; right; eexists; reflexivity.
    - left. cbn [bind]. unfold as_root, text_option, attr.
      destruct (Hw (u "as_root") _ eq_refl) as (x & Hx & _).
      apply (proj1 (option_at_get _ _ _)) in Hx. change (get (KStr (u "as_root")) c = Some x) in Hx. rewrite Hx.
      destruct (Hw (u "fake_name") _ eq_refl) as (y & Hy & Ty).
      apply (proj1 (option_at_get _ _ _)) in Hy. change (get (KStr (u "fake_name")) c = Some y) in Hy. rewrite Hy.
      destruct (Hw (u "install_dir") _ eq_refl) as (z & Hz & Tz).
      apply (proj1 (option_at_get _ _ _)) in Hz. change (get (KStr (u "install_dir")) c = Some z) in Hz. rewrite Hz.
      cbn [bind]. destruct Ty as [->|(s & ->)], Tz as [->|(t & ->)]; eexists; reflexivity.
    - right. rewrite E. reflexivity.
  Qed.
  Lemma in_bundled o : In o bundled_oses -> exists b p, In b builtin_oses /\ plugin_of b = Some p /\ o = at_machine f p.
  Proof.
    unfold bundled_oses. intros H. apply in_flat_map in H as (b & Hb & Ho). unfold os_at in Ho.
    destruct (plugin_of b) as [p|] eqn:E; [|destruct Ho]. destruct Ho as [<-|[]]. eauto.
  Qed.

  (** sw_vers, if it exists, prints something. *)
  Definition sw_vers_works (m : machine) : Prop := forall o, m_sw_vers m = Some o -> exists c s, o = Some (c :: s).

  Lemma version_outcome o w : In o bundled_oses -> sw_vers_works (f w) ->
    (exists v, os_version o w = Ok v) \/ os_version o w = Err UnsupportedOSVersionError.
  Proof.
    intros Ho Hs. destruct (in_bundled o Ho) as (b & p & Hb & Hp & ->).
    unfold builtin_oses in Hb. destruct Hb as [<-|[<-|[<-|[<-|[]]]]]; injection Hp as <-;
      cbn [at_machine os_version]; unfold builtin_version;
      cbn [b_use_codename b_detector debian ubuntu xubuntu osx prepend_name lsb_detect osx_detect d_get_codename].
    1,2,3: destruct (m_lsb (f w)) as [[[n r] c]|]; [|right; reflexivity];
      match goal with |- context [eqb n ?x] => destruct (eqb n x) end; [left; eexists; reflexivity|right; reflexivity].
    destruct (m_sw_vers (f w)) as [o|] eqn:E; [|right; reflexivity].
    destruct (Hs o E) as (c & s & ->). destruct (m_strict_version (f w) (c :: s)) as [[ma mi]|]; [|right; reflexivity].
    unfold osx_codename. destruct (negb (ma =? 10)%Z); [right; reflexivity|].
    destruct (get mi osx_codename_map); [left; eexists; reflexivity|right; reflexivity].
  Qed.

  Lemma is_outcome o w : In o bundled_oses -> exists b, os_is o w = Ok b.
  Proof.
    intros Ho. destruct (in_bundled o Ho) as (b & p & Hb & Hp & ->).
    unfold builtin_oses in Hb. destruct Hb as [<-|[<-|[<-|[<-|[]]]]]; injection Hp as <-; eexists; reflexivity.
  Qed.

  Lemma detect_outcome w (l : list (os_plugin W)) r : (forall o, In o l -> exists b, os_is o w = Ok b) ->
    exists x, detect_loop r l w = Ok x /\ forall o, x = Some o -> r = Some o \/ In o l.
  Proof.
    revert r; induction l as [|o l IH]; intros r H; cbn [detect_loop]; [exists r; split; [reflexivity|auto]|].
    destruct (H o (or_introl eq_refl)) as (b & ->). cbn [bind].
    assert (H' : forall o, In o l -> exists b, os_is o w = Ok b) by (intros; apply H; right; assumption).
    assert (K : forall r', (r' = r \/ r' = Some o) ->
      exists x, detect_loop r' l w = Ok x /\ forall p, x = Some p -> r = Some p \/ In p (o :: l)).
    { intros r' Hr'. destruct (IH r' H') as (x & E & Hx). exists x. split; [exact E|].
      intros p Hp. destruct (Hx p Hp) as [Hq|Hq]; [|right; right; exact Hq].
      destruct Hr' as [->| ->]; [left; exact Hq|]. injection Hq as ->. right; left; reflexivity. }
    destruct b; [|apply K; left; reflexivity].
    destruct r as [q|]; [|apply K; right; reflexivity].
    destruct (mem (os_name o) (os_all_names q)); [apply K; left; reflexivity|].
    destruct (mem (os_name q) (os_all_names o)); apply K; [right|left]; reflexivity.
  Qed.

  (** Configurations that can come out of [process_config]. *)
  Record processed (c : pydict) : Prop := {
    p_override : exists v, get (KStr (u "os_override")) c = Some v /\
      (v = VNone \/ (exists n, v = VList [VStr n; VNone]) \/ (exists n x, v = VList [VStr n; VStr x]));
    p_os_options : exists d, get (KStr (u "os_options")) c = Some (VDict d);
    p_core : get (KStr (u "core_installers")) c = Some VNone \/
      exists names, get (KStr (u "core_installers")) c = Some (VList (map VStr names));
    p_additional : exists b, get (KStr (u "use_additional_installers")) c = Some b;
    p_options : exists io, get (KStr (u "installer_options")) c = Some (VDict io) /\
      forall n v, get (KStr n) io = Some v -> exists d, v = VDict d;
    p_disabled : exists d l1 l2, get (KStr (u "disabled_plugins")) c = Some (VDict d) /\
      get (KStr (u "os")) d = Some (VList l1) /\ get (KStr (u "installer")) d = Some (VList l2)
  }.

  Definition setup_error (e : exn) : Prop :=
    e = UnsupportedOSError \/ e = UnsupportedOSVersionError \/ e = ConfigValueError.

  Lemma load_some_oses disabled : exists l,
    load_plugins (fun o => Ok (KStr (os_name o))) (bundled_os_eps uni f) disabled = Ok l /\ incl l bundled_oses.
  Proof.
    change (bundled_os_eps uni f) with
      (map (fun p => entry_point uni (fun p => Ok (KStr (os_name p))) (os_name p) p) bundled_oses). eexists; split.
    - apply (load_enabled uni (@os_name W) bundled_oses disabled).
      + intros p [<-|[<-|[<-|[<-|[]]]]]; reflexivity.
      + change (NoDup [u "debian"; u "ubuntu"; u "xubuntu"; u "osx"]).
        repeat (constructor; [cbn [In]; intros D; repeat destruct D as [D|D]; try discriminate D; exact D|]). constructor.
    - intros o Ho. apply filter_In in Ho. apply Ho.
  Qed.

  Lemma load_some_installers disabled : exists l,
    load_plugins (fun o => Ok (KStr (ip_name o))) (bundled_inst_eps uni plugins) disabled = Ok l /\ incl l plugins.
  Proof.
    eexists; split.
    - apply (load_enabled uni (@ip_name W pydict) plugins disabled).
      + intros p [<-|[<-|[<-|[<-|[<-|[]]]]]]; reflexivity.
      + change (NoDup [u "fake"; u "apt"; u "homebrew"; u "macports"; u "pip"]).
        repeat (constructor; [cbn [In]; intros D; repeat destruct D as [D|D]; try discriminate D; exact D|]). constructor.
    - intros o Ho. apply filter_In in Ho. apply Ho.
  Qed.

  Lemma configure_outcome (c io : pydict) (l : list (inst_plugin W pydict)) :
    get (KStr (u "installer_options")) c = Some (VDict io) ->
    (forall n v, get (KStr n) io = Some v -> exists d, v = VDict d) -> incl l plugins ->
    (exists is, configure_installers c l = Ok is) \/ configure_installers c l = Err ConfigValueError.
  Proof.
    intros Hio Hd Hl. unfold configure_installers, attr. rewrite Hio. cbn [bind].
    induction l as [|p l IH]; [left; eexists; reflexivity|]. cbn [mapM].
    assert (E : exists d, match get (KStr (ip_name p)) io with Some v => v | None => VDict [] end = VDict d).
    { destruct (get (KStr (ip_name p)) io) as [v|] eqn:Ev; [eapply Hd; exact Ev|eauto]. }
    destruct E as (d & ->).
    destruct (bundled_outcome p d (Hl p (or_introl eq_refl))) as [(i & ->)| ->]; [|right; reflexivity].
    cbn [bind]. destruct IH as [(is & ->)| ->]; [intros q Hq; apply Hl; right; exact Hq| |right; reflexivity].
    left; eexists; reflexivity.
  Qed.

  Lemma setup_os_outcome c l w : processed c -> incl l bundled_oses -> sw_vers_works (f w) ->
    (exists x o, setup_os env c l w = Ok (x, o) /\ In (delegate x) bundled_oses) \/
    exists e, setup_os env c l w = Err e /\ setup_error e.
  Proof.
    intros Hc Hl Hs. destruct (p_override _ Hc) as (ov & Eov & Hov). destruct (p_os_options _ Hc) as (oo & Eoo).
    assert (K : forall x : os_object W, In (delegate x) bundled_oses ->
      (exists o, (let* oo := attr c (u "os_options") in
                  let* o := set_options env (os_options_description (delegate x)) oo in Ok (x, o)) = Ok (x, o)) \/
      (let* oo := attr c (u "os_options") in
       let* o := set_options env (os_options_description (delegate x)) oo in Ok (x, o)) = Err ConfigValueError).
    { intros x Hx. unfold attr. rewrite Eoo. cbn [bind].
      assert (Ed : os_options_description (delegate x) = os_options_base).
      { destruct (in_bundled _ Hx) as (b & p & Hb & Hp & ->). unfold plugin_of in Hp.
        destruct (map fst (b_names b)); [discriminate|]. injection Hp as <-. reflexivity. }
      rewrite Ed. destruct (options_outcome env os_options_base oo) as [(o & -> & _)| ->].
      - eexists _, [_]; reflexivity.
      - reflexivity.
      - intros name it [E|[]]. injection E as <- <-. right. exists []. split; [reflexivity|constructor].
      - left; eexists; reflexivity.
      - right; reflexivity. }
    assert (A : attr c (u "os_override") = Ok ov) by (unfold attr; rewrite Eov; reflexivity).
    unfold setup_os. rewrite A. cbn [bind].
    assert (T : forall (x : os_object W) v, obj_version x w = Ok v -> exists t, obj_tuple x w = Ok t)
      by (intros x v E; unfold obj_tuple; rewrite E; eexists; reflexivity).
    assert (O : forall n version,
      (exists x, (let (r, s) := override_os {| s_plugins := l; s_os := None |} (Some (n, version)) w in
         let* _ := r in let* x := fst (current_os s w) in let* _ := obj_tuple x w in Ok x) = Ok x /\
         In (delegate x) bundled_oses) \/
      (exists e, (let (r, s) := override_os {| s_plugins := l; s_os := None |} (Some (n, version)) w in
         let* _ := r in let* x := fst (current_os s w) in let* _ := obj_tuple x w in Ok x) = Err e /\ setup_error e)).
    { intros n version. unfold override_os. cbn [s_plugins].
      destruct (lookup_os l n) as [o|] eqn:El.
      2: { right. eexists; split; [reflexivity|]. left; reflexivity. }
      unfold lookup_os in El. apply find_some in El as [Hin _]. apply Hl in Hin.
      unfold make_override. destruct version as [v|].
      - destruct (mem v (os_known o)).
        + left. exists (OSOverride o v). split; [reflexivity|exact Hin].
        + right. eexists; split; [reflexivity|]. right; left; reflexivity.
      - destruct (version_outcome o w Hin Hs) as [(v & ->)| ->]; cbn [bind].
        + left. exists (OSOverride o v). split; [reflexivity|exact Hin].
        + right. eexists; split; [reflexivity|]. right; left; reflexivity. }
    assert (F : forall r : res (os_object W),
      ((exists x, r = Ok x /\ In (delegate x) bundled_oses) \/ exists e, r = Err e /\ setup_error e) ->
      (exists x o, (let* x := r in let* oo := attr c (u "os_options") in
         let* o := set_options env (os_options_description (delegate x)) oo in Ok (x, o)) = Ok (x, o) /\ In (delegate x) bundled_oses) \/
      exists e, (let* x := r in let* oo := attr c (u "os_options") in
         let* o := set_options env (os_options_description (delegate x)) oo in Ok (x, o)) = Err e /\ setup_error e).
    { intros r [(x & -> & Hx)|(e & -> & He)]; cbn [bind].
      - destruct (K x Hx) as [(o & ->)| ->]; [left; eauto|right]. eexists; split; [reflexivity|]. right; right; reflexivity.
      - right; eauto. }
    apply F. clear F. destruct Hov as [->|[(n & ->)|(n & v & ->)]].
    - unfold detect_os. cbn [s_plugins].
      destruct (detect_outcome w l None) as (x & -> & Hx).
      { intros o Ho. apply is_outcome, Hl, Ho. }
      destruct x as [o|]; [|right; eexists; split; [reflexivity|left; reflexivity]].
      destruct (Hx o eq_refl) as [D|Hin]; [discriminate D|]. apply Hl in Hin.
      cbn [bind with_os s_os current_os fst]. unfold obj_tuple. cbn [obj_version].
      destruct (version_outcome o w Hin Hs) as [(v & ->)| ->]; cbn [bind].
      + left. exists (Plugin o). split; [reflexivity|exact Hin].
      + right. eexists; split; [reflexivity|right; left; reflexivity].
    - cbn [override_tuple bind]. apply O.
    - cbn [override_tuple bind]. apply O.
  Qed.

  (** With the bundled plugins and a processed configuration, set up succeeds or fails with
      the documented errors; missing: a failing sw_vers, and installer options or lists of
      installers that validation lets through. *)
  Theorem C77_documented_errors_partial c w : processed c -> sw_vers_works (f w) ->
    (exists ctx, make_context env c (bundled_os_eps uni f) (bundled_inst_eps uni plugins) w = Ok ctx) \/
    exists e, make_context env c (bundled_os_eps uni f) (bundled_inst_eps uni plugins) w = Err e /\ setup_error e.
  Proof.
    intros Hc Hs. destruct (p_disabled _ Hc) as (d & l1 & l2 & Ed & E1 & E2).
    assert (A1 : attr2 c (u "disabled_plugins") (u "os") = Ok (VList l1))
      by (unfold attr2, attr; rewrite Ed; cbn [bind]; rewrite E1; reflexivity).
    assert (A2 : attr2 c (u "disabled_plugins") (u "installer") = Ok (VList l2))
      by (unfold attr2, attr; rewrite Ed; cbn [bind]; rewrite E2; reflexivity).
    unfold make_context. rewrite A1, A2. cbn [bind texts_of].
    destruct (load_some_oses (flat_map (fun x => match x with VStr s => [s] | _ => [] end) l1)) as (os & -> & Hos).
    cbn [bind]. destruct (setup_os_outcome c os w Hc Hos Hs) as [(x & o & -> & Hx)|(e & -> & He)];
      [|right; exists e; split; [reflexivity|exact He]].
    cbn [bind fst snd].
    destruct (load_some_installers (flat_map (fun x => match x with VStr s => [s] | _ => [] end) l2)) as (ins & -> & Hins).
    cbn [bind]. unfold setup_installers.
    assert (T : (exists t, obj_tuple x w = Ok t) \/ obj_tuple x w = Err UnsupportedOSVersionError).
    { unfold obj_tuple. destruct x as [p|p v]; cbn [obj_version]; [|left; eexists; reflexivity].
      destruct (version_outcome p w Hx Hs) as [(v & ->)| ->]; [left; eexists; reflexivity|right; reflexivity]. }
    destruct T as [([os_ version] & ->)| ->]; cbn [bind];
      [|right; eexists; split; [reflexivity|right; left; reflexivity]].
    destruct (p_options _ Hc) as (io & Eio & Hio).
    destruct (configure_outcome c io ins Eio Hio Hins) as [(is & ->)| ->]; cbn [bind];
      [|right; eexists; split; [reflexivity|right; right; reflexivity]].
    assert (N : exists names, core_names c x version o = Ok names).
    { unfold core_names, attr. destruct (p_core _ Hc) as [->|(names & ->)]; cbn [bind]; [eauto|].
      rewrite names_of_texts. eauto. }
    destruct N as (names & ->). cbn [bind].
    destruct (p_additional _ Hc) as (b & Eb). left. unfold attr. rewrite Eb. cbn [bind]. eexists; reflexivity.
  Qed.
End Bundled.

(** The default configuration is of this kind. *)
Definition load_dict (env : penv) (c : pydict) : res pydict :=
  let* d := build_config_description in ensure_config_dict env d c.

Lemma default_config_plain env : exists c, load_dict env [] = Ok c /\ plain_config c [].
Proof. eexists; split; [vm_compute; reflexivity|]. unfold plain_config. repeat (split; [reflexivity|]); reflexivity. Qed.

Definition ubuntu_machine : machine :=
  {| m_lsb := Some (u "Ubuntu", u "14.04", u "trusty"); m_sw_vers := None; m_strict_version := fun _ => None |}.
Definition xubuntu_machine : machine :=
  {| m_lsb := Some (u "Xubuntu", u "14.04", u "trusty"); m_sw_vers := None; m_strict_version := fun _ => None |}.
Definition osx_machine : machine :=
  {| m_lsb := None; m_sw_vers := Some (Some (u "10.9.5")); m_strict_version := fun _ => Some (10, 9)%Z |}.

Example C76_nonvacuous : runs ubuntu_machine ubuntu (u "trusty") /\ runs xubuntu_machine xubuntu (u "trusty") /\
  runs osx_machine osx (u "mavericks").
Proof.
  split; [apply runs_ubuntu with (u "14.04"); reflexivity|].
  split; [apply runs_xubuntu with (u "14.04"); reflexivity|].
  apply runs_osx with (c := 49%N) (s := u "0.9.5") (minor := 9%Z); reflexivity.
Qed.

(** Configurations that pass validation but can not be used. *)
Section Refuted.
  Context {W : Type}.
  Variable uni : N -> bool.
  Variable env : penv.
  Variable root : bool.
  Variable program_installed : text -> act W bool.
  Variable freeze : act W text.
  Variables exists_ isdir : text -> W -> bool.
  Variable makedirs : text -> act W unit.
  Variable f : W -> machine.
  Notation context_for c w := (make_context env c (bundled_os_eps uni f)
    (bundled_inst_eps uni (bundled_installers env root program_installed freeze exists_ isdir makedirs)) w).

  Local Opaque expand_input_path.

  (** The processed configuration with some entries replaced. *)
  Lemma mapM_first {A B} (g : A -> res B) a l e : g a = Err e -> mapM g (a :: l) = Err e.
  Proof. intros E. cbn [mapM]. rewrite E. reflexivity. Qed.

  Lemma context_of_bundled_with c w : m_lsb (f w) = Some (u "Ubuntu", u "14.04", u "trusty") -> m_sw_vers (f w) = None ->
    get (KStr (u "os_override")) c = Some VNone ->
    get (KStr (u "os_options")) c = Some (VDict [(KStr (u "features"), VNone)]) ->
    get (KStr (u "disabled_plugins")) c =
      Some (VDict [(KStr (u "os"), VList []); (KStr (u "installer"), VList []); (KStr (u "spec"), VList [])]) ->
    exists x, obj_tuple x w = Ok (u "ubuntu", u "trusty") /\
      context_for c w = setup_installers c x [(KStr (u "features"), VList [])]
        (bundled_installers env root program_installed freeze exists_ isdir makedirs) w.
  Proof.
    intros H1 H2 C1 C2 C6.
    destruct (runs_detected f w ubuntu (u "trusty")) as (o & Ho & Hd & Ht);
      [apply runs_ubuntu with (u "14.04"); assumption|].
    injection Ho as <-. eexists; split; [exact Ht|].
    assert (A1 : attr2 c (u "disabled_plugins") (u "os") = Ok (VList [])) by (unfold attr2, attr; rewrite C6; reflexivity).
    assert (A2 : attr2 c (u "disabled_plugins") (u "installer") = Ok (VList []))
      by (unfold attr2, attr; rewrite C6; reflexivity).
    unfold make_context. rewrite A1, A2. cbn [bind texts_of flat_map]. rewrite load_bundled_oses. cbn [bind].
    unfold setup_os, attr. rewrite C1. cbn [bind]. unfold detect_os. cbn [s_plugins]. rewrite Hd.
    cbn [bind with_os s_os current_os fst s_plugins]. rewrite Ht. cbn [bind]. rewrite C2. cbn [bind delegate].
    change (os_options_description _) with os_options_base. rewrite options_os. cbn [bind fst snd].
    rewrite load_bundled_installers. reflexivity.
  Qed.

  (** An overridden operating system and version is accepted exactly if it is a bundled one and knows the version,
      on any machine. *)
  Theorem C77_override_known c w n v :
    get (KStr (u "os_override")) c = Some (VList [VStr n; VStr v]) ->
    get (KStr (u "os_options")) c = Some (VDict [(KStr (u "features"), VNone)]) ->
    get (KStr (u "core_installers")) c = Some VNone ->
    get (KStr (u "use_additional_installers")) c = Some (VBool true) ->
    get (KStr (u "installer_options")) c = Some (VDict []) ->
    get (KStr (u "disabled_plugins")) c =
      Some (VDict [(KStr (u "os"), VList []); (KStr (u "installer"), VList []); (KStr (u "spec"), VList [])]) ->
    ((exists ctx, context_for c w = Ok ctx) <-> exists b, In b builtin_oses /\ os_names b = Some n /\ In v (b_versions b)) /\
    (forall ctx, context_for c w = Ok ctx -> ic_os (cx_ic ctx) = n /\ ic_version (cx_ic ctx) = v).
  Proof.
    intros C1 C2 C3 C4 C5 C6.
    assert (A1 : attr2 c (u "disabled_plugins") (u "os") = Ok (VList [])) by (unfold attr2, attr; rewrite C6; reflexivity).
    assert (A2 : attr2 c (u "disabled_plugins") (u "installer") = Ok (VList []))
      by (unfold attr2, attr; rewrite C6; reflexivity).
    unfold make_context. rewrite A1, A2. cbn [bind texts_of flat_map]. rewrite load_bundled_oses. cbn [bind].
    assert (S : setup_os env c (bundled_oses f) w = match lookup_os (bundled_oses f) n with
      | Some o => if mem v (os_known o) then
          let* x := Ok (OSOverride o v) in
          let* oo := Ok (VDict [(KStr (u "features"), VNone)]) in
          let* o := set_options env (os_options_description (delegate x)) oo in Ok (x, o)
        else Err UnsupportedOSVersionError
      | None => Err UnsupportedOSError end).
    { unfold setup_os, attr. rewrite C1, C2. cbn [bind override_tuple]. unfold override_os, make_override. cbn [s_plugins].
      destruct (lookup_os (bundled_oses f) n) as [o|]; [|reflexivity]. destruct (mem v (os_known o)); reflexivity. }
    assert (K : forall o, lookup_os (bundled_oses f) n = Some o ->
      os_options_description o = os_options_base /\ os_name o = n /\
      exists b, In b builtin_oses /\ os_names b = Some n /\ b_versions b = os_known o).
    { intros o E. unfold lookup_os in E. apply find_some in E as [Hin E]. apply (proj1 (eqb_eq _ _)) in E.
      destruct Hin as [<-|[<-|[<-|[<-|[]]]]]; (split; [reflexivity|split; [first [exact E|symmetry; exact E]|]]); cbn in E; subst n;
        [exists debian|exists ubuntu|exists xubuntu|exists osx]; split; cbn; auto 6. }
    rewrite S. destruct (lookup_os (bundled_oses f) n) as [o|] eqn:El.
    2: { cbn [bind]. split; [|discriminate]. split; [intros (x & D); discriminate|].
         intros (b & [<-|[<-|[<-|[<-|[]]]]] & Hn & _); injection Hn as <-; discriminate El. }
    destruct (K o eq_refl) as (Eo & En & b & Hb & Hbn & Hbk).
    assert (Kn : (exists b, In b builtin_oses /\ os_names b = Some n /\ In v (b_versions b)) <-> In v (os_known o)).
    { split; [|intros H; exists b; rewrite Hbk; auto].
      intros (b' & Hb' & Hn' & Hv'). rewrite <- Hbk. replace b with b'; [exact Hv'|]. clear -Hb Hb' Hbn Hn'.
      assert (E : os_names b = os_names b') by congruence. clear Hbn Hn'.
      destruct Hb as [<-|[<-|[<-|[<-|[]]]]]; destruct Hb' as [<-|[<-|[<-|[<-|[]]]]]; try reflexivity; discriminate E. }
    rewrite Kn, <- mem_In. destruct (mem v (os_known o)) eqn:Em.
    2: { cbn [bind]. split; [|discriminate]. split; [intros (x & D); discriminate|discriminate]. }
    cbn [bind delegate]. rewrite Eo, options_os. cbn [bind fst snd]. rewrite load_bundled_installers. cbn [bind].
    unfold setup_installers, obj_tuple. cbn [obj_version bind].
    rewrite (configure_defaults env root program_installed freeze exists_ isdir makedirs c C5). cbn [bind].
    unfold core_names, attr. rewrite C3. cbn [bind]. rewrite C4. cbn [bind].
    split; [split; [reflexivity|eexists; reflexivity]|].
    intros ctx H. injection H as <-. split; [exact En|reflexivity].
  Qed.

  Theorem C77_null_options_refuted w : m_lsb (f w) = Some (u "Ubuntu", u "14.04", u "trusty") -> m_sw_vers (f w) = None ->
    exists c, load_dict env [(KStr (u "installer_options"), VDict [(KStr (u "fake"), VNone)])] = Ok c /\
      context_for c w = Err AttributeError.
  Proof.
    intros H1 H2. eexists; split; [vm_compute; reflexivity|].
    match goal with |- context_for ?c w = _ => set (cc := c) end.
    destruct (context_of_bundled_with cc w H1 H2 eq_refl eq_refl eq_refl) as (x & Hx & ->).
    unfold setup_installers. rewrite Hx. cbn [bind]. reflexivity.
  Qed.

  Theorem C77_null_installer_refuted w : m_lsb (f w) = Some (u "Ubuntu", u "14.04", u "trusty") -> m_sw_vers (f w) = None ->
    exists c, load_dict env [(KStr (u "core_installers"), VList [VNone])] = Ok c /\ context_for c w = Err TypeError.
  Proof.
    intros H1 H2. eexists; split; [vm_compute; reflexivity|].
    match goal with |- context_for ?c w = _ => set (cc := c) end.
    destruct (context_of_bundled_with cc w H1 H2 eq_refl eq_refl eq_refl) as (x & Hx & ->).
    unfold setup_installers. rewrite Hx. cbn [bind].
    rewrite (configure_defaults env root program_installed freeze exists_ isdir makedirs cc eq_refl). reflexivity.
  Qed.

  (** The api functions accept a plain dictionary; an os override in it stays a text. *)
  Theorem C77_override_refuted w name :
    exists c, load_dict env [(KStr (u "os_override"), VStr name)] = Ok c /\ context_for c w = Err TypeError.
  Proof.
    eexists; split; [vm_compute; reflexivity|].
    match goal with |- context_for ?c w = _ => set (cc := c) end.
    unfold make_context.
    change (attr2 cc (u "disabled_plugins") (u "os")) with (Ok (VList [])). cbn [bind texts_of flat_map].
    rewrite load_bundled_oses. reflexivity.
  Qed.

  Theorem C77_sw_vers_refuted w : m_lsb (f w) = None -> m_sw_vers (f w) = Some None ->
    exists c, load_dict env [] = Ok c /\ context_for c w = Err AttributeError.
  Proof.
    intros H1 H2. eexists; split; [vm_compute; reflexivity|].
    match goal with |- context_for ?c w = _ => set (cc := c) end.
    unfold make_context.
    change (attr2 cc (u "disabled_plugins") (u "os")) with (Ok (VList [])). cbn [bind texts_of flat_map].
    rewrite load_bundled_oses. cbn [bind]. unfold setup_os.
    change (attr cc (u "os_override")) with (Ok VNone). cbn [bind].
    unfold detect_os. cbn [s_plugins].
    assert (E : detect_loop None (bundled_oses f) w =
                Ok (Some (at_machine f (match plugin_of osx with Some o => o | None => match plugin_of debian with Some o => o | None =>
                   {| os_name := []; os_parents := []; os_is := fun _ => Ok true; os_version := fun _ => Ok []; os_known := [];
                      os_tuples := fun _ => []; os_core := fun _ _ => []; os_options_description := os_options_base;
                      os_default := None |} end end)))).
    { unfold bundled_oses. cbn [flat_map builtin_oses os_at plugin_of map fst b_names debian ubuntu xubuntu osx
        prepend_name app detect_loop at_machine os_is d_is b_detector lsb_detect osx_detect]. rewrite H1, H2. reflexivity. }
    rewrite E. cbn [bind with_os s_os current_os fst]. unfold obj_tuple. cbn [obj_version at_machine os_version plugin_of map fst b_names osx].
    unfold builtin_version. cbn [b_use_codename b_detector osx osx_detect d_get_codename]. rewrite H2. reflexivity.
  Qed.
End Refuted.

(** ** C75: derivative operating systems *)
(** The lookup for an os depends only on the entries of the key for that very os and for
    [any_os] ... *)
Theorem C75_own_name_only_partial {R} (rules rules' : rules_dict R) key os version def :
  (forall o, o = os \/ o = any_os ->
     (forall v, get v (getd o (getd key rules)) = get v (getd o (getd key rules')))) ->
  lookup_rules rules key os version def = lookup_rules rules' key os version def.
Proof.
  intros H.
  assert (E : forall o v, o = os \/ o = any_os ->
    getd v (getd o (getd key rules)) = getd v (getd o (getd key rules'))).
  { intros o v Ho. unfold getd at 1 4. rewrite (H o Ho v). reflexivity. }
  unfold lookup_rules. cbv zeta. rewrite !E by auto. reflexivity.
Qed.

(** ... so the example of docs/design.rst:1004-1027 does not resolve as described: the
    tuples of xubuntu 14.04 name debian and ubuntu, but rules for these are not used. *)
Definition docs_rule (package : text) : pyval :=
  VDict [(KStr (u "apt"), VDict [(KStr (u "packages"), VList [VStr package])])].
Definition docs_rules : pyval := VDict
  [ (KStr (u "foo"), VDict [(KStr (u "debian"), VDict [(KStr (u "any_version"), docs_rule (u "libfoo"))])]);
    (KStr (u "baz"), VDict [(KStr (u "ubuntu"), VDict [(KStr (u "trusty"), docs_rule (u "libbaz"))])]);
    (KStr (u "bar"), VDict [
       (KStr (u "ubuntu"), VDict [(KStr (u "precise"), docs_rule (u "libbar")); (KStr (u "trusty"), docs_rule (u "libbar"))]);
       (KStr (u "xubuntu"), VDict [(KStr (u "trusty"), docs_rule (u "libbar-x"))])]) ].

Theorem C75_refuted :
  verify_rules_dict (fun _ => false) docs_rules true = Ok tt /\
  (exists o, plugin_of xubuntu = Some o /\
     os_tuples o (Some (u "trusty")) =
       [(u "xubuntu", Some (u "trusty")); (u "ubuntu", Some (u "trusty")); (u "debian", None)]) /\
  raw_lookup docs_rules (u "foo") (u "debian") (u "wheezy") (Some (u "apt")) = Ok (docs_rule (u "libfoo")) /\
  raw_lookup docs_rules (u "baz") (u "ubuntu") (u "trusty") (Some (u "apt")) = Ok (docs_rule (u "libbaz")) /\
  raw_lookup docs_rules (u "bar") (u "xubuntu") (u "trusty") (Some (u "apt")) = Ok (docs_rule (u "libbar-x")) /\
  raw_lookup docs_rules (u "foo") (u "xubuntu") (u "trusty") (Some (u "apt")) = Ok (VDict []) /\
  raw_lookup docs_rules (u "baz") (u "xubuntu") (u "trusty") (Some (u "apt")) = Ok (VDict []).
Proof.
  split; [reflexivity|]. split; [eexists; split; reflexivity|].
  repeat (split; [reflexivity|]); reflexivity.
Qed.

(** Hypotheses of C77 and C41 are met: the default configuration after processing. *)
Example C77_nonvacuous env : exists c, load_dict env [] = Ok c /\ processed c /\ sw_vers_works ubuntu_machine.
Proof.
  eexists; split; [vm_compute; reflexivity|]. split; [|discriminate].
  constructor.
  - eexists; split; [reflexivity|left; reflexivity].
  - eexists; reflexivity.
  - left; reflexivity.
  - eexists; reflexivity.
  - eexists; split; [reflexivity|]. intros n v. rewrite get_nil. discriminate.
  - do 3 eexists; split; [reflexivity|]. split; reflexivity.
Qed.

Definition ex_world_context (config : pydict) : res (context machine pydict) :=
  make_context {| home := fun _ => None; cwd := u "/" |} config
    (bundled_os_eps (fun _ => false) (fun m => m))
    (bundled_inst_eps (fun _ => false)
       (bundled_installers {| home := fun _ => None; cwd := u "/" |} false (fun _ w => (Ok true, w)) (fun w => (Ok [], w))
          (fun _ _ => false) (fun _ _ => false) (fun _ w => (Ok tt, w)))) ubuntu_machine.

Example C41_nonvacuous :
  exists c ctx, load_dict {| home := fun _ => None; cwd := u "/" |}
      [(KStr (u "core_installers"), VList [VStr (u "pip"); VStr (u "gem"); VStr (u "fake")])] = Ok c /\
    ex_world_context c = Ok ctx /\ map in_name (cx_core ctx) = [u "pip"; u "fake"] /\ cx_additional ctx = [].
Proof. do 2 eexists; split; [vm_compute; reflexivity|]. split; [vm_compute; reflexivity|]. split; reflexivity. Qed.

Print Assumptions C41_configured_core.
Print Assumptions C41_os_core.
Print Assumptions C41_all_loaded.
Print Assumptions C41_additional_disabled.
Print Assumptions C41_additional_enabled.
Print Assumptions C41_additional_sound.
Print Assumptions C41_os.
Print Assumptions C41_lookup_finds.
Print Assumptions C41_lookup_unique.
Print Assumptions C74_distinct_partial.
Print Assumptions C76_default_context.
Print Assumptions C74_refuted.
Print Assumptions C77_documented_errors_partial.
Print Assumptions C77_null_options_refuted.
Print Assumptions C77_override_known.
Example C77_override_known_nonvacuous : exists c,
  get (KStr (u "os_override")) c = Some (VList [VStr (u "ubuntu"); VStr (u "lucid")]) /\
  get (KStr (u "os_options")) c = Some (VDict [(KStr (u "features"), VNone)]) /\
  get (KStr (u "core_installers")) c = Some VNone /\
  get (KStr (u "use_additional_installers")) c = Some (VBool true) /\
  get (KStr (u "installer_options")) c = Some (VDict []) /\
  get (KStr (u "disabled_plugins")) c =
      Some (VDict [(KStr (u "os"), VList []); (KStr (u "installer"), VList []); (KStr (u "spec"), VList [])]) /\
  In (u "lucid") (b_versions ubuntu) /\ ~ In (u "lucid") (b_versions debian).
Proof.
  exists [(KStr (u "os_override"), VList [VStr (u "ubuntu"); VStr (u "lucid")]); (KStr (u "os_options"), VDict [(KStr (u "features"), VNone)]);
    (KStr (u "core_installers"), VNone); (KStr (u "use_additional_installers"), VBool true); (KStr (u "installer_options"), VDict []);
    (KStr (u "disabled_plugins"), VDict [(KStr (u "os"), VList []); (KStr (u "installer"), VList []); (KStr (u "spec"), VList [])])].
  repeat (split; [reflexivity|]). split; [apply mem_In|apply mem_not_In]; vm_compute; reflexivity.
Qed.
Print Assumptions C77_null_installer_refuted.
Print Assumptions C77_override_refuted.
Print Assumptions C77_sw_vers_refuted.
Print Assumptions C75_own_name_only_partial.
Print Assumptions C75_refuted.
