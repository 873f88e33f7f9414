(** C79: what xylem does for a key on the bundled systems with the default configuration,
    from the answer of the database to the command lines. *)
From Verif Require Import Base Dict PyVal Sources Util Paths Config XylemConfig Installer Installers
  Plugins OsSupport Context Resolve PropResolve PropInstallers PropContext.

(** * Specification *)
(** A tool: name of the installer, command without the package, whether it needs root. *)
Record tool := { t_name : text; t_command : list text; t_root : bool }.
Definition t_apt : tool := {| t_name := u "apt"; t_command := [u "apt-get"; u "install"]; t_root := true |}.
Definition t_brew : tool := {| t_name := u "homebrew"; t_command := [u "brew"; u "install"]; t_root := false |}.
Definition t_pip : tool := {| t_name := u "pip"; t_command := [u "pip"; u "install"; u "-U"]; t_root := true |}.

(** The system package manager: homebrew on OS X, apt on debian, ubuntu and xubuntu. *)
Inductive native : text -> tool -> Prop :=
| native_osx : native (u "osx") t_brew
| native_linux os : In os [u "debian"; u "ubuntu"; u "xubuntu"] -> native os t_apt.

(** The tool for a key whose rules are [d]: the native one if it has a rule, otherwise pip. *)
Inductive preferred (os : text) (d : pydict) : tool -> pyval -> Prop :=
| pref_native t rule : native os t -> get (KStr (t_name t)) d = Some rule -> preferred os d t rule
| pref_pip t rule : native os t -> get (KStr (t_name t)) d = None ->
    get (KStr (u "pip")) d = Some rule -> preferred os d t_pip rule.

(** A rule that lists packages (and maybe dependencies). *)
Definition package_rule (rule : pyval) (ps : list text) : Prop :=
  exists r deps, rule = VDict r /\ get (KStr (u "packages")) r = Some (VList (map VStr ps)) /\
    (get (KStr (u "depends")) r = None \/ get (KStr (u "depends")) r = Some (VList (map VStr deps))).

(** The command line for a package. *)
Definition command_for (root : bool) (t : tool) (p : text) : list text :=
  (if t_root t && negb root then [u "sudo"] else []) ++ t_command t ++ [p].

(** * Proof *)
Lemma all_texts ps : Forall text_or_null (map VStr ps).
Proof. apply Forall_forall. intros x Hx. apply in_map_iff in Hx as (p & <- & _). right; eauto. Qed.

Lemma package_rule_resolves env rule ps : package_rule rule ps ->
  resolve_rule env (rule_description []) rule = Ok (map (fun p => plain_resolution (VStr p)) ps).
Proof.
  intros (r & deps & -> & Hp & Hd). apply (proj1 (C37_resolve_exact env r)).
  assert (D : exists l, lists r (u "depends") l).
  { destruct Hd as [Hd|Hd]; [exists []; left; auto|].
    exists (map VStr deps). right; right. split; [exact Hd|apply all_texts]. }
  destruct D as (l & D). exists (map VStr ps), l.
  split; [right; right; split; [exact Hp|apply all_texts]|]. split; [exact D|]. rewrite map_map. reflexivity.
Qed.

Lemma resolved_names ps : Forall2 names_package (map (fun p => plain_resolution (VStr p)) ps) ps.
Proof. induction ps as [|p ps IH]; constructor; [reflexivity|exact IH]. Qed.

Section Default.
  Context {W : Type}.
  Variable uni : N -> bool.
  Variable env : penv.
  Variable root : bool.
  Variable program_installed : text -> act W bool.
  Variable freeze : act W text.
  Variables exists_ isdir : text -> W -> bool.
  Variable makedirs : text -> act W unit.
  Variable f : W -> machine.
  Notation plugins := (bundled_installers env root program_installed freeze exists_ isdir makedirs).
  Notation context_for c w := (make_context env c (bundled_os_eps uni f) (bundled_inst_eps uni plugins) w).

  Definition tool_installer (t : tool) (i : installer W pydict) : Prop :=
    In (i, t) [(apt env root program_installed true, t_apt); (homebrew env root program_installed false, t_brew);
               (pip env root program_installed freeze true, t_pip)].

  Lemma tool_resolve t i : tool_installer t i -> in_resolve i = resolve_rule env (rule_description []) /\ in_name i = t_name t.
  Proof. intros [E|[E|[E|[]]]]; injection E as <- <-; split; reflexivity. Qed.

  Lemma tool_commands t i ps a b w : tool_installer t i ->
    in_commands i (map (fun p => plain_resolution (VStr p)) ps) a b w = (Ok (map (command_for root t) ps), w).
  Proof.
    intros Hi.
    assert (X : forall p, Forall2 (fun q c => c = command_for root t q) p (map (command_for root t) p))
      by (induction p; constructor; auto).
    assert (Y : forall i0 r0 pre, In (i0, (pre, fun p : text => p))
       [(apt env root program_installed r0, ([u "apt-get"; u "install"], fun p => p));
        (homebrew env root program_installed r0, ([u "brew"; u "install"], fun p => p));
        (macports env root program_installed r0, ([u "port"; u "install"], fun p => p));
        (pip env root program_installed freeze r0, ([u "pip"; u "install"; u "-U"], fun p => p));
        (fake env root exists_ isdir makedirs [] [] r0, ([u "touch"], fun p => path_join [] p))] ->
       t_root t = r0 -> t_command t = pre ->
       in_commands i0 (map (fun p => plain_resolution (VStr p)) ps) a b w = (Ok (map (command_for root t) ps), w)).
    { intros i0 r0 pre HI Hr0 Hp0.
      apply (proj2 (C69_commands env root program_installed freeze exists_ isdir makedirs [] [] r0 _ a b w _ w i0 pre (fun p => p) HI)).
      split; [reflexivity|]. exists ps. split; [apply resolved_names|]. rewrite <- Hr0, <- Hp0. apply X. }
    destruct Hi as [E|[E|[E|[]]]]; injection E as <- <-.
    - eapply Y; [left; reflexivity|reflexivity|reflexivity].
    - eapply Y; [right; left; reflexivity|reflexivity|reflexivity].
    - eapply Y; [right; right; right; left; reflexivity|reflexivity|reflexivity].
  Qed.

  (** The installers of the default context in terms of tools. *)
  Lemma default_tools c w b v : plain_config c [] -> runs (f w) b v ->
    exists ctx t, context_for c w = Ok ctx /\ Some (ic_os (cx_ic ctx)) = os_names b /\ ic_version (cx_ic ctx) = v /\
      native (ic_os (cx_ic ctx)) t /\
      (forall t' i, tool_installer t' i -> lookup_installer ctx (t_name t') = Some i) /\
      exists i j, tool_installer t i /\ tool_installer t_pip j /\
        ((cx_core ctx = [i; j] /\ cx_additional ctx = []) \/ (cx_core ctx = [i] /\ cx_additional ctx = [j])).
  Proof.
    intros Hc Hr.
    destruct (C76_default_context uni env root program_installed freeze exists_ isdir makedirs f c w b v Hc Hr)
      as (ctx & E & Eo & Ev & _ & Ep & Ec & Ea).
    assert (L : forall t' i, tool_installer t' i -> lookup_installer ctx (t_name t') = Some i).
    { intros t' i Hi. unfold lookup_installer. rewrite Ep.
      destruct Hi as [X|[X|[X|[]]]]; injection X as <- <-; reflexivity. }
    assert (B : ic_os (cx_ic ctx) = u "osx" \/ In (ic_os (cx_ic ctx)) [u "debian"; u "ubuntu"; u "xubuntu"]).
    { destruct Hr; injection Eo as ->; [right; left|right; right; left|right; right; right; left|left]; reflexivity. }
    destruct B as [B|B].
    - exists ctx, t_brew. rewrite B in Ec, Ea. rewrite eqb_refl in Ec, Ea.
      split; [exact E|]. split; [exact Eo|]. split; [exact Ev|]. split; [rewrite B; constructor|]. split; [exact L|].
      do 2 eexists. split; [right; left; reflexivity|]. split; [right; right; left; reflexivity|]. left; auto.
    - exists ctx, t_apt. 
      assert (N : eqb (ic_os (cx_ic ctx)) (u "osx") = false)
        by (destruct B as [<-|[<-|[<-|[]]]]; reflexivity).
      rewrite N in Ec, Ea.
      split; [exact E|]. split; [exact Eo|]. split; [exact Ev|]. split; [constructor; exact B|]. split; [exact L|].
      do 2 eexists. split; [left; reflexivity|]. split; [right; right; left; reflexivity|]. right; auto.
  Qed.

  Lemma native_unique os t t' : native os t -> native os t' -> t = t'.
  Proof.
    intros H H'. inversion H as [|? I]; inversion H' as [|? I']; subst; try reflexivity; exfalso;
      [destruct I' as [D|[D|[D|[]]]]|destruct I as [D|[D|[D|[]]]]]; discriminate D.
  Qed.

  Section Keys.
    Variables (c : pydict) (w : W) (b : builtin_os) (v : text).
    Hypothesis Hc : plain_config c [].
    Hypothesis Hr : runs (f w) b v.

    Lemma default_choice : exists ctx, context_for c w = Ok ctx /\ Some (ic_os (cx_ic ctx)) = os_names b /\
      ic_version (cx_ic ctx) = v /\
      (forall t i, tool_installer t i -> lookup_installer ctx (t_name t) = Some i) /\
      (forall d t rule, preferred (ic_os (cx_ic ctx)) d t rule -> forall key,
         exists i, tool_installer t i /\ choose ctx [] key d = Some (i, rule)) /\
      (forall d key, (forall t rule, ~ preferred (ic_os (cx_ic ctx)) d t rule) -> choose ctx [] key d = None).
    Proof.
      destruct (default_tools c w b v Hc Hr) as (ctx & t & E & Eo & Ev & Hn & L & i & j & Hi & Hj & S).
      exists ctx. split; [exact E|]. split; [exact Eo|]. split; [exact Ev|]. split; [exact L|].
      destruct (tool_resolve _ _ Hi) as [_ Ni]. destruct (tool_resolve _ _ Hj) as [_ Nj].
      assert (C : forall key d, choose ctx [] key d =
        match get (KStr (t_name t)) d with
        | Some rule => Some (i, rule)
        | None => match get (KStr (u "pip")) d with Some rule => Some (j, rule) | None => None end
        end).
      { intros key d. unfold choose. rewrite get_nil.
        destruct S as [[-> ->]|[-> ->]]; cbn [find last_match]; unfold has; rewrite Ni, Nj; cbn [t_name t_pip];
          destruct (get (KStr (t_name t)) d) as [r|] eqn:E1; cbn [find]; rewrite ?Ni, ?E1; try reflexivity;
          unfold has; rewrite ?Nj; cbn [t_name t_pip];
          destruct (get (KStr (u "pip")) d) as [r|] eqn:E2; rewrite ?Nj; cbn [t_name t_pip]; rewrite ?E2; reflexivity. }
      split.
      - intros d t' rule Hp key. rewrite C. inversion Hp as [? ? Hn' G|? ? Hn' G1 G2]; subst.
        + rewrite (native_unique _ _ _ Hn Hn') in *. rewrite G. exists i; auto.
        + rewrite (native_unique _ _ _ Hn Hn') in *. rewrite G1, G2. exists j; auto.
      - intros d key Hno. rewrite C. destruct (get (KStr (t_name t)) d) as [r|] eqn:E1.
        { exfalso. eapply Hno. eapply pref_native; eassumption. }
        destruct (get (KStr (u "pip")) d) as [r|] eqn:E2; [|reflexivity].
        exfalso. eapply Hno. eapply pref_pip; eassumption.
    Qed.

    (** ** C79 *)
    (** With the default configuration there is a context for which every key with a rule for
        the native package manager, or else for pip, resolves to that tool and the packages of
        that rule; the composed commands are the tool's, one per package, in order.  A key
        without such a rule is reported as an error. *)
    Theorem C79_default_commands :
      exists ctx, context_for c w = Ok ctx /\ Some (ic_os (cx_ic ctx)) = os_names b /\ ic_version (cx_ic ctx) = v /\
      forall db_lookup db_keys keys all_keys results errors key d,
        resolve db_lookup db_keys ctx [] keys all_keys = Ok (results, errors) ->
        In key keys -> db_lookup key = Ok d ->
        (forall t rule ps, preferred (ic_os (cx_ic ctx)) d t rule -> package_rule rule ps ->
           exists rs i, In (key, (t_name t, rs)) results /\ ~ In key (map fst errors) /\
             lookup_installer ctx (t_name t) = Some i /\
             forall interactive reinstall w', in_commands i rs interactive reinstall w' = (Ok (map (command_for root t) ps), w')) /\
        ((forall t rule, ~ preferred (ic_os (cx_ic ctx)) d t rule) ->
           In (key, ResolutionError) errors /\ ~ In key (map fst results)).
    Proof.
      destruct default_choice as (ctx & E & Eo & Ev & L & Hyes & Hno).
      exists ctx. split; [exact E|]. split; [exact Eo|]. split; [exact Ev|].
      intros db dk keys all results errors key d Hres Hk Hd.
      apply resolve_outcomes in Hres as (ks & g & Hks & Hg & -> & ->).
      destruct (lookup_keys_spec db dk keys all ks Hks) as (_ & dks & _ & Hw).
      assert (Ik : In key ks) by (apply Hw; left; exact Hk).
      pose proof (Hg _ Ik) as Gk. unfold resolve_key in Gk. rewrite Hd in Gk.
      change (install_from_map []) with (@nil (text * text)) in Gk.
      assert (In1 : forall x, g key = inl x ->
         In (key, x) (flat_map (fun k => match g k with inl x => [(k, x)] | inr _ => [] end) ks) /\
         ~ In key (map fst (flat_map (fun k => match g k with inl _ => [] | inr x => [(k, x)] end) ks))).
      { intros x Ex. split.
        - apply in_flat_map. exists key. split; [exact Ik|]. rewrite Ex. left; reflexivity.
        - rewrite fst_errors, filter_In, Ex. intros [_ D]; discriminate D. }
      assert (In2 : forall x, g key = inr x ->
         In (key, x) (flat_map (fun k => match g k with inl _ => [] | inr x => [(k, x)] end) ks) /\
         ~ In key (map fst (flat_map (fun k => match g k with inl x => [(k, x)] | inr _ => [] end) ks))).
      { intros x Ex. split.
        - apply in_flat_map. exists key. split; [exact Ik|]. rewrite Ex. left; reflexivity.
        - rewrite fst_results, filter_In, Ex. intros [_ D]; discriminate D. }
      split.
      - intros t rule ps Hp Hrule. destruct (Hyes d t rule Hp key) as (i & Hi & Ec).
        assert (Nd : d <> []) by (intros ->; inversion Hp as [? ? _ G|? ? _ _ G]; rewrite get_nil in G; discriminate G).
        destruct d as [|p d]; [contradiction|]. rewrite Ec in Gk.
        destruct (tool_resolve _ _ Hi) as [Ri Ni]. rewrite Ri, (package_rule_resolves _ _ _ Hrule) in Gk.
        injection Gk as Gk. rewrite Ni in Gk. destruct (In1 _ (eq_sym Gk)) as [A B].
        eexists _, i. split; [exact A|]. split; [exact B|]. split; [apply L, Hi|].
        intros inter re w'. apply tool_commands, Hi.
      - intros Hnone. apply In2. destruct d as [|p d]; [congruence|].
        rewrite (Hno _ key Hnone) in Gk. congruence.
    Qed.
  End Keys.
End Default.

(** Non-vacuity: on an ubuntu machine with the default configuration, a user that is not root. *)
Definition ex_db (key : text) : res pydict :=
  if eqb key (u "boost") then Ok [(KStr (u "apt"), VDict [(KStr (u "packages"), VList [VStr (u "libboost"); VStr (u "libboost-dev")])]);
                                  (KStr (u "pip"), VDict [(KStr (u "packages"), VList [VStr (u "boost")])])]
  else if eqb key (u "six") then Ok [(KStr (u "pip"), VDict [(KStr (u "packages"), VList [VStr (u "six")])])]
  else if eqb key (u "tex") then Ok [(KStr (u "macports"), VDict [(KStr (u "packages"), VList [VStr (u "tex")])])]
  else Err LookupError.

Example C79_nonvacuous :
  exists c ctx rs1 rs2, load_dict {| home := fun _ => None; cwd := u "/" |} [] = Ok c /\ plain_config c [] /\
    runs ubuntu_machine ubuntu (u "trusty") /\ ex_world_context c = Ok ctx /\
    resolve ex_db (Ok []) ctx [] [u "boost"; u "six"; u "tex"] false =
      Ok ([(u "boost", (u "apt", rs1)); (u "six", (u "pip", rs2))], [(u "tex", ResolutionError)]) /\
    preferred (u "ubuntu") [(KStr (u "pip"), VDict [(KStr (u "packages"), VList [VStr (u "six")])])] t_pip
      (VDict [(KStr (u "packages"), VList [VStr (u "six")])]) /\
    package_rule (VDict [(KStr (u "packages"), VList [VStr (u "six")])]) [u "six"] /\
    command_for false t_pip (u "six") = [u "sudo"; u "pip"; u "install"; u "-U"; u "six"].
Proof.
  do 4 eexists. split; [vm_compute; reflexivity|]. split; [unfold plain_config; repeat (split; [reflexivity|]); reflexivity|].
  split; [apply C76_nonvacuous|]. split; [vm_compute; reflexivity|]. split; [vm_compute; reflexivity|].
  split; [apply pref_pip with t_apt; [constructor; right; left; reflexivity|reflexivity|reflexivity]|].
  split; [exists [(KStr (u "packages"), VList [VStr (u "six")])], []; split; [reflexivity|]; split; [reflexivity|left; reflexivity]|].
  reflexivity.
Qed.

Print Assumptions C79_default_commands.
