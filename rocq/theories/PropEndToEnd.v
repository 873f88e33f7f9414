(** C105: what `xylem install` executes or shows on the bundled systems with the default
    configuration, from the database to the command lines. *)
From Verif Require Import Base Dict PyVal Sources Util Paths Config XylemConfig Terminal Installer Installers
  Plugins OsSupport Context Resolve Install InstallSpec InstallProofs PropInstall PropResolve PropInstallers
  PropContext PropDefault.

(** * Specification *)
(** The database has, for [key], packages [snd q] to install with tool [fst q]. *)
Definition wants (os : text) (db : text -> res pydict) (key : text) (q : tool * list text) : Prop :=
  exists d rule, db key = Ok d /\ preferred os d (fst q) rule /\ package_rule rule (snd q).

(** The executable whose presence a tool requires. *)
Definition executable (t : tool) : text := hd [] (t_command t).

(** All (tool, package) pairs, in order. *)
Definition items (reqs : list (tool * list text)) : list (tool * text) :=
  flat_map (fun q => map (pair (fst q)) (snd q)) reqs.

(** The packages still to install, given the lines that pip freeze prints: pip packages that
    are shown are skipped, nothing else is. *)
Definition skipped (lines : list text) (x : tool * text) : Prop :=
  t_name (fst x) = u "pip" /\ exists line, In line lines /\ shows line (snd x).
Inductive remaining (lines : list text) : list (tool * text) -> list (tool * text) -> Prop :=
| rem_nil : remaining lines [] []
| rem_skip x l l' : skipped lines x -> remaining lines l l' -> remaining lines (x :: l) l'
| rem_keep x l l' : ~ skipped lines x -> remaining lines l l' -> remaining lines (x :: l) (x :: l').

Definition command_lines (root : bool) (l : list (tool * text)) : list cmd :=
  map (fun x => command_for root (fst x) (snd x)) l.

(** Commands shown by a simulation, in order. *)
Definition shown {R} (l : list (event R)) : list cmd :=
  flat_map (fun e => match e with EShow c => [c] | _ => [] end) l.

(** * Proof *)
Definition res_of (p : text) : pydict := plain_resolution (VStr p).
Definition grp (q : tool * list text) : text * list pydict := (t_name (fst q), map res_of (snd q)).
Definition bundled_tool (t : tool) : Prop := In t [t_apt; t_brew; t_pip].

Lemma bundled_inj t t' : bundled_tool t -> bundled_tool t' -> t_name t = t_name t' -> t = t'.
Proof.
  intros [<-|[<-|[<-|[]]]] [<-|[<-|[<-|[]]]] H; try reflexivity; vm_compute in H; discriminate H.
Qed.

Lemma items_app a b : items (a ++ b) = items a ++ items b.
Proof. unfold items. apply flat_map_app. Qed.

Lemma squash_reqs reqs : forall cur,
  Forall (fun q => bundled_tool (fst q)) reqs -> (forall q, cur = Some q -> bundled_tool (fst q)) ->
  exists reqs', squash_from (option_map grp cur) (map grp reqs) = map grp reqs' /\
    items reqs' = match cur with Some q => items [q] | None => [] end ++ items reqs /\
    (forall q, In q reqs' -> In (fst q) (match cur with Some q => [fst q] | None => [] end ++ map fst reqs)) .
Proof.
  induction reqs as [|[t ps] reqs IH]; intros cur Hb Hc.
  - destruct cur as [q|]; [exists [q]|exists []]; (split; [reflexivity|]; split; [rewrite app_nil_r; reflexivity|]).
    + intros q' [<-|[]]. left; reflexivity.
    + intros q' [].
  - inversion Hb as [|? ? Ht Hb']; subst; cbn [fst] in Ht.
    destruct cur as [[t0 ps0]|]; cbn [map squash_from option_map grp fst snd].
    + specialize (Hc _ eq_refl) as Ht0; cbn [fst] in Ht0.
      destruct (eqb_spec (t_name t0) (t_name t)) as [E|E].
      * apply (bundled_inj _ _ Ht0 Ht) in E; subst t0.
        destruct (IH (Some (t, ps0 ++ ps)) Hb') as (reqs' & E1 & E2 & E3).
        { intros q Eq; injection Eq as <-; exact Ht. }
        exists reqs'. split.
        { cbn [option_map] in E1; unfold grp at 1 in E1; cbn [fst snd] in E1; rewrite map_app in E1; exact E1. }
        split.
        { rewrite E2. cbn [items flat_map fst snd]. rewrite !app_nil_r, map_app, <- app_assoc. reflexivity. }
        intros q Hq. apply E3 in Hq. cbn [app fst map] in *. destruct Hq as [<-|Hq]; [left; reflexivity|right; right; exact Hq].
      * destruct (IH (Some (t, ps)) Hb') as (reqs' & E1 & E2 & E3).
        { intros q Eq; injection Eq as <-; exact Ht. }
        exists ((t0, ps0) :: reqs'). split; [cbn [map grp fst snd]; f_equal; exact E1|]. split.
        { cbn [items flat_map fst snd]. fold (items reqs'). rewrite E2. cbn [items flat_map fst snd].
          rewrite !app_nil_r. reflexivity. }
        intros q [<-|Hq]; [left; reflexivity|]. right. apply E3 in Hq. exact Hq.
    + destruct (IH (Some (t, ps)) Hb') as (reqs' & E1 & E2 & E3).
      { intros q Eq; injection Eq as <-; exact Ht. }
      exists reqs'. split; [exact E1|]. split.
      { rewrite E2. cbn [items flat_map fst snd app]. rewrite !app_nil_r. reflexivity. }
      intros q Hq. apply E3 in Hq. exact Hq.
Qed.

Lemma remaining_app lines a a' b b' :
  remaining lines a a' -> remaining lines b b' -> remaining lines (a ++ b) (a' ++ b').
Proof. intros H; induction H; intros Hb; cbn [app]; [exact Hb|apply rem_skip; auto|apply rem_keep; auto]. Qed.

Lemma remaining_unique lines a b c : remaining lines a b -> remaining lines a c -> b = c.
Proof.
  intros H; revert c; induction H as [|x l l' Hs _ IH|x l l' Hs _ IH]; intros c Hc; inversion Hc; subst;
    try contradiction; [reflexivity|apply IH; assumption|f_equal; apply IH; assumption].
Qed.

Lemma executed_app {R} (a b : list (event R)) : executed (a ++ b) = executed a ++ executed b.
Proof. unfold executed. apply flat_map_app. Qed.
Lemma shown_app {R} (a b : list (event R)) : shown (a ++ b) = shown a ++ shown b.
Proof. unfold shown. apply flat_map_app. Qed.

Section EndToEnd.
  Context {W : Type}.
  Variable uni : N -> bool.
  Variable env : penv.
  Variable root : bool.
  Variable program_installed : text -> act W bool.
  Variable freeze : act W text.
  Variables exists_ isdir : text -> W -> bool.
  Variable makedirs : text -> act W unit.
  Variable f : W -> machine.
  Variable run : cmd -> act W Z.
  Variable ansi : dict text text.
  Notation plugins := (bundled_installers env root program_installed freeze exists_ isdir makedirs).
  Notation context_for c w := (make_context env c (bundled_os_eps uni f) (bundled_inst_eps uni plugins) w).
  Notation tool_inst := (tool_installer env root program_installed freeze).
  Notation st := (W * list (event pydict))%type.

  Lemma bundled_installer t : bundled_tool t -> exists i, tool_inst t i.
  Proof.
    intros [<-|[<-|[<-|[]]]]; eexists; [left|right; left|right; right; left]; reflexivity.
  Qed.

  Section Ctx.
    Variable cx : context W pydict.
    Hypothesis L : forall t i, tool_inst t i -> lookup_installer cx (t_name t) = Some i.

    Definition quiet (l : list (event pydict)) : Prop := executed l = [] /\ shown l = [].
    Lemma quiet_app a b : quiet a -> quiet b -> quiet (a ++ b).
    Proof. intros [H1 H2] [H3 H4]. split; [rewrite executed_app, H1, H3|rewrite shown_app, H2, H4]; reflexivity. Qed.

    (** Prerequisites *)
    Lemma tool_general t i fix_ inter w : tool_inst t i -> program_installed (executable t) w = (Ok true, w) ->
      in_check_general i fix_ inter w = (Ok tt, w).
    Proof.
      intros [E|[E|[E|[]]]] H; injection E as <- <-;
        cbn [apt homebrew pip pm_installer in_check_general]; unfold pm_check_general, check_package_manager_installed;
        cbn [system_pm pm_is_installed]; cbn [executable t_command t_apt t_brew t_pip hd] in H; rewrite H; reflexivity.
    Qed.

    Lemma general_ok names fix_ inter w : forall l,
      (forall n, In n names -> exists t, bundled_tool t /\ t_name t = n /\ program_installed (executable t) w = (Ok true, w)) ->
      exists l', check_general_prerequisites cx names fix_ inter (w, l) = (Ok tt, (w, l ++ l')) /\ quiet l'.
    Proof.
      unfold check_general_prerequisites.
      induction names as [|n names IH]; intros l Hn; [exists []; rewrite app_nil_r; split; [reflexivity|split; reflexivity]|].
      destruct (Hn n (or_introl eq_refl)) as (t & Ht & <- & Hp). destruct (bundled_installer t Ht) as (i & Hi).
      cbn [each]; unfold then_ at 1, with_installer at 1. rewrite (L _ _ Hi). unfold call; cbn [fst snd].
      rewrite (tool_general t i fix_ inter w Hi Hp).
      destruct (IH (l ++ [EGeneral (t_name t) (Ok tt)]) (fun n H => Hn n (or_intror H))) as (l' & E & Q).
      exists ([EGeneral (t_name t) (Ok tt)] ++ l'). split; [rewrite app_assoc; exact E|].
      apply quiet_app; [split; reflexivity|exact Q].
    Qed.

    Lemma prereq_ok m fix_ inter w : forall l,
      (forall n, In n (map fst m) -> exists t, bundled_tool t /\ t_name t = n) ->
      exists l', check_install_prerequisites cx m fix_ inter (w, l) = (Ok tt, (w, l ++ l')) /\ quiet l'.
    Proof.
      unfold check_install_prerequisites.
      induction m as [|[n rs] m IH]; intros l Hn; [exists []; rewrite app_nil_r; split; [reflexivity|split; reflexivity]|].
      destruct (Hn n (or_introl eq_refl)) as (t & Ht & <-). destruct (bundled_installer t Ht) as (i & Hi).
      cbn [each]; unfold then_ at 1, with_installer at 1; cbn [fst snd]. rewrite (L _ _ Hi). unfold call; cbn [fst snd].
      assert (E : in_check_install i rs fix_ inter w = (Ok tt, w))
        by (destruct Hi as [E|[E|[E|[]]]]; injection E as <- _; reflexivity).
      rewrite E.
      destruct (IH (l ++ [EInstallPre (t_name t) rs (Ok tt)]) (fun n H => Hn n (or_intror H))) as (l' & E' & Q).
      exists ([EInstallPre (t_name t) rs (Ok tt)] ++ l'). split; [rewrite app_assoc; exact E'|].
      apply quiet_app; [split; reflexivity|exact Q].
    Qed.

    (** What is left to install *)
    Variables (w0 : W) (lines : list text).
    Variable pip_used : Prop.
    Hypothesis Hfreeze : pip_used -> freeze w0 = (Ok (join [newline] lines), w0) /\ lines <> [] /\
      (forall line, In line lines -> ~ In newline line).

    Lemma pip_rest ps : pip_used -> (forall p, In p ps -> ~ In equals_sign p) ->
      exists ps', pip_filter_uninstalled freeze (map res_of ps) w0 = (Ok (map res_of ps'), w0) /\
        remaining lines (map (pair t_pip) ps) (map (pair t_pip) ps').
    Proof.
      intros Hu Heq. destruct (Hfreeze Hu) as (Ef & Hne & Hnl).
      destruct (C70_pip_detection freeze (map res_of ps) ps w0 _ w0 lines Ef eq_refl Hne Hnl) as (keep & Hk & E);
        [apply resolved_names|exact Heq|].
      exists (map fst (filter snd (combine ps keep))). split.
      - rewrite E. f_equal. f_equal. clear. revert keep; induction ps as [|p ps IH]; intros [|[|] keep]; try reflexivity;
          cbn [map combine filter snd fst]; [f_equal|]; apply IH.
      - clear E. induction Hk as [|p k ps keep Hpk Hk IH]; [constructor|].
        specialize (IH (fun q H => Heq q (or_intror H))).
        cbn [map combine filter snd fst]. destruct k; cbn [map fst].
        + apply rem_keep; [|exact IH]. intros (_ & line & Hl & Hs). exact (proj1 Hpk eq_refl line Hl Hs).
        + apply rem_skip; [|exact IH]. split; [reflexivity|]. cbn [snd].
          assert (Hps : ~ In equals_sign p) by (apply Heq; left; reflexivity).
          assert (D : In p (map before_eqeq lines) \/ ~ In p (map before_eqeq lines)).
          { destruct (mem p (map before_eqeq lines)) eqn:M; [left; apply mem_In; exact M|right; intros X; apply mem_In in X; congruence]. }
          destruct D as [D|D].
          * apply in_map_iff in D as (line & Hb & Hl). exists line. split; [exact Hl|]. apply before_eqeq_spec; assumption.
          * exfalso. assert (F : false = true); [|discriminate F]. apply Hpk. intros line Hl Hs. apply D. apply in_map_iff.
            exists line. split; [apply before_eqeq_spec; assumption|exact Hl].
    Qed.

    Lemma filter_ok reqs : Forall (fun q => bundled_tool (fst q)) reqs ->
      (In t_pip (map fst reqs) -> pip_used) ->
      (forall p, In (t_pip, p) (items reqs) -> ~ In equals_sign p) ->
      forall l, exists reqs' l', filter_uninstalled cx (map grp reqs) (w0, l) = (Ok (map grp reqs', []), (w0, l ++ l')) /\
        quiet l' /\ remaining lines (items reqs) (items reqs') /\ (forall q, In q reqs' -> In (fst q) (map fst reqs) /\ snd q <> []).
    Proof.
      intros Hb; induction Hb as [|[t ps] reqs Ht Hb IH]; intros Hp Heq l.
      { exists [], []. rewrite app_nil_r. split; [reflexivity|]. split; [split; reflexivity|]. split; [constructor|intros ? []]. }
      cbn [fst] in Ht. destruct (bundled_installer t Ht) as (i & Hi).
      assert (F : exists ps', in_filter_uninstalled i (map res_of ps) w0 = (Ok (map res_of ps'), w0) /\
                 remaining lines (map (pair t) ps) (map (pair t) ps')).
      { assert (K : t_name t <> u "pip" -> remaining lines (map (pair t) ps) (map (pair t) ps)).
        { intros N. clear -N. induction ps as [|p ps IH]; [constructor|]. apply rem_keep; [|exact IH].
          intros (D & _). apply N, D. }
        destruct Hi as [E|[E|[E|[]]]]; injection E as <- <-.
        - exists ps. split; [reflexivity|]. apply K. intros D; vm_compute in D; discriminate D.
        - exists ps. split; [reflexivity|]. apply K. intros D; vm_compute in D; discriminate D.
        - apply pip_rest; [apply Hp; left; reflexivity|]. intros p Hin. apply Heq. unfold items. cbn [flat_map fst snd].
          apply in_or_app; left. apply in_map; exact Hin. }
      destruct F as (ps' & Ef & Hr).
      destruct (IH (fun H => Hp (or_intror H)) (fun p H => Heq p (in_or_app _ _ _ (or_intror H)))
                   (l ++ [EFilter (t_name t) (map res_of ps) (Ok (map res_of ps'))])) as (reqs' & l' & E & Q & Hr' & Hin').
      exists ((match ps' with [] => [] | _ => [(t, ps')] end) ++ reqs'),
             ([EFilter (t_name t) (map res_of ps) (Ok (map res_of ps'))] ++ l').
      split.
      { change (map grp ((t, ps) :: reqs)) with ((t_name t, map res_of ps) :: map grp reqs).
        cbn [filter_uninstalled]. unfold with_installer. rewrite (L _ _ Hi).
        unfold then_ at 1, catch, call; cbn [fst snd]. rewrite Ef. unfold ret at 1. unfold then_ at 1.
        rewrite E. unfold ret. cbn [fst snd app]. rewrite <- app_assoc. cbn [app].
        destruct ps'; cbn [map app]; reflexivity. }
      split; [apply quiet_app; [split; reflexivity|exact Q]|].
      split.
      - rewrite items_app. change (items ((t, ps) :: reqs)) with (map (pair t) ps ++ items reqs).
        apply remaining_app; [|exact Hr'].
        destruct ps'; unfold items; cbn [flat_map fst snd]; rewrite ?app_nil_r; exact Hr.
      - intros q Hq. apply in_app_or in Hq as [Hq|Hq].
        + destruct ps' as [|p ps']; [destruct Hq|]. destruct Hq as [<-|[]]. split; [left; reflexivity|discriminate].
        + apply Hin' in Hq as [H1 H2]. split; [right; exact H1|exact H2].
    Qed.

    (** Showing and running the commands *)
    Lemma show_all cs : forall (s : st), each (fun c => note (EShow c)) cs s = (Ok tt, (fst s, snd s ++ map EShow cs)).
    Proof.
      induction cs as [|c cs IH]; intros [w l]; cbn [each map]; [rewrite app_nil_r; reflexivity|].
      unfold then_, note. rewrite IH. cbn [fst snd]. rewrite <- app_assoc. reflexivity.
    Qed.
    Lemma shown_EShow cs : @shown pydict (map EShow cs) = cs.
    Proof. unfold shown. induction cs as [|c cs IH]; [reflexivity|]. cbn [map flat_map app]. rewrite IH. reflexivity. Qed.
    Lemma executed_EShow cs : @executed pydict (map EShow cs) = [].
    Proof. unfold executed. induction cs as [|c cs IH]; [reflexivity|]. exact IH. Qed.

    Lemma simulate_one o t ps w l : bundled_tool t -> o_simulate o = true ->
      exists l', install_resolutions run ansi cx o (t_name t) (map res_of ps) (w, l) = (Ok [], (w, l ++ l')) /\
        shown l' = map (command_for root t) ps /\ executed l' = [].
    Proof.
      intros Ht Ho. destruct (bundled_installer t Ht) as (i & Hi).
      unfold install_resolutions, with_installer. rewrite (L _ _ Hi). unfold catch, call; cbn [fst snd].
      pose proof (tool_commands env root program_installed freeze exists_ isdir makedirs t i ps (o_interactive o) (o_reinstall o) w Hi) as TC.
      change (map (fun p => plain_resolution (VStr p)) ps) with (map res_of ps) in TC. rewrite TC. clear TC.
      destruct ps as [|p ps].
      - exists [ECompose (t_name t) [] (Ok [])]. split; [reflexivity|]. split; reflexivity.
      - cbn [map]. rewrite Ho. unfold then_. rewrite show_all. cbn [fst snd].
        eexists. split; [unfold ret; rewrite <- app_assoc; reflexivity|].
        split; [rewrite shown_app, shown_EShow|rewrite executed_app, executed_EShow]; reflexivity.
    Qed.

    Lemma simulate_all o reqs : Forall (fun q => bundled_tool (fst q)) reqs -> o_simulate o = true -> forall w l,
      exists l', install_groups run ansi cx o (map grp reqs) [] (w, l) = (Ok [], (w, l ++ l')) /\
        shown l' = command_lines root (items reqs) /\ executed l' = [].
    Proof.
      intros Hb Ho; induction Hb as [|[t ps] reqs Ht Hb IH]; intros w l.
      { exists []. rewrite app_nil_r. split; [reflexivity|]. split; reflexivity. }
      destruct (simulate_one o t ps w l Ht Ho) as (l1 & E1 & S1 & X1).
      destruct (IH w (l ++ l1)) as (l2 & E2 & S2 & X2).
      exists (l1 ++ l2). change (map grp ((t, ps) :: reqs)) with ((t_name t, map res_of ps) :: map grp reqs).
      cbn [install_groups]. unfold then_. rewrite E1. cbn [app].
      split; [rewrite app_assoc; exact E2|]. split.
      - rewrite shown_app, S1, S2. unfold command_lines, items. cbn [flat_map fst snd]. rewrite map_app, map_map. reflexivity.
      - rewrite executed_app, X1, X2. reflexivity.
    Qed.

    Lemma no_at_command t p : bundled_tool t -> ~ In at_ p -> forall x, In x (command_for root t p) -> ~ In at_ x.
    Proof.
      intros Ht Hp x Hx. unfold command_for in Hx. apply in_app_or in Hx as [Hx|Hx].
      - destruct (t_root t && negb root); [|destruct Hx]. destruct Hx as [<-|[]].
        vm_compute. intros H. repeat (destruct H as [H|H]; [discriminate H|]). exact H.
      - apply in_app_or in Hx as [Hx|[<-|[]]]; [|exact Hp].
        destruct Ht as [<-|[<-|[<-|[]]]]; cbn [t_command t_apt t_brew t_pip] in Hx;
          repeat (destruct Hx as [<-|Hx]; [vm_compute; intros H; repeat (destruct H as [H|H]; [discriminate H|]); exact H|]);
          destruct Hx.
    Qed.

    Hypothesis ansi_ok : ansi = ansi_enabled \/ ansi = ansi_disabled.

    Lemma run_all cont cs : (forall c t, In c cs -> In t c -> ~ In at_ t) ->
      (forall c w, In c cs -> exists code w', run c w = (Ok code, w') /\ (cont = true \/ code = 0%Z)) ->
      forall errs w (l : list (event pydict)), exists errs' w' l',
        run_commands run ansi cont cs errs (w, l) = (Ok (inr errs'), (w', l ++ l')) /\ executed l' = cs /\ shown l' = [].
    Proof.
      induction cs as [|c cs IH]; intros Hat Hrun errs w l.
      { exists errs, w, []. rewrite app_nil_r. split; [reflexivity|]. split; reflexivity. }
      destruct (exec_message_fmt ansi c ansi_ok) as (m & Em); [intros t; apply Hat; left; reflexivity|].
      destruct (Hrun c w (or_introl eq_refl)) as (code & w1 & E1 & Hc).
      assert (N : exists errs1, run_commands run ansi cont (c :: cs) errs (w, l) =
                  run_commands run ansi cont cs errs1 (w1, l ++ [EExec c (Ok code)])).
      { cbn [run_commands]. unfold then_, lift, call. rewrite Em. cbn [fst snd]. rewrite E1.
        destruct (Z.eqb code 0) eqn:Ez; [exists errs; reflexivity|].
        destruct Hc as [-> | ->]; [eexists; reflexivity|discriminate Ez]. }
      destruct N as (errs1 & ->).
      destruct (IH (fun c' t H => Hat c' t (or_intror H)) (fun c' w' H => Hrun c' w' (or_intror H)) errs1 w1
                   (l ++ [EExec c (Ok code)])) as (errs' & w' & l' & E' & X & Y).
      exists errs', w', ([EExec c (Ok code)] ++ l'). split; [rewrite app_assoc; exact E'|].
      split; [rewrite executed_app, X|rewrite shown_app, Y]; reflexivity.
    Qed.

    (** pip freeze works at any time, if pip is used *)
    Hypothesis Hpip : pip_used -> forall w, exists out w', freeze w = (Ok out, w').

    Lemma check_all t i ps : tool_inst t i -> (t = t_pip -> pip_used) ->
      forall errs w (l : list (event pydict)), exists errs' w' l',
        check_items i (t_name t) (map res_of ps) errs (w, l) = (Ok errs', (w', l ++ l')) /\ quiet l' /\
        (t <> t_pip -> List.length errs' = List.length errs + List.length ps).
    Proof.
      intros Hi Hp. induction ps as [|p ps IH]; intros errs w l.
      { exists errs, w, []. rewrite app_nil_r. split; [reflexivity|]. split; [split; reflexivity|]. intros _. cbn. lia. }
      assert (A : exists b w', in_is_installed i (res_of p) w = (Ok b, w') /\ (t <> t_pip -> b = false)).
      { destruct Hi as [E|[E|[E|[]]]]; injection E as <- <-.
        - exists false, w. split; [reflexivity|auto].
        - exists false, w. split; [reflexivity|auto].
        - destruct (Hpip (Hp eq_refl) w) as (out & w' & Ef).
          cbn [pip pm_installer in_is_installed]. unfold is_installed_of, pip_filter_uninstalled. rewrite Ef.
          cbn [mapM res_of plain_resolution]. change (get k_package (plain_resolution (VStr p))) with (Some (VStr p)).
          destruct (mem p (map before_eqeq (split_on newline out))); cbn [bind List.concat app];
            do 2 eexists; (split; [reflexivity|congruence]). }
      destruct A as (b & w1 & E1 & Hb).
      destruct (IH (errs ++ (if b then [] else [InstallError])) w1 (l ++ [ECheck (t_name t) (res_of p) (Ok b)]))
        as (errs' & w' & l' & E' & Q & Hlen).
      exists errs', w', ([ECheck (t_name t) (res_of p) (Ok b)] ++ l'). split.
      { cbn [map check_items]. unfold then_, catch, call; cbn [fst snd]. rewrite E1. unfold ret. rewrite app_assoc. exact E'. }
      split; [apply quiet_app; [split; reflexivity|exact Q]|].
      intros N. rewrite (Hlen N), (Hb N), app_length. cbn. lia.
    Qed.

    Lemma exec_one o t ps w l : bundled_tool t -> (t = t_pip -> pip_used) -> o_simulate o = false ->
      (forall p, In p ps -> ~ In at_ p) ->
      (forall p w', In p ps -> exists code w'', run (command_for root t p) w' = (Ok code, w'') /\ (o_continue o = true \/ code = 0%Z)) ->
      exists errs w' l', install_resolutions run ansi cx o (t_name t) (map res_of ps) (w, l) = (Ok errs, (w', l ++ l')) /\
        executed l' = map (command_for root t) ps /\ shown l' = [] /\
        (t <> t_pip -> List.length ps <= List.length errs).
    Proof.
      intros Ht Hp Ho Hat Hrun. destruct (bundled_installer t Ht) as (i & Hi).
      unfold install_resolutions, with_installer. rewrite (L _ _ Hi). unfold catch, call; cbn [fst snd].
      pose proof (tool_commands env root program_installed freeze exists_ isdir makedirs t i ps (o_interactive o) (o_reinstall o) w Hi) as TC.
      change (map (fun p => plain_resolution (VStr p)) ps) with (map res_of ps) in TC. rewrite TC. clear TC.
      destruct ps as [|p ps].
      - exists [], w, [ECompose (t_name t) [] (Ok [])]. split; [reflexivity|]. split; [reflexivity|]. split; [reflexivity|].
        intros _. cbn. lia.
      - remember (p :: ps) as qs eqn:Eq.
        assert (Ne : exists c cs, map (command_for root t) qs = c :: cs) by (subst qs; do 2 eexists; reflexivity).
        destruct Ne as (c & cs & Ne). rewrite Ne, Ho, <- Ne. unfold then_.
        destruct (run_all (o_continue o) (map (command_for root t) qs)) with (errs := @nil exn) (w := w)
          (l := l ++ [ECompose (t_name t) (map res_of qs) (Ok (map (command_for root t) qs))]) as (e1 & w1 & l1 & E1 & X1 & Y1).
        { intros c' x Hc' Hx. apply in_map_iff in Hc' as (p' & <- & Hp'). eapply no_at_command; eauto. }
        { intros c' w' Hc'. apply in_map_iff in Hc' as (p' & <- & Hp'). apply Hrun, Hp'. }
        rewrite E1. 
        destruct (check_all t i qs Hi Hp e1 w1
          ((l ++ [ECompose (t_name t) (map res_of qs) (Ok (map (command_for root t) qs))]) ++ l1)) as (e2 & w2 & l2 & E2 & Q2 & Hn).
        rewrite E2. eexists e2, w2, _. split; [rewrite <- !app_assoc; reflexivity|].
        rewrite !executed_app, !shown_app, X1, Y1, (proj1 Q2), (proj2 Q2), app_nil_r.
        split; [reflexivity|]. split; [reflexivity|]. intros N. rewrite (Hn N). lia.
    Qed.

    Lemma exec_all o reqs : Forall (fun q => bundled_tool (fst q)) reqs -> (In t_pip (map fst reqs) -> pip_used) ->
      o_simulate o = false -> o_continue o = true ->
      (forall x, In x (items reqs) -> ~ In at_ (snd x)) ->
      (forall c w', In c (command_lines root (items reqs)) -> exists code w'', run c w' = (Ok code, w'')) ->
      forall all w l, exists errs w' l',
        install_groups run ansi cx o (map grp reqs) all (w, l) = (Ok errs, (w', l ++ l')) /\
        executed l' = command_lines root (items reqs) /\ shown l' = [].
    Proof.
      intros Hb; induction Hb as [|[t ps] reqs Ht Hb IH]; intros Hp Ho Hc Hat Hrun all w l.
      { exists all, w, []. rewrite app_nil_r. split; [reflexivity|]. split; reflexivity. }
      assert (Ei : items ((t, ps) :: reqs) = map (pair t) ps ++ items reqs) by reflexivity.
      assert (Ec : command_lines root (items ((t, ps) :: reqs)) = map (command_for root t) ps ++ command_lines root (items reqs)).
      { rewrite Ei. unfold command_lines. rewrite map_app, map_map. reflexivity. }
      rewrite Ec in Hrun. rewrite Ei in Hat.
      destruct (exec_one o t ps w l Ht) as (e1 & w1 & l1 & E1 & X1 & Y1 & _).
      { intros ->. apply Hp. left; reflexivity. }
      { exact Ho. }
      { intros p Hin. apply (Hat (t, p)). apply in_or_app; left. apply in_map, Hin. }
      { intros p w' Hin. destruct (Hrun (command_for root t p) w') as (code & w'' & E).
        { apply in_or_app; left. apply in_map, Hin. }
        exists code, w''. auto. }
      destruct (IH (fun H => Hp (or_intror H)) Ho Hc (fun x H => Hat x (in_or_app _ _ _ (or_intror H)))
         (fun c w' H => Hrun c w' (in_or_app _ _ _ (or_intror H))) (all ++ e1) w1 (l ++ l1)) as (e2 & w2 & l2 & E2 & X2 & Y2).
      exists e2, w2, (l1 ++ l2). split.
      - change (map grp ((t, ps) :: reqs)) with ((t_name t, map res_of ps) :: map grp reqs).
        cbn [install_groups]. unfold then_. rewrite E1, Hc, app_assoc. destruct e1; exact E2.
      - rewrite executed_app, shown_app, X1, X2, Y1, Y2, Ec. split; reflexivity.
    Qed.

    Lemma map_resolutions_names (groups : list (text * list pydict)) n :
      In n (map fst (map_resolutions groups)) -> In n (map fst groups).
    Proof.
      intros H. apply in_map_iff in H as ([m rs] & <- & H). destruct (C32_map groups) as [Hnd Hget].
      apply In_get in H; [|exact Hnd]; rewrite Hget in H. cbn [fst].
      destruct (mem m (map fst groups)) eqn:Em; [apply mem_In; exact Em|discriminate].
    Qed.

    (** Everything before the groups are installed. *)
    Lemma install_reduces o keys reqs : o_reinstall o = false -> List.length keys = List.length reqs ->
      Forall (fun q => bundled_tool (fst q)) reqs -> (In t_pip (map fst reqs) -> pip_used) ->
      (forall p, In (t_pip, p) (items reqs) -> ~ In equals_sign p) ->
      (forall t, In t (map fst reqs) -> program_installed (executable t) w0 = (Ok true, w0)) ->
      exists reqs' l0, quiet l0 /\ remaining lines (items reqs) (items reqs') /\
        alternating (map grp reqs') /\
        (forall q, In q reqs' -> In (fst q) (map fst reqs) /\ snd q <> []) /\
        install run ansi cx o (Ok (combine keys (map grp reqs), [])) (w0, []) =
          match install_groups run ansi cx o (map grp reqs') [] (w0, l0) with
          | (Ok e, s) => (Ok ([], e), s)
          | (Err e, s) => (Err e, s)
          end.
    Proof.
      intros Hre Hlen Hb Hp Heq Hex.
      assert (Sn : map snd (combine keys (map grp reqs)) = map grp reqs).
      { assert (X : forall (A B : Type) (a : list A) (b : list B), List.length a = List.length b -> map snd (combine a b) = b).
        { intros A B; induction a as [|x a IH]; intros [|y b] H; try discriminate H; [reflexivity|]. cbn. f_equal. apply IH. injection H; auto. }
        apply X. rewrite map_length. exact Hlen. }
      destruct (squash_reqs reqs None Hb) as (r1 & E1 & I1 & N1); [discriminate|]. cbn [option_map app] in *.
      assert (Hb1 : Forall (fun q => bundled_tool (fst q)) r1).
      { apply Forall_forall. intros q Hq. apply N1 in Hq. apply in_map_iff in Hq as (q' & <- & Hq').
        rewrite Forall_forall in Hb. apply Hb, Hq'. }
      destruct (general_ok (installer_names (map grp r1)) (o_fix o) (o_interactive o) w0 []) as (l1 & G & Q1).
      { intros n Hn. unfold installer_names in Hn. apply (proj1 (remove_duplicates_In _ _)) in Hn.
        rewrite map_map in Hn. apply in_map_iff in Hn as (q & <- & Hq). exists (fst q).
        split; [rewrite Forall_forall in Hb1; apply Hb1, Hq|]. split; [reflexivity|]. apply Hex, N1, Hq. }
      destruct (filter_ok r1 Hb1) with (l := [] ++ l1) as (r2 & l2 & F0 & Q2 & R2 & N2).
      { intros H. apply Hp. apply in_map_iff in H as (q & Eq & Hq). rewrite <- Eq. apply N1, Hq. }
      { intros p H. apply Heq. rewrite I1 in H. exact H. }
      pose proof (uninstalled_quiet _ _ _ _ _ F0) as F; clear F0.
      assert (Hb2 : Forall (fun q => bundled_tool (fst q)) r2).
      { apply Forall_forall. intros q Hq. apply N2 in Hq as [Hq _]. apply in_map_iff in Hq as (q' & <- & Hq').
        rewrite Forall_forall in Hb1. apply Hb1, Hq'. }
      destruct (prereq_ok (map_resolutions (map grp r2)) (o_fix o) (o_interactive o) w0 (([] ++ l1) ++ l2)) as (l3 & P & Q3).
      { intros n Hn. apply map_resolutions_names in Hn. rewrite map_map in Hn. apply in_map_iff in Hn as (q & <- & Hq).
        exists (fst q). split; [rewrite Forall_forall in Hb2; apply Hb2, Hq|reflexivity]. }
      destruct (squash_reqs r2 None Hb2) as (r3 & E3 & I3 & N3); [discriminate|]. cbn [option_map app] in *.
      exists r3, ((l1 ++ l2) ++ l3). split; [apply quiet_app; [apply quiet_app; assumption|exact Q3]|].
      split; [rewrite I3, <- I1; exact R2|].
      split; [rewrite <- E3; apply squash_from_alternating|].
      split.
      { intros q Hq. split.
        - apply N3 in Hq. apply in_map_iff in Hq as (q' & <- & Hq'). apply N2 in Hq' as [Hq' _].
          apply in_map_iff in Hq' as (q'' & <- & Hq''). apply N1, Hq''.
        - assert (X : forall g, In g (squash_from None (map grp r2)) -> snd g <> []).
          { apply squash_nonempty; [discriminate|]. intros g Hg. apply in_map_iff in Hg as (q' & <- & Hq').
            apply N2 in Hq' as [_ Hq']. cbn [grp snd]. destruct (snd q'); [congruence|discriminate]. }
          rewrite E3 in X. specialize (X (grp q) (in_map _ _ _ Hq)). cbn [grp snd] in X. intros D; apply X; rewrite D; reflexivity. }
      unfold install, then_ at 1, lift. rewrite Sn. unfold squash_resolutions at 1. rewrite E1.
      assert (HE : squash_resolutions (map grp reqs) = map grp r1) by exact E1.
      unfold then_ at 1. rewrite ?HE, G. rewrite Hre. unfold then_ at 1. rewrite F. unfold then_ at 1. rewrite P.
      unfold install_resolved, squash_resolutions. rewrite E3. unfold then_ at 1.
      destruct (install_groups run ansi cx o (map grp r3) [] (w0, (l1 ++ l2) ++ l3)) as [[e|e] s]; reflexivity.
    Qed.

    Lemma span_unique {A} (P : A -> Prop) (a : list A) : forall b a' b', a ++ b = a' ++ b' ->
      Forall P a -> Forall P a' -> (forall x l, b = x :: l -> ~ P x) -> (forall x l, b' = x :: l -> ~ P x) -> a = a'.
    Proof.
      induction a as [|x a IH]; intros b [|x' a'] b' E Ha Ha' Hb Hb'; [reflexivity| | |].
      - cbn [app] in E. inversion Ha'; subst. exfalso. eapply Hb; [reflexivity|assumption].
      - cbn [app] in E. inversion Ha; subst. exfalso. eapply Hb'; [reflexivity|assumption].
      - injection E as -> E. inversion Ha; inversion Ha'; subst. f_equal. eapply IH; eassumption.
    Qed.

    (** Stop at the first group of a native tool. *)
    Lemma abort_first o reqs t a b : Forall (fun q => bundled_tool (fst q)) reqs ->
      o_simulate o = false -> o_continue o = false ->
      alternating (map grp reqs) -> (forall q, In q reqs -> snd q <> []) ->
      items reqs = a ++ b -> a <> [] -> bundled_tool t -> t <> t_pip -> (forall x, In x a -> fst x = t) ->
      (forall x l, b = x :: l -> fst x <> t) ->
      (forall x, In x a -> ~ In at_ (snd x)) ->
      (forall c w', In c (command_lines root a) -> exists w'', run c w' = (Ok 0%Z, w'')) ->
      forall w l, exists errs w' l',
        install_groups run ansi cx o (map grp reqs) [] (w, l) = (Ok errs, (w', l ++ l')) /\
        List.length a <= List.length errs /\
        executed l' = command_lines root a /\ shown l' = [].
    Proof.
      intros Hb Ho Hc Halt Hne Hit Hna Htb Hnt Ha Hbh Hat Hrun w l.
      destruct reqs as [|[t0 ps] reqs]; [destruct a; [congruence|discriminate Hit]|].
      assert (Ei : items ((t0, ps) :: reqs) = map (pair t0) ps ++ items reqs) by reflexivity.
      assert (Hps : ps <> []) by (apply (Hne (t0, ps)); left; reflexivity).
      assert (t0 = t).
      { rewrite Ei in Hit. destruct ps as [|p ps]; [congruence|]. destruct a as [|x a]; [congruence|].
        cbn [map app] in Hit. injection Hit as <- _. apply (Ha (t0, p)). left; reflexivity. }
      subst t0. rewrite Ei in Hit.
      assert (Ea : map (pair t) ps = a).
      { apply (span_unique (fun x : tool * text => fst x = t) _ _ _ _ Hit).
        - apply Forall_forall. intros x Hx. apply in_map_iff in Hx as (p & <- & _). reflexivity.
        - apply Forall_forall. exact Ha.
        - intros x l0 El. destruct reqs as [|[t1 ps1] reqs]; [discriminate El|].
          destruct Halt as [Hd _]. cbn [map grp fst] in Hd.
          assert (ps1 <> []) by (apply (Hne (t1, ps1)); right; left; reflexivity).
          destruct ps1 as [|p1 ps1]; [contradiction|]. cbn in El. injection El as <- _. cbn [fst]. intros D; apply Hd; rewrite D; reflexivity.
        - exact Hbh. }
      destruct (exec_one o t ps w l Htb) as (e1 & w1 & l1 & E1 & X1 & Y1 & Hn).
      { intros D; contradiction. }
      { exact Ho. }
      { intros p Hin. apply (Hat (t, p)). rewrite <- Ea. apply in_map, Hin. }
      { intros p w' Hin. destruct (Hrun (command_for root t p) w') as (w'' & E).
        { rewrite <- Ea. unfold command_lines. rewrite map_map. apply in_map_iff. exists p; auto. }
        exists 0%Z, w''. auto. }
      specialize (Hn Hnt). exists e1, w1, l1. 
      change (map grp ((t, ps) :: reqs)) with ((t_name t, map res_of ps) :: map grp reqs).
      cbn [install_groups]. unfold then_. rewrite E1, Hc. 
      destruct e1 as [|e e1]; [destruct ps; [congruence|cbn in Hn; lia]|].
      split; [reflexivity|]. split; [rewrite <- Ea, map_length; exact Hn|].
      rewrite X1, Y1, <- Ea. unfold command_lines. rewrite map_map. split; reflexivity.
    Qed.
  End Ctx.

  (** ** Resolution of the keys *)
  Lemma resolve_all (ctx : context W pydict) os db dk :
    (forall t i, tool_inst t i -> lookup_installer ctx (t_name t) = Some i) ->
    (forall d t rule, preferred os d t rule -> forall key,
         exists i, tool_inst t i /\ choose ctx [] key d = Some (i, rule)) ->
    forall keys reqs, NoDup keys -> Forall2 (wants os db) keys reqs ->
    resolve db dk ctx [] keys false = Ok (combine keys (map grp reqs), []).
  Proof.
    intros L Hyes keys reqs Hnd HF. unfold resolve, lookup_keys. rewrite (remove_duplicates_id keys Hnd). cbn [bind].
    change (install_from_map []) with (@nil (text * text)).
    assert (X : forall acc, foldM (resolve_step db ctx []) keys acc = Ok (fst acc ++ combine keys (map grp reqs), snd acc)).
    { clear Hnd. induction HF as [|key [t ps] keys reqs (d & rule & Hd & Hp & Hr) HF IH]; intros acc.
      - cbn [foldM combine map]. rewrite app_nil_r. destruct acc; reflexivity.
      - cbn [fst snd] in Hp, Hr. destruct (Hyes d t rule Hp key) as (i & Hi & Ec).
        assert (Nd : d <> []) by (intros ->; inversion Hp as [? ? _ G|? ? _ _ G]; rewrite get_nil in G; discriminate G).
        destruct (tool_resolve env root program_installed freeze exists_ isdir makedirs t i Hi) as [Ri Ni] || destruct (tool_resolve env root program_installed freeze t i Hi) as [Ri Ni].
        assert (K : resolve_key db ctx [] key = Ok (inl (grp (t, ps)))).
        { unfold resolve_key. rewrite Hd. destruct d as [|x d]; [contradiction|]. rewrite Ec, Ri, (package_rule_resolves _ _ _ Hr), Ni.
          reflexivity. }
        cbn [foldM]. unfold resolve_step at 1. rewrite K. cbn [bind]. rewrite IH. cbn [fst snd combine map].
        rewrite <- app_assoc. reflexivity. }
    rewrite X. reflexivity.
  Qed.

  Lemma preferred_bundled os d t rule : preferred os d t rule -> bundled_tool t.
  Proof.
    intros H. inversion H as [? ? Hn|]; [|right; right; left; reflexivity]. subst.
    inversion Hn; [right; left; reflexivity|left; reflexivity].
  Qed.

  Lemma wants_bundled os db keys reqs : Forall2 (wants os db) keys reqs -> Forall (fun q => bundled_tool (fst q)) reqs.
  Proof.
    intros H. induction H as [|key q ? ? (d & rule & _ & Hp & _) _ IH]; [constructor|]. constructor; [|exact IH].
    eapply preferred_bundled; exact Hp.
  Qed.
  Lemma wants_length os db keys reqs : Forall2 (wants os db) keys reqs -> List.length keys = List.length reqs.
  Proof. intros H. induction H; [reflexivity|cbn; congruence]. Qed.

  (** ** C105 *)
  Section Claims.
    Variables (c : pydict) (w : W) (b : builtin_os) (v os : text).
    Hypothesis Hc : plain_config c [].
    Hypothesis Hr : runs (f w) b v.
    Hypothesis Hos : os_names b = Some os.
    Variables (db : text -> res pydict) (dk : res (list text)) (keys : list text) (reqs : list (tool * list text)).
    Hypothesis Hnd : NoDup keys.
    Hypothesis Hwants : Forall2 (wants os db) keys reqs.
    (** The tools are installed. *)
    Hypothesis Hex : forall t, In t (map fst reqs) -> program_installed (executable t) w = (Ok true, w).
    (** If pip is used, pip freeze prints these lines. *)
    Variable lines : list text.
    Hypothesis Hfreeze : In t_pip (map fst reqs) -> freeze w = (Ok (join [newline] lines), w) /\ lines <> [] /\
      (forall line, In line lines -> ~ In newline line).
    Hypothesis Heq : forall p, In (t_pip, p) (items reqs) -> ~ In equals_sign p.
    Variable o : options.
    Hypothesis Hre : o_reinstall o = false.

    Lemma end_to_end : exists ctx reqs' l0,
      context_for c w = Ok ctx /\ (forall t i, tool_inst t i -> lookup_installer ctx (t_name t) = Some i) /\
      quiet l0 /\ remaining lines (items reqs) (items reqs') /\ alternating (map grp reqs') /\
      (forall q, In q reqs' -> In (fst q) (map fst reqs) /\ snd q <> []) /\
      Forall (fun q => bundled_tool (fst q)) reqs' /\
      install run ansi ctx o (resolve db dk ctx [] keys false) (w, []) =
          match install_groups run ansi ctx o (map grp reqs') [] (w, l0) with
          | (Ok e, s) => (Ok ([], e), s)
          | (Err e, s) => (Err e, s)
          end.
    Proof.
      destruct (default_choice uni env root program_installed freeze exists_ isdir makedirs f c w b v Hc Hr)
        as (ctx & E & Eo & Ev & L & Hyes & _).
      rewrite Hos in Eo. injection Eo as Eo. rewrite Eo in Hyes.
      assert (Hb : Forall (fun q => bundled_tool (fst q)) reqs).
      { eapply wants_bundled; exact Hwants. }
      assert (Hlen : List.length keys = List.length reqs).
      { eapply wants_length; exact Hwants. }
      destruct (install_reduces ctx L w lines _ Hfreeze o keys reqs Hre Hlen Hb (fun H => H) Heq Hex)
        as (reqs' & l0 & Q & R & A & N & I).
      exists ctx, reqs', l0. split; [exact E|]. split; [exact L|]. split; [exact Q|]. split; [exact R|].
      split; [exact A|]. split; [exact N|]. split.
      - apply Forall_forall. intros q Hq. apply N in Hq as [Hq _]. apply in_map_iff in Hq as (q' & <- & Hq').
        rewrite Forall_forall in Hb. apply Hb, Hq'.
      - rewrite (resolve_all ctx os db dk L Hyes keys reqs Hnd Hwants). exact I.
    Qed.

    (** With --simulate: no error, nothing is executed, the machine is unchanged, and the
        commands shown are exactly the tools' commands for the packages of the keys, in the
        order of the keys, without the pip packages that are already installed. *)
    Theorem C105_simulated : o_simulate o = true -> exists ctx l rest,
      context_for c w = Ok ctx /\
      install run ansi ctx o (resolve db dk ctx [] keys false) (w, []) = (Ok ([], []), (w, l)) /\
      remaining lines (items reqs) rest /\ shown l = command_lines root rest /\ executed l = [].
    Proof.
      intros Ho. destruct end_to_end as (ctx & reqs' & l0 & E & L & Q & R & A & N & Hb & I).
      destruct (simulate_all ctx L o reqs' Hb Ho w l0) as (l' & E' & S' & X').
      exists ctx, (l0 ++ l'), (items reqs'). split; [exact E|]. split; [rewrite I, E'; reflexivity|].
      split; [exact R|]. rewrite shown_app, executed_app, (proj1 Q), (proj2 Q). split; [exact S'|exact X'].
    Qed.

    (** Without --simulate and with --continue-on-error: exactly these commands are executed, in
        this order, each once, if they can be run at all (whatever they return). *)
    Theorem C105_executed_partial :
      ansi = ansi_enabled \/ ansi = ansi_disabled ->
      o_simulate o = false -> o_continue o = true ->
      (In t_pip (map fst reqs) -> forall w, exists out w', freeze w = (Ok out, w')) ->
      (forall x, In x (items reqs) -> ~ In at_ (snd x)) ->
      (forall cmd w', In cmd (command_lines root (items reqs)) -> exists code w'', run cmd w' = (Ok code, w'')) ->
      exists ctx errs w' l rest,
      context_for c w = Ok ctx /\
      install run ansi ctx o (resolve db dk ctx [] keys false) (w, []) = (Ok ([], errs), (w', l)) /\
      remaining lines (items reqs) rest /\ executed l = command_lines root rest /\ shown l = [].
    Proof.
      intros Ha Ho Hco Hf Hat Hrun. destruct end_to_end as (ctx & reqs' & l0 & E & L & Q & R & A & N & Hb & I).
      assert (Sub : forall x, In x (items reqs') -> In x (items reqs)).
      { clear -R. induction R; intros y Hy; [exact Hy|right; auto|destruct Hy as [<-|Hy]; [left; reflexivity|right; auto]]. }
      destruct (exec_all ctx L _ Ha Hf o reqs' Hb) with (all := @nil exn) (w := w) (l := l0) as (errs & w' & l' & E' & X' & Y').
      { intros H. apply in_map_iff in H as (q & Eq & Hq). rewrite <- Eq. apply N, Hq. }
      { exact Ho. }
      { exact Hco. }
      { intros x Hx. apply Hat, Sub, Hx. }
      { intros cmd w' Hin. apply Hrun. unfold command_lines in *. apply in_map_iff in Hin as (x & <- & Hx).
        apply in_map_iff. exists x. split; [reflexivity|apply Sub, Hx]. }
      exists ctx, errs, w', (l0 ++ l'), (items reqs'). split; [exact E|]. split; [rewrite I, E'; reflexivity|].
      split; [exact R|]. rewrite shown_app, executed_app, (proj1 Q), (proj2 Q). split; [exact X'|exact Y'].
    Qed.

    (** Without --continue-on-error, if the first remaining packages [first] are for apt or
        homebrew: although all their commands succeed, at least one error per package is reported
        and the packages of the other tool that follow ([others]) are not installed. *)
    Theorem C105_aborts_refuted first others t :
      ansi = ansi_enabled \/ ansi = ansi_disabled ->
      o_simulate o = false -> o_continue o = false ->
      remaining lines (items reqs) (first ++ others) ->
      first <> [] -> (forall x, In x first -> fst x = t) -> t_name t <> u "pip" ->
      (forall x l, others = x :: l -> fst x <> t) ->
      (forall x, In x first -> ~ In at_ (snd x)) ->
      (forall cmd w', In cmd (command_lines root first) -> exists w'', run cmd w' = (Ok 0%Z, w'')) ->
      exists ctx errs w' l,
      context_for c w = Ok ctx /\
      install run ansi ctx o (resolve db dk ctx [] keys false) (w, []) = (Ok ([], errs), (w', l)) /\
      List.length first <= List.length errs /\ executed l = command_lines root first.
    Proof.
      intros Ha Ho Hco Hrem Hne Hall Hnp Hoth Hat Hrun.
      destruct end_to_end as (ctx & reqs' & l0 & E & L & Q & R & A & N & Hb & I).
      pose proof (remaining_unique _ _ _ _ R Hrem) as Ei.
      assert (Tb : bundled_tool t).
      { destruct first as [|x first]; [congruence|]. rewrite <- (Hall x (or_introl eq_refl)).
        assert (Hx : In x (items reqs')) by (rewrite Ei; left; reflexivity).
        unfold items in Hx. apply in_flat_map in Hx as (q & Hq & Hx). apply in_map_iff in Hx as (p & <- & _).
        rewrite Forall_forall in Hb. apply Hb, Hq. }
      destruct (abort_first ctx L False Ha (fun H => match H with end) o reqs' t first others Hb Ho Hco A) with (w := w) (l := l0)
        as (errs & w' & l' & E' & Hlen & X' & _); try assumption.
      { intros q Hq. apply N, Hq. }
      { intros ->. apply Hnp. reflexivity. }
      exists ctx, errs, w', (l0 ++ l'). split; [exact E|]. split; [rewrite I, E'; reflexivity|].
      split; [exact Hlen|]. rewrite executed_app, (proj1 Q). exact X'.
    Qed.
  End Claims.
End EndToEnd.

(** Non-vacuity: on ubuntu, a user that is not root, keys boost and six, where pip freeze shows
    another package.  With --continue-on-error three commands are executed; without it the last
    one is not, although everything succeeds. *)
Definition ex_freeze (w : machine) : res text * machine := (Ok (join [newline] [u "yaml==3.11"; u "wheel==0.2"]), w).
Definition ex_reqs : list (tool * list text) := [(t_apt, [u "libboost"; u "libboost-dev"]); (t_pip, [u "six"])].

Lemma ex_wants : Forall2 (wants (u "ubuntu") ex_db) [u "boost"; u "six"] ex_reqs.
Proof.
  assert (N : native (u "ubuntu") t_apt) by (constructor; right; left; reflexivity).
  constructor; [|constructor; [|constructor]]; do 2 eexists; (split; [reflexivity|]); split.
  - apply pref_native; [exact N|reflexivity].
  - do 2 eexists. split; [reflexivity|]. split; [reflexivity|left; reflexivity].
  - eapply pref_pip; [exact N|reflexivity|reflexivity].
  - do 2 eexists. split; [reflexivity|]. split; [reflexivity|left; reflexivity].
Unshelve. all: exact [].
Qed.

Lemma ex_remaining : remaining [u "yaml==3.11"; u "wheel==0.2"] (items ex_reqs)
  ([(t_apt, u "libboost"); (t_apt, u "libboost-dev")] ++ [(t_pip, u "six")]).
Proof.
  assert (A : forall p, ~ skipped [u "yaml==3.11"; u "wheel==0.2"] (t_apt, p))
    by (intros p (D & _); vm_compute in D; discriminate D).
  apply rem_keep; [apply A|]. apply rem_keep; [apply A|]. apply rem_keep; [|constructor].
  intros (_ & line & [<-|[<-|[]]] & [D|(x & D)]); vm_compute in D; discriminate D.
Qed.

Example C105_nonvacuous : let env := {| home := fun _ => None; cwd := u "/" |} in
  exists c, load_dict env [] = Ok c /\ plain_config c [] /\ runs ubuntu_machine ubuntu (u "trusty") /\
    os_names ubuntu = Some (u "ubuntu") /\ NoDup [u "boost"; u "six"] /\
    Forall2 (wants (u "ubuntu") ex_db) [u "boost"; u "six"] ex_reqs /\
    (forall p, In (t_pip, p) (items ex_reqs) -> ~ In equals_sign p) /\
    (forall x, In x (items ex_reqs) -> ~ In at_ (snd x)) /\
    remaining [u "yaml==3.11"; u "wheel==0.2"] (items ex_reqs)
      ([(t_apt, u "libboost"); (t_apt, u "libboost-dev")] ++ [(t_pip, u "six")]) /\
    command_lines false (items ex_reqs) =
      [ [u "sudo"; u "apt-get"; u "install"; u "libboost"]; [u "sudo"; u "apt-get"; u "install"; u "libboost-dev"];
        [u "sudo"; u "pip"; u "install"; u "-U"; u "six"] ].
Proof.
  intros env. eexists. split; [vm_compute; reflexivity|].
  split; [unfold plain_config; repeat (split; [reflexivity|]); reflexivity|].
  split; [apply C76_nonvacuous|]. split; [reflexivity|].
  split; [constructor; [intros [D|[]]; vm_compute in D; discriminate D|constructor; [intros []|constructor]]|].
  split; [exact ex_wants|].
  split; [intros p [D|[D|[D|[]]]]; [discriminate (f_equal (fun x => t_root (fst x) && negb (eqb (t_name (fst x)) (u "pip"))) D)..|];
          injection D as <-; vm_compute; intros H; repeat (destruct H as [H|H]; [discriminate H|]); exact H|].
  split; [intros x [<-|[<-|[<-|[]]]]; vm_compute; intros H; repeat (destruct H as [H|H]; [discriminate H|]); exact H|].
  split; [exact ex_remaining|reflexivity].
Qed.

Print Assumptions C105_simulated.
Print Assumptions C105_executed_partial.
Print Assumptions C105_aborts_refuted.
