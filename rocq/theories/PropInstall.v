(** Properties C29-C36, C62, C63: installing.  Vocabulary: InstallSpec.v.  Every run
    starts with the empty log in an arbitrary machine state [w] and ends in the state
    [w'] with the log [l]; [x] is what the call returned or raised. *)
From Verif Require Import Base Dict PyVal Sources Util Terminal TerminalProofs Installer Resolve Install InstallSpec InstallProofs.
From Coq Require Import Lia.
Lemma join_no_at (c : cmd) : (forall t, In t c -> ~ In at_ t) -> ~ In at_ (join (u " ") c).
Proof.
  induction c as [|t c IH]; intros H; [intros []|].
  assert (Ht : ~ In at_ t) by (apply H; left; reflexivity).
  assert (Hc : ~ In at_ (join (u " ") c)) by (apply IH; intros t' Ht'; apply H; right; exact Ht').
  destruct c as [|t' c]; [exact Ht|].
  change (join (u " ") (t :: t' :: c)) with (t ++ u " " ++ join (u " ") (t' :: c)).
  intros Hin; apply in_app_or in Hin; destruct Hin as [Hin|Hin]; [contradiction|].
  apply in_app_or in Hin; destruct Hin as [Hin|Hin]; [|contradiction].
  destruct Hin as [E|[]]; discriminate.
Qed.

Lemma exec_message_fmt d (c : cmd) :
  d = ansi_enabled \/ d = ansi_disabled -> (forall t, In t c -> ~ In at_ t) ->
  exists t, fmt d (exec_message c) = Ok t.
Proof.
  intros Hd Hc.
  destruct (fmt_bold_total d (u "executing command: " ++ join (u " ") c) Hd) as [t Ht].
  - intros Hin; apply in_app_or in Hin; destruct Hin as [Hin|Hin]; [|exact (join_no_at c Hc Hin)].
    cbv in Hin; repeat (destruct Hin as [Hin|Hin]; [discriminate|]); contradiction.
  - exists t; rewrite <- Ht; unfold exec_message; rewrite <- app_assoc; reflexivity.
Qed.

Local Opaque fmt exec_message.

Section Props.
  Context {W R : Type}.
  Variable run : cmd -> act W Z.
  Variable ansi : dict text text.
  Variable cx : context W R.

  Notation st := (W * list (event R))%type.
  Notation io A := (st -> res A * st).
  Notation install := (install run ansi cx).
  Notation install_resolved := (install_resolved run ansi cx).
  Notation install_resolutions := (install_resolutions run ansi cx).
  Notation log := (list (event R)).

  Lemma lookup_In n i : lookup_installer cx n = Some i -> In i (cx_plugins cx) /\ in_name i = n.
  Proof.
    intros H; apply find_some in H; destruct H as [H1 H2]; split; [exact H1|].
    apply (proj1 (eqb_eq _ _)) in H2; exact H2.
  Qed.

  (** * C29 *)
  Theorem C29_simulate_no_command o resolution w x w' l :
    o_simulate o = true ->
    install o resolution (w, []) = (x, (w', l)) -> no_exec l.
  Proof.
    intros Hs H; apply (simulate_install run ansi cx o resolution Hs) in H.
    destruct H as (l' & El & HF); simpl in El; subst l'; apply no_exec_Forall; exact HF.
  Qed.

  (** Queries do not change the machine, and neither do the prerequisite checks when
      not asked to fix anything. *)
  Definition read_only_queries (i : installer W R) : Prop :=
    (forall rs w, snd (in_filter_uninstalled i rs w) = w) /\
    (forall rs a b w, snd (in_commands i rs a b w) = w) /\
    (forall b w, snd (in_check_general i false b w) = w) /\
    (forall rs b w, snd (in_check_install i rs false b w) = w).

  (** A walk through [install] with respect to a reflexive, transitive relation. *)
  Section Walk.
    Variable Q : W -> W -> Prop.
    Hypothesis Qrefl : forall w, Q w w.
    Hypothesis Qtrans : forall a b c, Q a b -> Q b c -> Q a c.
    Variable o : options.
    Hypothesis Hrun : o_simulate o = false -> forall c w, Q w (snd (run c w)).
    Hypothesis Hin : forall i, In i (cx_plugins cx) ->
      (forall w, Q w (snd (in_check_general i (o_fix o) (o_interactive o) w))) /\
      (forall rs w, Q w (snd (in_check_install i rs (o_fix o) (o_interactive o) w))) /\
      (forall rs w, Q w (snd (in_filter_uninstalled i rs w))) /\
      (forall rs w, Q w (snd (in_commands i rs (o_interactive o) (o_reinstall o) w))) /\
      (o_simulate o = false -> forall r w, Q w (snd (in_is_installed i r w))).

    Lemma walk_general names : moves Q (check_general_prerequisites cx names (o_fix o) (o_interactive o)).
    Proof.
      apply moves_each; auto; intros n _; apply moves_with; auto; intros i Hi; apply moves_call.
      apply lookup_In in Hi; apply (Hin i); tauto.
    Qed.
    Lemma walk_pre m : moves Q (check_install_prerequisites cx m (o_fix o) (o_interactive o)).
    Proof.
      apply moves_each; auto; intros n _; apply moves_with; auto; intros i Hi; apply moves_call.
      apply lookup_In in Hi; apply (Hin i); tauto.
    Qed.
    Lemma walk_filter groups : moves Q (uninstalled cx groups).
    Proof.
      unfold uninstalled; apply moves_then; auto;
        [|intros q; apply moves_then; auto; [apply moves_each; auto; intros e _; apply moves_note; auto|intros _; apply moves_ret; auto]].
      induction groups as [|[n rs] g IH]; cbn [filter_uninstalled]; [apply moves_ret; auto|].
      apply moves_with; auto; intros i Hi; apply lookup_In in Hi; apply moves_then; auto.
      - apply moves_catch; auto; [apply moves_call, (Hin i); tauto|intros; apply moves_ret; auto|].
        intros e; apply moves_handle; auto; apply moves_ret; auto.
      - intros p; apply moves_then; auto; intros q; apply moves_ret; auto.
    Qed.
    Lemma walk_run c cmds errs : o_simulate o = false -> moves Q (run_commands (R:=R) run ansi c cmds errs).
    Proof.
      intros Hs; revert errs; induction cmds as [|d ds IH]; intros errs; cbn [run_commands]; [apply moves_ret; auto|].
      apply moves_then; auto; [apply moves_lift; auto|]; intros _.
      apply moves_then; auto; [apply moves_call; auto|]; intros z.
      destruct (Z.eqb z 0); [apply IH|]; destruct c; [apply IH|apply moves_ret; auto].
    Qed.
    Lemma walk_check i n items errs : In i (cx_plugins cx) -> o_simulate o = false ->
      moves Q (check_items i n items errs).
    Proof.
      intros Hi Hs; revert errs; induction items as [|r items IH]; intros errs; cbn [check_items]; [apply moves_ret; auto|].
      apply moves_then; auto.
      apply moves_catch; auto; [apply moves_call, (Hin i); auto|intros; apply moves_ret; auto|].
      intros e; apply moves_handle; auto; apply moves_ret; auto.
    Qed.
    Lemma walk_resolutions n rs : moves Q (install_resolutions o n rs).
    Proof.
      unfold Install.install_resolutions; apply moves_with; auto; intros i Hi; apply lookup_In in Hi.
      apply moves_catch; auto.
      - apply moves_call, (Hin i); tauto.
      - intros [|c cs]; [apply moves_ret; auto|].
        assert (Hb : o_simulate o = true \/ o_simulate o = false) by (destruct (o_simulate o); auto).
        destruct Hb as [Hs|Hs]; rewrite Hs.
        + apply moves_then; auto; [|intros; apply moves_ret; auto].
          apply moves_each; auto; intros d _; apply moves_note; auto.
        + apply moves_then; auto; [apply walk_run; exact Hs|].
          intros [e|e]; [apply moves_ret; auto|apply walk_check; [tauto|exact Hs]].
      - intros e; apply moves_handle; auto; apply moves_raise; auto.
    Qed.
    Lemma walk_groups groups all : moves Q (install_groups run ansi cx o groups all).
    Proof.
      revert all; induction groups as [|[n rs] g IH]; intros all; cbn [install_groups]; [apply moves_ret; auto|].
      apply moves_then; auto; [apply walk_resolutions|].
      intros [|e es]; [apply IH|]; destruct (o_continue o); [apply IH|apply moves_ret; auto].
    Qed.

    Lemma walk_install resolution s x s' : install o resolution s = (x, s') -> Q (fst s) (fst s').
    Proof.
      intros H; apply install_phases in H.
      destruct H as [e Hres|results rerrs Hres Hr Hc|results rerrs e s1 Hres Hr Eg
        |results rerrs s1 Hres Hr Eg Ho|results rerrs s1 e s2 Hres Hr Eg Ho Ef
        |results rerrs s1 resolved uerrs s2 Hres Hr Eg Ho Ef Hu Hc
        |results rerrs s1 resolved uerrs s2 e s3 Hres Hr Eg Ho Ef Hu Ep
        |results rerrs s1 resolved uerrs s2 s3 y s4 Hres Hr Eg Ho Ef Hu Ep Ei];
        auto; apply walk_general in Eg; auto; apply walk_filter in Ef; try (eapply Qtrans; eassumption);
        apply walk_pre in Ep.
      - eapply Qtrans; [exact Eg|]; eapply Qtrans; [exact Ef|exact Ep].
      - apply walk_groups in Ei; eapply Qtrans; [exact Eg|]; eapply Qtrans; [exact Ef|]; eapply Qtrans; [exact Ep|exact Ei].
    Qed.
  End Walk.

  Theorem C29_simulate_changes_nothing o resolution w x w' l :
    o_simulate o = true -> o_fix o = false ->
    (forall i, In i (cx_plugins cx) -> read_only_queries i) ->
    install o resolution (w, []) = (x, (w', l)) -> w' = w.
  Proof.
    intros Hs Hf Hro H.
    apply (walk_install (fun a b => b = a)) in H; [exact H|reflexivity|congruence|congruence|].
    intros i Hi; destruct (Hro i Hi) as (H1 & H2 & H3 & H4); rewrite Hf.
    split; [auto|]; split; [auto|]; split; [auto|]; split; [auto|]; intros D; congruence.
  Qed.

  (** * C30 *)
  (** Proved with the exception of groups for which the installer composes no command:
      for these nothing is checked. *)
  Theorem C30_no_error_done_partial o resolved w w' l :
    o_simulate o = false ->
    install_resolved o resolved (w, []) = (Ok [], (w', l)) ->
    exists groups ls,
      pairs groups = pairs resolved /\
      Forall2 (fun g gl => group_done g gl \/ group_nothing_to_do g gl) groups ls /\
      l = List.concat ls.
  Proof.
    intros Hs H; unfold Install.install_resolved in H.
    apply (install_groups_done run ansi cx) in H; [|exact Hs].
    destruct H as (ls & HF & Hl); exists (squash_resolutions resolved), ls.
    split; [apply squash_pairs|]; split; [exact HF|exact Hl].
  Qed.

  (** In terms of the machine state: *)
  Section Final.
    Variable installed : text -> W -> R -> bool.
    Hypothesis Hfaith : forall i, In i (cx_plugins cx) -> faithful installed i.
    Hypothesis Hkeep : never_uninstalls installed run (cx_plugins cx).

    Lemma keeps_refl w : keeps_installed installed w w.
    Proof. intros n r H; exact H. Qed.
    Lemma keeps_trans a b c : keeps_installed installed a b -> keeps_installed installed b c -> keeps_installed installed a c.
    Proof. intros H1 H2 n r H; auto. Qed.

    Lemma keeps_walk o i : In i (cx_plugins cx) ->
      (forall w, keeps_installed installed w (snd (in_check_general i (o_fix o) (o_interactive o) w))) /\
      (forall rs w, keeps_installed installed w (snd (in_check_install i rs (o_fix o) (o_interactive o) w))) /\
      (forall rs w, keeps_installed installed w (snd (in_filter_uninstalled i rs w))) /\
      (forall rs w, keeps_installed installed w (snd (in_commands i rs (o_interactive o) (o_reinstall o) w))) /\
      (o_simulate o = false -> forall r w, keeps_installed installed w (snd (in_is_installed i r w))).
    Proof.
      intros Hi; destruct (Hfaith i Hi) as (F1 & F2 & F3); destruct Hkeep as (K1 & K2 & K3).
      split; [intros w; apply K2; exact Hi|]; split; [intros rs w; apply K3; exact Hi|].
      split; [intros rs w; rewrite F2; apply keeps_refl|].
      split; [|intros _ r w; rewrite F1; apply keeps_refl].
      intros rs w; destruct (F3 rs (o_interactive o) (o_reinstall o) w) as (cs & -> & _); apply keeps_refl.
    Qed.

    Lemma check_items_installed i n items errs (s : st) errs' (s' : st) :
      In i (cx_plugins cx) -> in_name i = n ->
      check_items i n items errs s = (Ok errs', s') ->
      fst s' = fst s /\ (errs' = [] -> forall r, In r items -> installed n (fst s) r = true).
    Proof.
      intros Hi Hn; destruct (Hfaith i Hi) as (F1 & _); revert errs s.
      induction items as [|r items IH]; intros errs s; cbn [check_items].
      - intros E; injection E as <- <-; split; [reflexivity|intros _ r []].
      - intros H; apply then_inv in H; destruct H as [(e & _ & D)|(es & s1 & E & H)]; [discriminate|].
        unfold catch, call in E; rewrite F1, Hn in E.
        destruct (IH _ _ H) as [Hw Hall].
        destruct (installed n (fst s) r) eqn:Ei; injection E as <- <-; simpl in Hw; split; auto.
        + intros He r' [<-|Hr]; [exact Ei|apply Hall; assumption].
        + intros He; exfalso; apply check_items_Ok in H; destruct H as (answers & _ & _ & H).
          rewrite He in H; destruct errs; discriminate.
    Qed.

    Lemma resolutions_installed o n rs (s s' : st) :
      o_simulate o = false ->
      install_resolutions o n rs s = (Ok [], s') ->
      forall r, In r rs -> installed n (fst s') r = true.
    Proof.
      intros Hs; unfold Install.install_resolutions, with_installer.
      destruct (lookup_installer cx n) as [i|] eqn:Hi; [|discriminate]; apply lookup_In in Hi.
      destruct Hi as [Hi Hn]; destruct (Hfaith i Hi) as (_ & _ & F3).
      unfold catch, call; destruct (F3 rs (o_interactive o) (o_reinstall o) (fst s)) as (cs & -> & Hne).
      destruct cs as [|c cs].
      - intros _ r Hr; exfalso; apply Hne; [|reflexivity]; intros ->; contradiction.
      - rewrite Hs; intros H; apply then_inv in H.
        destruct H as [(e & _ & D)|([errs|errs] & s2 & E & H)]; [discriminate| |].
        + injection H as -> ->; apply run_commands_cases in E; destruct E as (ran & rest & _ & _ & E & _); discriminate E.
        + apply (check_items_installed i n) in H; [|exact Hi|exact Hn]; destruct H as [-> H]; apply H; reflexivity.
    Qed.

    Lemma groups_installed o groups all (s s' : st) :
      o_simulate o = false ->
      install_groups run ansi cx o groups all s = (Ok [], s') ->
      forall n r, In (n, r) (pairs groups) -> installed n (fst s') r = true.
    Proof.
      intros Hs; revert all s; induction groups as [|[m rs] g IH]; intros all s; cbn [install_groups]; [intros _ n r []|].
      intros H; apply then_inv in H; destruct H as [(e & _ & D)|(errs & s1 & E & H)]; [discriminate|].
      assert (Hr : errs = [] /\ install_groups run ansi cx o g (all ++ errs) s1 = (Ok [], s')).
      { assert (Mono : forall gs all s s', install_groups run ansi cx o gs all s = (Ok [], s') ->
                  o_continue o = true -> all = []).
        { clear; induction gs as [|[n rs] gs IH]; intros all s s' H Hc; cbn [install_groups] in H.
          - injection H as <- _; reflexivity.
          - apply then_inv in H; destruct H as [(e & _ & D)|(es & s1 & _ & H)]; [discriminate|].
            rewrite Hc in H; assert (H' : install_groups run ansi cx o gs (all ++ es) s1 = (Ok [], s'))
              by (destruct es; exact H).
            apply IH in H'; [|exact Hc]; apply app_eq_nil in H'; tauto. }
        destruct errs as [|e0 es]; [split; [reflexivity|exact H]|].
        destruct (o_continue o) eqn:Hc; [|discriminate].
        apply Mono in H; [|reflexivity]; apply app_eq_nil in H; destruct H; discriminate. }
      destruct Hr as [-> Hr]; intros n r Hin; unfold pairs in Hin; cbn [flat_map fst snd] in Hin.
      apply in_app_or in Hin; destruct Hin as [Hin|Hin].
      - apply in_map_iff in Hin; destruct Hin as (r' & Er & Hin); injection Er as -> ->.
        apply (resolutions_installed o n rs s s1 Hs E) in Hin.
        apply (walk_groups (keeps_installed installed) keeps_refl keeps_trans o) in Hr; [apply Hr; exact Hin| |apply keeps_walk].
        intros _ c w; apply Hkeep.
      - exact (IH _ _ Hr n r Hin).
    Qed.

    Theorem C30_installed_afterwards o resolved w w' l :
      o_simulate o = false ->
      install_resolved o resolved (w, []) = (Ok [], (w', l)) ->
      forall n rs r, In (n, rs) resolved -> In r rs -> installed n w' r = true.
    Proof.
      intros Hs H n rs r Hg Hr; apply (groups_installed o _ _ _ _ Hs H).
      rewrite squash_pairs; apply pairs_In; eauto.
    Qed.

    Lemma filter_faithful_raw groups (s : st) y (s' : st) :
      filter_uninstalled cx groups s = (y, s') ->
      match y with
      | Ok (resolved, uerrs) =>
        fst s' = fst s /\ uerrs = [] /\
        forall n r, In (n, r) (pairs groups) ->
          installed n (fst s) r = true \/ In (n, r) (pairs resolved)
      | Err _ => True
      end.
    Proof.
      revert s y s'; induction groups as [|[n rs] g IH]; intros s y s'; cbn [filter_uninstalled].
      - intros E; injection E as <- <-; repeat split; intros n r [].
      - unfold with_installer; destruct (lookup_installer cx n) as [i|] eqn:Hi; [|intros E; injection E as <- _; exact I].
        apply lookup_In in Hi; destruct Hi as [Hi Hn].
        intros H; apply then_inv in H; destruct H as [(e & _ & ->)|([rs' er] & s1 & E & H)]; [exact I|].
        apply then_inv in H; destruct H as [(e & _ & ->)|([q uq] & s2 & E2 & H)]; [exact I|].
        destruct (Hfaith i Hi) as (_ & F2 & _).
        unfold catch, call in E; rewrite F2, Hn in E; injection E as <- <- <-.
        apply IH in E2; destruct E2 as (Hw & -> & Hall); injection H as <- <-; cbn [fst snd] in *.
        split; [exact Hw|]; split; [reflexivity|]; intros m r Hin.
        unfold pairs in Hin; cbn [flat_map fst snd] in Hin; apply in_app_or in Hin; destruct Hin as [Hin|Hin].
        + apply in_map_iff in Hin; destruct Hin as (r' & Er & Hin); injection Er as -> ->.
          destruct (installed m (fst s) r) eqn:Em; [left; reflexivity|right].
          rewrite pairs_app; apply in_or_app; left.
          assert (Hf : In r (filter (fun r => negb (installed m (fst s) r)) rs)) by (apply filter_In; rewrite Em; auto).
          destruct (filter (fun r => negb (installed m (fst s) r)) rs); [contradiction|].
          unfold pairs; simpl; rewrite app_nil_r; apply (in_map (pair m) (_ :: _)); exact Hf.
        + destruct (Hall m r Hin) as [H|H]; [left; exact H|right].
          rewrite pairs_app; apply in_or_app; right; exact H.
    Qed.

    Lemma filter_faithful groups (s : st) y (s' : st) :
      uninstalled cx groups s = (y, s') ->
      match y with
      | Ok (resolved, uerrs) =>
        fst s' = fst s /\ uerrs = [] /\
        forall n r, In (n, r) (pairs groups) ->
          installed n (fst s) r = true \/ In (n, r) (pairs resolved)
      | Err _ => True
      end.
    Proof.
      intros H; apply uninstalled_inv in H; destruct H as [(e & -> & _)|(r & ue & s1 & -> & H & ->)]; [exact I|].
      exact (filter_faithful_raw _ _ _ _ H).
    Qed.

    (** For the whole call: unless it stopped because of unresolved keys, everything
        that was resolved is installed when no installation error is returned. *)
    Theorem C30_install_success o results rerrs w x w' l :
      o_simulate o = false -> (rerrs = [] \/ o_continue o = true) ->
      install o (Ok (results, rerrs)) (w, []) = (Ok (x, []), (w', l)) ->
      x = rerrs /\
      forall key n rs r, In (key, (n, rs)) results -> In r rs -> installed n w' r = true.
    Proof.
      intros Hs Hcr H.
      assert (Hok : exists y, y = Ok (x, @nil exn) /\ install o (Ok (results, rerrs)) (w, []) = (y, (w', l))) by eauto.
      clear H; destruct Hok as (z & Hz & H); remember (w', l) as s' eqn:Es'.
      apply install_phases in H.
      destruct H as [e Hres|results' rerrs' Hres Hr Hc|results' rerrs' e s1 Hres Hr Eg
        |results' rerrs' s1 Hres Hr Eg Ho|results' rerrs' s1 e s2 Hres Hr Eg Ho Ef
        |results' rerrs' s1 resolved uerrs s2 Hres Hr Eg Ho Ef Hu Hc
        |results' rerrs' s1 resolved uerrs s2 e s3 Hres Hr Eg Ho Ef Hu Ep
        |results' rerrs' s1 resolved uerrs s2 s3 y s4 Hres Hr Eg Ho Ef Hu Ep Ei];
        try discriminate; injection Hres as <- <-.
      - destruct Hcr; congruence.
      - apply filter_faithful in Ef; destruct Ef as (_ & E & _); congruence.
      - destruct y as [es|e]; [|discriminate]; injection Hz as -> ->; split; [reflexivity|].
        intros key n rs r Hg Hin; subst s4; cbn [fst] in *.
        pose proof (filter_faithful _ _ _ _ Ef) as (Hw & _ & Hall).
        assert (Hp : In (n, r) (pairs (squash_resolutions (map snd results)))).
        { rewrite squash_pairs; apply pairs_In; exists rs; split; [|exact Hin].
          apply in_map_iff; exists (key, (n, rs)); auto. }
        destruct (Hall n r Hp) as [H|H].
        + apply (walk_pre (keeps_installed installed) keeps_refl keeps_trans o) in Ep; [|apply keeps_walk].
          apply (walk_groups (keeps_installed installed) keeps_refl keeps_trans o) in Ei; [|intros _ c v; apply Hkeep|apply keeps_walk].
          apply Ei, Ep; rewrite Hw; exact H.
        + apply (groups_installed o _ _ _ _ Hs Ei); unfold Install.install_resolved; rewrite squash_pairs; exact H.
    Qed.

    (** * C33, third part: a second run executes nothing. *)
    Theorem C33_second_run o o2 results rerrs w x w1 l1 y w2 l2 :
      o_simulate o = false -> (rerrs = [] \/ o_continue o = true) ->
      install o (Ok (results, rerrs)) (w, []) = (Ok (x, []), (w1, l1)) ->
      install o2 (Ok (results, rerrs)) (w1, []) = (y, (w2, l2)) ->
      no_exec l2 /\ (forall p, y = Ok p -> snd p = []).
    Proof.
      intros Hs Hcr H1 H2; apply C30_install_success in H1; [|exact Hs|exact Hcr].
      destruct H1 as [_ Hall].
      assert (Hpairs : forall n r, In (n, r) (pairs (squash_resolutions (map snd results))) -> installed n w1 r = true).
      { intros n r Hin; rewrite squash_pairs in Hin; apply pairs_In in Hin; destruct Hin as (rs & Hg & Hr).
        apply in_map_iff in Hg; destruct Hg as ([key g] & Eg & Hg); simpl in Eg; subst g; eauto. }
      remember (w1, @nil (event R)) as s0 eqn:Es0; remember (w2, l2) as s9 eqn:Es9.
      apply install_phases in H2.
      destruct H2 as [e Hres|results' rerrs' Hres Hr Hc|results' rerrs' e s1 Hres Hr Eg
        |results' rerrs' s1 Hres Hr Eg Ho|results' rerrs' s1 e s2 Hres Hr Eg Ho Ef
        |results' rerrs' s1 resolved uerrs s2 Hres Hr Eg Ho Ef Hu Hc
        |results' rerrs' s1 resolved uerrs s2 e s3 Hres Hr Eg Ho Ef Hu Ep
        |results' rerrs' s1 resolved uerrs s2 s3 z s4 Hres Hr Eg Ho Ef Hu Ep Ei];
        try discriminate; injection Hres as <- <-.
      - rewrite Es0 in Es9; injection Es9 as _ <-; split; [intros ? ? []|intros p E; injection E as <-; reflexivity].
      - apply logs_general in Eg; destruct Eg as (lg & El & HF); subst s0 s1; simpl in El; subst l2.
        split; [apply no_exec_Forall; exact HF|discriminate].
      - apply logs_general in Eg; destruct Eg as (lg & El & HF); subst s0 s1; simpl in El; subst l2.
        split; [apply no_exec_Forall; exact HF|discriminate].
      - apply logs_general in Eg; destruct Eg as (lg & El & HF).
        apply (logs_filter cx (fun e => is_exec e = false)) in Ef; [|reflexivity|reflexivity].
        destruct Ef as (lf & El2 & HF2); subst s2 s0; simpl in El, El2; subst l2.
        split; [apply no_exec_app; split; apply no_exec_Forall; [rewrite El|]; assumption|discriminate].
      - apply filter_faithful in Ef; destruct Ef as (_ & E & _); congruence.
      - pose proof (filter_faithful _ _ _ _ Ef) as (Hw & _ & _).
        apply logs_general in Eg; destruct Eg as (lg & El & HF).
        apply (logs_filter cx (fun e => is_exec e = false)) in Ef; [|reflexivity|reflexivity].
        destruct Ef as (lf & El2 & HF2).
        apply logs_install_pre in Ep; destruct Ep as (lp & El3 & HF3); subst s3 s0; simpl in El, El2, El3; subst l2.
        split; [|discriminate].
        rewrite El2, El; apply no_exec_app; split; [apply no_exec_app; split|]; apply no_exec_Forall; assumption.
      - assert (Hres : resolved = []).
        { assert (K : keeps_installed installed (fst s0) (fst s1)).
          { apply (walk_general (keeps_installed installed) keeps_refl keeps_trans o2) in Eg; [exact Eg|apply keeps_walk]. }
          assert (Hall1 : forall n r, In (n, r) (pairs (squash_resolutions (map snd results))) -> installed n (fst s1) r = true).
          { intros n r Hin; apply K; subst s0; apply Hpairs; exact Hin. }
          apply uninstalled_inv in Ef; destruct Ef as [(e & D & _)|(r0 & ue0 & s20 & Eq & Ef & _)]; [discriminate|].
          injection Eq as <- <-; clear s2 Ei Hu Ep; rename s20 into s2; clear - Ef Hall1 Hfaith.
          revert s1 s2 resolved uerrs Ef Hall1; generalize (squash_resolutions (map snd results)) as groups.
          induction groups as [|[n rs] g IH]; intros s1 s2 resolved uerrs Ef Hall1; cbn [filter_uninstalled] in Ef.
          - injection Ef as <- _ _; reflexivity.
          - unfold with_installer in Ef; destruct (lookup_installer cx n) as [i|] eqn:Hi; [|discriminate].
            apply lookup_In in Hi; destruct Hi as [Hi Hn].
            apply then_inv in Ef; destruct Ef as [(e & _ & D)|([rs' er] & s2' & E & Ef)]; [discriminate|].
            apply then_inv in Ef; destruct Ef as [(e & _ & D)|([q uq] & s3' & E2 & Ef)]; [discriminate|].
            destruct (Hfaith i Hi) as (_ & F2 & _).
            unfold catch, call in E; rewrite F2, Hn in E; injection E as <- <- <-.
            assert (Hf : filter (fun r => negb (installed n (fst s1) r)) rs = []).
            { assert (X : forall r, In r rs -> installed n (fst s1) r = true).
              { intros r Hr; apply Hall1; apply pairs_In; exists rs; split; [left; reflexivity|exact Hr]. }
              clear - X; induction rs as [|r rs IH]; [reflexivity|]; simpl.
              rewrite X by (left; reflexivity); simpl; apply IH; intros r' H; apply X; right; exact H. }
            rewrite Hf in Ef; injection Ef as <- _ _; simpl.
            eapply IH; [exact E2|]; simpl; intros m r Hin; apply Hall1.
            unfold pairs; cbn [flat_map]; apply in_or_app; right; exact Hin. }
        subst resolved; injection Ei as <- <-.
        split; [|intros p E; injection E as <-; reflexivity].
        apply logs_general in Eg; destruct Eg as (lg & El & HF).
        apply (logs_filter cx (fun e => is_exec e = false)) in Ef; [|reflexivity|reflexivity].
        destruct Ef as (lf & El2 & HF2).
        apply logs_install_pre in Ep; destruct Ep as (lp & El3 & HF3); subst s3 s0; simpl in El, El2, El3; subst l2.
        rewrite El2, El; apply no_exec_app; split; [apply no_exec_app; split|]; apply no_exec_Forall; assumption.
    Qed.
  End Final.

  (** * C31 *)
  Lemma install_app o resolution w x w' l :
    install o resolution (w, []) = (x, (w', l)) ->
    exists lg lf lp li, l = lg ++ lf ++ lp ++ li /\
      Forall isG lg /\ Forall isF lf /\ Forall isP lp /\ Forall isI li /\
      (li = [] \/
       exists results rerrs resolved (uerrs : list exn) (s3 : st) (y : res (list exn)),
         resolution = Ok (results, rerrs) /\ (rerrs = [] \/ o_continue o = true) /\
         o_reinstall o = false /\
         (forall n, In n (map fst (map snd results)) -> In (EGeneral n (Ok tt)) lg) /\
         pairs resolved = flat_map kept lf /\ (forall g, In g resolved -> snd g <> []) /\
         (uerrs <> [] <-> filter_failed lf) /\ (uerrs = [] \/ o_continue o = true) /\
         (forall n rs, In (n, rs) (map_resolutions resolved) -> In (EInstallPre n rs (Ok tt)) lp) /\
         install_resolved o resolved s3 = (y, (w', l)) /\ l = snd s3 ++ li /\
         x = match y with Ok es => Ok (rerrs, es) | Err e => Err e end).
  Proof. intros H; apply install_log in H; exact H. Qed.

  Lemma isF_no_pre_exec (lg lf lp : log) : Forall isG lg -> Forall isF lf -> Forall isP lp -> no_exec (lg ++ lf ++ lp).
  Proof.
    intros H1 H2 H3; apply no_exec_app; split; [apply (isG_no_exec); exact H1|].
    apply no_exec_app; split; [apply (isF_no_exec); exact H2|apply (isP_no_exec); exact H3].
  Qed.

  Theorem C31_stops_at_failure o resolution w x w' l :
    o_continue o = false ->
    install o resolution (w, []) = (x, (w', l)) -> stops_at_failure l.
  Proof.
    intros Hc H; pose proof H as H0; apply install_app in H.
    destruct H as (lg & lf & lp & li & -> & HG & HF & HP & HI & HX).
    assert (Hpre : no_exec (lg ++ lf ++ lp)) by (apply isF_no_pre_exec; assumption).
    assert (E : lg ++ lf ++ lp ++ li = (lg ++ lf ++ lp) ++ li) by (rewrite <- !app_assoc; reflexivity).
    rewrite E in *; clear E; apply stops_app_good; [apply no_exec_good; exact Hpre|].
    destruct HX as [->|(results & rerrs & resolved & uerrs & s3 & y & _ & _ & _ & _ & _ & _ & _ & _ & _ & Hi & Hl & _)].
    { apply stops_good; constructor. }
    destruct (o_simulate o) eqn:Hs.
    - apply stops_good, no_exec_good.
      apply (C29_simulate_no_command o resolution w) in H0; [|exact Hs].
      apply no_exec_app in H0; tauto.
    - apply (install_groups_stops run ansi cx) in Hi; [|exact Hs|exact Hc].
      destruct Hi as (l2 & Hl2 & Hst); cbn [snd] in Hl2; rewrite Hl in Hl2; apply app_inv_head in Hl2; subst l2; exact Hst.
  Qed.

  Theorem C31_continues o resolution w p w' l :
    o_continue o = true -> o_simulate o = false ->
    install o resolution (w, []) = (Ok p, (w', l)) -> executed l = composed l.
  Proof.
    intros Hc Hs H; apply install_app in H.
    destruct H as (lg & lf & lp & li & -> & HG & HF & HP & HI & HX).
    assert (Hpre : no_exec (lg ++ lf ++ lp)) by (apply isF_no_pre_exec; assumption).
    rewrite !executed_app, !composed_app.
    rewrite (executed_no_exec lg), (executed_no_exec lf), (executed_no_exec lp);
      [|apply (isP_no_exec); assumption|apply (isF_no_exec); assumption|apply (isG_no_exec); assumption].
    rewrite (proj1 (composed_no lg (isG_no_compose lg HG))), (proj1 (composed_no lf (isF_no_compose lf HF))),
            (proj1 (composed_no lp (isP_no_compose lp HP))); simpl.
    destruct HX as [->|(results & rerrs & resolved & uerrs & s3 & y & _ & _ & _ & _ & _ & _ & _ & _ & _ & Hi & Hl & Hx)]; [reflexivity|].
    apply install_groups_requests in Hi; destruct Hi as (l2 & rest & Hl2 & _ & _ & He & _).
    cbn [snd] in Hl2; rewrite Hl in Hl2; apply app_inv_head in Hl2; subst l2.
    apply He; [exact Hs|exact Hc|]; destruct y; [eauto|discriminate].
  Qed.

  (** * C32 *)
  Theorem C32_squash (groups : list (text * list R)) :
    pairs (squash_resolutions groups) = pairs groups /\
    alternating (squash_resolutions groups) /\
    squash_resolutions (squash_resolutions groups) = squash_resolutions groups.
  Proof.
    split; [apply squash_pairs|]; split; [apply squash_from_alternating|].
    apply squash_id, squash_from_alternating.
  Qed.

  (** The per-installer map handed to the prerequisite checks. *)
  Theorem C32_map (groups : list (text * list R)) :
    NoDup (keys (map_resolutions groups)) /\
    forall n, get n (map_resolutions groups) =
      if mem n (map fst groups)
      then Some (flat_map (fun g => if eqb (fst g) n then snd g else []) groups) else None.
  Proof.
    unfold map_resolutions.
    assert (X : forall l (m : dict text (list R)), NoDup (keys m) ->
      NoDup (keys (fold_left (fun m p => set (fst p) (match get (fst p) m with Some l => l | None => [] end ++ snd p) m) l m)) /\
      forall n, get n (fold_left (fun m p => set (fst p) (match get (fst p) m with Some l => l | None => [] end ++ snd p) m) l m) =
        if mem n (map fst l)
        then Some (match get n m with Some v => v | None => [] end ++ flat_map (fun g => if eqb (fst g) n then snd g else []) l)
        else get n m).
    { induction l as [|[k rs] l IH]; intros m Hm; cbn [fold_left fst snd].
      - split; [exact Hm|]; intros n; reflexivity.
      - destruct (IH (set k (match get k m with Some l => l | None => [] end ++ rs) m)) as [H1 H2]; [apply wf_set; exact Hm|].
        split; [exact H1|]; intros n; rewrite H2; cbn [map mem fst flat_map snd]; rewrite get_set.
        destruct (eqb_spec n k) as [->|Hn]; cbn [orb].
        + destruct (eqb_spec k k) as [_|D]; [|congruence].
          destruct (mem k (map fst l)) eqn:Em; rewrite <- ?app_assoc; [reflexivity|].
          assert (F : flat_map (fun g : text * list R => if eqb (fst g) k then snd g else []) l = []).
          { clear - Em; induction l as [|[j js] l IH]; [reflexivity|]; cbn [map mem fst] in Em.
            apply orb_false_iff in Em; destruct Em as [E1 E2]; cbn [flat_map fst snd].
            destruct (eqb_spec j k) as [->|_]; [destruct (eqb_spec k k) in E1; [discriminate|congruence]|apply IH, E2]. }
          rewrite F, app_nil_r; reflexivity.
        + destruct (eqb_spec k n) as [->|_]; [congruence|reflexivity]. }
    destruct (X groups []) as [H1 H2]; [constructor|]; split; [exact H1|]; intros n; rewrite H2; reflexivity.
  Qed.

  (** * C33 *)
  Theorem C33_only_uninstalled o resolution w x w' l n r :
    install o resolution (w, []) = (x, (w', l)) ->
    In (n, r) (compose_requests l) ->
    In (n, r) (reported_uninstalled l) \/
    (o_continue o = true /\ exists rs e, In (EFilter n rs (Err e)) l /\ In r rs).
  Proof.
    intros H Hin; apply install_app in H.
    destruct H as (lg & lf & lp & li & -> & HG & HF & HP & HI & HX).
    rewrite !compose_requests_app in Hin.
    rewrite (proj2 (composed_no lg (isG_no_compose lg HG))), (proj2 (composed_no lf (isF_no_compose lf HF))),
            (proj2 (composed_no lp (isP_no_compose lp HP))) in Hin; simpl in Hin.
    destruct HX as [->|(results & rerrs & resolved & uerrs & s3 & y & _ & _ & _ & _ & Hp & _ & Hf & Hu & _ & Hi & Hl & _)]; [contradiction|].
    apply install_groups_requests in Hi; destruct Hi as (l2 & rest & Hl2 & Hr & _).
    cbn [snd] in Hl2; rewrite Hl in Hl2; apply app_inv_head in Hl2; subst l2.
    rewrite squash_pairs in Hr.
    assert (Hk : In (n, r) (flat_map kept lf)) by (rewrite <- Hp, Hr; apply in_or_app; left; exact Hin).
    apply in_flat_map in Hk; destruct Hk as (ev & Hev & Hk).
    assert (Hev' : In ev (lg ++ lf ++ lp ++ li)) by (apply in_or_app; right; apply in_or_app; left; exact Hev).
    destruct ev as [| |m rs [rs'|e]| | | | |]; simpl in Hk; try contradiction;
      apply in_map_iff in Hk; destruct Hk as (r' & E & Hr'); injection E as -> ->.
    - left; unfold reported_uninstalled; apply in_flat_map; eexists; split; [exact Hev'|]; simpl.
      apply in_map; exact Hr'.
    - right; split; [|exists rs, e; auto].
      destruct Hu as [->|Hc]; [|exact Hc]; exfalso.
      apply (proj2 Hf); [|reflexivity]; exists n, rs, e; exact Hev.
  Qed.

  Theorem C33_all_installed o resolution w x w' l :
    install o resolution (w, []) = (x, (w', l)) ->
    (forall n rs y, In (EFilter n rs y) l -> y = Ok []) ->
    no_exec l /\ (forall rerrs es, x = Ok (rerrs, es) -> es = []).
  Proof.
    intros H Hall; pose proof H as H0; apply install_app in H.
    destruct H as (lg & lf & lp & li & -> & HG & HF & HP & HI & HX).
    assert (Hpre : no_exec (lg ++ lf ++ lp)) by (apply isF_no_pre_exec; assumption).
    destruct HX as [->|(results & rerrs & resolved & uerrs & s3 & y & _ & _ & _ & _ & Hp & Hn & _ & _ & _ & Hi & Hl & Hx)].
    - rewrite app_nil_r; split; [exact Hpre|].
      intros rerrs es ->; apply install_phases in H0.
      remember (Ok (rerrs, es)) as z eqn:Ez.
      remember (w', lg ++ lf ++ lp ++ []) as s9 eqn:Es9.
      destruct H0 as [e Hres|results' rerrs' Hres Hr Hc|results' rerrs' e s1 Hres Hr Eg
        |results' rerrs' s1 Hres Hr Eg Ho|results' rerrs' s1 e s2 Hres Hr Eg Ho Ef
        |results' rerrs' s1 resolved uerrs s2 Hres Hr Eg Ho Ef Hu Hc
        |results' rerrs' s1 resolved uerrs s2 e s3 Hres Hr Eg Ho Ef Hu Ep
        |results' rerrs' s1 resolved uerrs s2 s3 y s4 Hres Hr Eg Ho Ef Hu Ep Ei];
        try discriminate; try (injection Ez as _ <-; reflexivity).
      destruct y as [es'|e]; [|discriminate]; injection Ez as _ ->.
      apply filter_uninstalled_Ok in Ef; destruct Ef as (lf2 & El2 & _ & Hp & Hn & _).
      apply general_log in Eg; destruct Eg as (lg2 & El1 & _).
      apply pre_log in Ep; destruct Ep as (lp2 & El3 & _).
      pose proof Ei as Ei'; apply install_groups_requests in Ei'; destruct Ei' as (li2 & rest & El4 & _).
      assert (El : lg ++ lf ++ lp ++ [] = lg2 ++ lf2 ++ lp2 ++ li2).
      { subst s4; simpl in El1, El4; rewrite El4, El3, El2, El1; rewrite <- !app_assoc; reflexivity. }
      assert (Hk : flat_map kept lf2 = []).
      { assert (Hin : forall ev, In ev lf2 -> kept ev = []).
        { intros ev Hev; destruct ev as [| |m rs z| | | | |]; try reflexivity.
          rewrite (Hall m rs z); [reflexivity|]; rewrite El; apply in_or_app; right; apply in_or_app; left; exact Hev. }
        clear - Hin; induction lf2 as [|ev lf2 IH]; [reflexivity|]; simpl.
        rewrite (Hin ev) by (left; reflexivity); apply IH; intros e He; apply Hin; right; exact He. }
      rewrite Hk in Hp; destruct resolved as [|g resolved].
      + injection Ei as <- _; reflexivity.
      + exfalso; apply (Hn g); [left; reflexivity|]; destruct g as [m rs]; unfold pairs in Hp; simpl in Hp.
        apply app_eq_nil in Hp; destruct Hp as [Hp _]; apply map_eq_nil in Hp; exact Hp.
    - assert (Hk : flat_map kept lf = []).
      { assert (Hin : forall ev, In ev lf -> kept ev = []).
        { intros ev Hev; destruct ev as [| |m rs z| | | | |]; try reflexivity.
          rewrite (Hall m rs z); [reflexivity|]; apply in_or_app; right; apply in_or_app; left; exact Hev. }
        clear - Hin; induction lf as [|ev lf2 IH]; [reflexivity|]; simpl.
        rewrite (Hin ev) by (left; reflexivity); apply IH; intros e He; apply Hin; right; exact He. }
      rewrite Hk in Hp; destruct resolved as [|g resolved].
      + injection Ei as <- Es3 || injection Hi as <- Es3.
        split; [|intros r es E; rewrite Hx in E; injection E as _ <-; reflexivity].
        rewrite Es3 in Hl; cbn [snd] in Hl.
        assert (li = []) as ->.
        { symmetry; eapply app_inv_head; rewrite app_nil_r; exact Hl. }
        rewrite app_nil_r; exact Hpre.
      + exfalso; apply (Hn g); [left; reflexivity|]; destruct g as [m rs]; unfold pairs in Hp; simpl in Hp.
        apply app_eq_nil in Hp; destruct Hp as [Hp _]; apply map_eq_nil in Hp; exact Hp.
  Qed.

  (** * C34 *)
  (** Proved: nothing is executed or even composed.  Missing: an error is returned. *)
  Theorem C34_nothing_installed_partial o resolution w x w' l :
    o_continue o = false -> filter_failed l ->
    install o resolution (w, []) = (x, (w', l)) ->
    no_exec l /\ compose_requests l = [].
  Proof.
    intros Hc (n & rs & e & Hin) H; apply install_app in H.
    destruct H as (lg & lf & lp & li & -> & HG & HF & HP & HI & HX).
    assert (Hlf : In (EFilter n rs (Err e)) lf).
    { repeat (apply in_app_or in Hin; destruct Hin as [Hin|Hin]); try exact Hin; exfalso;
        [rewrite Forall_forall in HG; exact (HG _ Hin)|rewrite Forall_forall in HP; exact (HP _ Hin)
        |rewrite Forall_forall in HI; exact (HI _ Hin)]. }
    destruct HX as [->|(results & rerrs & resolved & uerrs & s3 & y & _ & _ & _ & _ & _ & _ & Hf & Hu & _)].
    - rewrite app_nil_r; split; [apply isF_no_pre_exec; assumption|].
      rewrite !compose_requests_app.
      rewrite (proj2 (composed_no lg (isG_no_compose lg HG))), (proj2 (composed_no lf (isF_no_compose lf HF))),
              (proj2 (composed_no lp (isP_no_compose lp HP))); reflexivity.
    - exfalso; destruct Hu as [->|Hu]; [|congruence].
      apply (proj2 Hf); [|reflexivity]; exists n, rs, e; exact Hlf.
  Qed.

  (** Whenever that happens and the call returns, it returns no error at all: neither
      for keys nor for installations. *)
  Theorem C34_swallowed_refuted o resolution w rerrs es w' l :
    o_continue o = false -> filter_failed l ->
    install o resolution (w, []) = (Ok (rerrs, es), (w', l)) ->
    rerrs = [] /\ es = [].
  Proof.
    intros Hc Hff H.
    remember (Ok (rerrs, es)) as z eqn:Ez; remember (w', l) as s9 eqn:Es9.
    apply install_phases in H.
    destruct H as [e Hres|results' rerrs' Hres Hr Hc'|results' rerrs' e s1 Hres Hr Eg
        |results' rerrs' s1 Hres Hr Eg Ho|results' rerrs' s1 e s2 Hres Hr Eg Ho Ef
        |results' rerrs' s1 resolved uerrs s2 Hres Hr Eg Ho Ef Hu Hc'
        |results' rerrs' s1 resolved uerrs s2 e s3 Hres Hr Eg Ho Ef Hu Ep
        |results' rerrs' s1 resolved uerrs s2 s3 y s4 Hres Hr Eg Ho Ef Hu Ep Ei]; try discriminate.
    - injection Es9 as _ <-; destruct Hff as (n & rs & e & []).
    - injection Ez as <- <-; split; [|reflexivity]; destruct Hr; [assumption|congruence].
    - exfalso; destruct Hu as [->|Hu]; [|congruence].
      apply general_log in Eg; destruct Eg as (lg & El1 & HG & _).
      apply filter_uninstalled_Ok in Ef; destruct Ef as (lf & El2 & _ & _ & _ & _ & _ & Hf).
      apply pre_log in Ep; destruct Ep as (lp & El3 & HP & _).
      apply install_groups_requests in Ei; destruct Ei as (li & rest & El4 & _ & _ & _ & HI).
      destruct Hff as (n & rs & e & Hin).
      assert (El : l = lg ++ lf ++ lp ++ li).
      { subst s4; simpl in El1, El4; rewrite El4, El3, El2, El1; rewrite <- !app_assoc; reflexivity. }
      rewrite El in Hin.
      assert (Hlf : In (EFilter n rs (Err e)) lf).
      { repeat (apply in_app_or in Hin; destruct Hin as [Hin|Hin]); try exact Hin; exfalso;
        [rewrite Forall_forall in HG; exact (HG _ Hin)|rewrite Forall_forall in HP; exact (HP _ Hin)
        |rewrite Forall_forall in HI; exact (HI _ Hin)]. }
      apply (proj2 Hf); [exists n, rs, e; exact Hlf|reflexivity].
  Qed.

  Lemma failed_checks_app (a b : log) : failed_checks (a ++ b) = failed_checks a ++ failed_checks b.
  Proof. apply flat_map_app. Qed.
  Lemma printed_errors_app (a b : log) : printed_errors (a ++ b) = printed_errors a ++ printed_errors b.
  Proof. apply flat_map_app. Qed.
  Lemma no_checks (P : event R -> Prop) (l : log) : Forall P l ->
    (forall e, P e -> match e with EFilter _ _ _ | EReport _ => False | _ => True end) ->
    failed_checks l = [] /\ printed_errors l = [].
  Proof.
    intros H HP; induction H as [|e l He _ [IH1 IH2]]; [split; reflexivity|].
    unfold failed_checks, printed_errors in *; cbn [flat_map]; rewrite IH1, IH2; apply HP in He; destruct e; tauto.
  Qed.
  Lemma filter_errors groups (s : st) resolved uerrs (s' : st) :
    filter_uninstalled cx groups s = (Ok (resolved, uerrs), s') ->
    exists l, snd s' = snd s ++ l /\ uerrs = map (fun _ => InstallError) (failed_checks l) /\ printed_errors l = [].
  Proof.
    clear run ansi; revert s resolved uerrs; induction groups as [|[n rs] l IH]; intros s resolved uerrs; cbn [filter_uninstalled].
    - intros E; injection E as <- <- <-; exists []; rewrite app_nil_r; repeat split; reflexivity.
    - unfold with_installer; destruct (lookup_installer cx n) as [i|]; [|discriminate].
      intros H; apply then_inv in H; destruct H as [(e & _ & D)|([rs' er] & s1 & E & H)]; [discriminate|].
      apply then_inv in H; destruct H as [(e & _ & D)|([q uq] & s2 & E2 & H)]; [discriminate|].
      injection H as <- <- <-; cbn [fst snd].
      destruct (IH _ _ _ E2) as (l2 & Hl & -> & Hpr).
      unfold catch, call in E; destruct (in_filter_uninstalled i rs (fst s)) as [y w].
      assert (X : s1 = (w, snd s ++ [EFilter n rs y]) /\ er = match y with Ok _ => [] | Err _ => [InstallError] end).
      { destruct y as [a|e]; [injection E as <- <- <-; split; reflexivity|].
        unfold handle in E; destruct (is_InstallerError e) eqn:Ee; [injection E as <- <- <-; split; reflexivity|].
        destruct (is_Exception e); discriminate. }
      destruct X as [-> ->]; exists (EFilter n rs y :: l2).
      split; [rewrite Hl; cbn [snd]; rewrite <- app_assoc; reflexivity|].
      split; [|exact Hpr]; destruct y; reflexivity.
  Qed.

  (** What is printed in the meantime: for each installer that could not tell, one message, and each message shows
      the whole list of these errors. *)
  Theorem C34_printed o resolution w z w' l :
    install o resolution (w, []) = (Ok z, (w', l)) ->
    let errors := map (fun _ => InstallError) (failed_checks l) in
    printed_errors l = map (fun _ => errors) errors.
  Proof.
    intros H; cbv zeta; remember (Ok z) as z' eqn:Ez; remember (w', l) as s9 eqn:Es9.
    apply install_phases in H.
    assert (G : forall names a b (s : st) x (s' : st), check_general_prerequisites cx names a b s = (x, s') ->
              exists lg, snd s' = snd s ++ lg /\ failed_checks lg = [] /\ printed_errors lg = []).
    { intros names a b s x s' E; apply general_log in E; destruct E as (lg & El & HG & _); exists lg; split; [exact El|].
      apply (no_checks isG); [exact HG|]; intros e He; destruct e; tauto. }
    assert (F : forall groups (s : st) r ue (s' : st), uninstalled cx groups s = (Ok (r, ue), s') ->
              exists lf, snd s' = snd s ++ lf /\
                printed_errors lf = map (fun _ => map (fun _ => InstallError) (failed_checks lf)) (map (fun _ => InstallError) (failed_checks lf))).
    { intros groups s r ue s' E; apply uninstalled_inv in E; destruct E as [(e & D & _)|(r' & ue' & s1 & E & E' & ->)]; [discriminate|].
      injection E as <- <-; apply filter_errors in E'; destruct E' as (lf & El & -> & Hp).
      exists (lf ++ map (fun _ => EReport (map (fun _ => InstallError) (failed_checks lf))) (map (fun _ => InstallError) (failed_checks lf))).
      split; [cbn [snd]; rewrite El, app_assoc; reflexivity|].
      rewrite failed_checks_app, printed_errors_app, Hp; cbn [app].
      assert (X : forall (es : list exn) (k : list exn), failed_checks (map (fun _ => EReport (R:=R) es) k) = [] /\
                printed_errors (map (fun _ => EReport (R:=R) es) k) = map (fun _ => es) k).
      { intros es k; induction k as [|e k [IH1 IH2]]; [split; reflexivity|].
        unfold failed_checks, printed_errors in *; cbn [map flat_map]; rewrite IH1, IH2; split; reflexivity. }
      rewrite (proj1 (X _ _)), (proj2 (X _ _)), app_nil_r; reflexivity. }
    destruct H as [e Hres|results' rerrs' Hres Hr Hc'|results' rerrs' e s1 Hres Hr Eg
        |results' rerrs' s1 Hres Hr Eg Ho|results' rerrs' s1 e s2 Hres Hr Eg Ho Ef
        |results' rerrs' s1 resolved uerrs s2 Hres Hr Eg Ho Ef Hu Hc'
        |results' rerrs' s1 resolved uerrs s2 e s3 Hres Hr Eg Ho Ef Hu Ep
        |results' rerrs' s1 resolved uerrs s2 s3 y s4 Hres Hr Eg Ho Ef Hu Ep Ei]; try discriminate.
    - injection Es9 as _ <-; reflexivity.
    - apply G in Eg; destruct Eg as (lg & El1 & G1 & G2); apply F in Ef; destruct Ef as (lf & El2 & HF).
      assert (El : l = lg ++ lf) by (subst s2; cbn [snd] in El2; rewrite El2, El1; reflexivity).
      rewrite El, failed_checks_app, printed_errors_app, G1, G2; exact HF.
    - apply G in Eg; destruct Eg as (lg & El1 & G1 & G2); apply F in Ef; destruct Ef as (lf & El2 & HF).
      apply pre_log in Ep; destruct Ep as (lp & El3 & HP & _).
      apply install_groups_requests in Ei; destruct Ei as (li & rest & El4 & _ & _ & _ & HI).
      assert (El : l = lg ++ lf ++ lp ++ li).
      { subst s4; cbn [snd] in El1, El4; rewrite El4, El3, El2, El1; rewrite <- !app_assoc; reflexivity. }
      destruct (no_checks isP lp HP) as [P1 P2]; [intros e He; destruct e; tauto|].
      destruct (no_checks isI li HI) as [I1 I2]; [intros e He; destruct e; tauto|].
      rewrite El, !failed_checks_app, !printed_errors_app, G1, G2, P1, P2, I1, I2, !app_nil_r; exact HF.
  Qed.

  (** * C35 *)
  (** A call with reinstall never gets beyond resolving: it composes and executes
      nothing, and when the keys are resolved and the general prerequisites are met it
      raises UnboundLocalError. *)
  Theorem C35_reinstall_refuted o resolution w x w' l :
    o_reinstall o = true ->
    install o resolution (w, []) = (x, (w', l)) ->
    no_exec l /\ compose_requests l = [] /\
    (forall results, resolution = Ok (results, []) ->
       (forall n y, In (EGeneral n y) l -> y = Ok tt) ->
       (forall key n rs, In (key, (n, rs)) results -> lookup_installer cx n <> None) ->
       x = Err UnboundLocalError).
  Proof.
    intros Ho H; pose proof H as H0; apply install_app in H0.
    destruct H0 as (lg & lf & lp & li & El & HG & HF & HP & HI & HX).
    assert (li = []) as ->.
    { destruct HX as [->|(results & rerrs & resolved & uerrs & s3 & y & _ & _ & D & _)]; [reflexivity|congruence]. }
    rewrite app_nil_r in El; split; [subst l; apply isF_no_pre_exec; assumption|]; split.
    { subst l; rewrite !compose_requests_app.
      rewrite (proj2 (composed_no lg (isG_no_compose lg HG))), (proj2 (composed_no lf (isF_no_compose lf HF))),
              (proj2 (composed_no lp (isP_no_compose lp HP))); reflexivity. }
    intros results Hres Hgen Hknown.
    remember (w', l) as s9 eqn:Es9; apply install_phases in H.
    destruct H as [e Hres'|results' rerrs' Hres' Hr Hc'|results' rerrs' e s1 Hres' Hr Eg
        |results' rerrs' s1 Hres' Hr Eg Ho'|results' rerrs' s1 e s2 Hres' Hr Eg Ho' Ef
        |results' rerrs' s1 resolved uerrs s2 Hres' Hr Eg Ho' Ef Hu Hc'
        |results' rerrs' s1 resolved uerrs s2 e s3 Hres' Hr Eg Ho' Ef Hu Ep
        |results' rerrs' s1 resolved uerrs s2 s3 y s4 Hres' Hr Eg Ho' Ef Hu Ep Ei]; try congruence.
    exfalso; assert (results' = results) as -> by congruence.
    assert (Hk : forall n, In n (installer_names (squash_resolutions (map snd results))) -> lookup_installer cx n <> None).
    { intros n Hn; unfold installer_names in Hn; apply (proj1 (remove_duplicates_In _ _)) in Hn.
      unfold squash_resolutions in Hn; apply (proj1 (squash_names _ _ _)) in Hn; destruct Hn as [(rs & D)|Hn]; [discriminate|].
      rewrite map_map in Hn; apply in_map_iff in Hn; destruct Hn as ([key [m rs]] & <- & Hn); simpl; eapply Hknown; exact Hn. }
    assert (Hgen' : forall n y, In (EGeneral n y) (snd s1) -> y = Ok tt) by (subst s1; exact Hgen).
    clear - Eg Hgen' Hk; revert Eg Hgen' Hk; generalize (installer_names (squash_resolutions (map snd results))) as names.
    generalize (w, @nil (event R)) as s; intros s names; revert s.
    unfold check_general_prerequisites; induction names as [|n names IH]; intros s Eg Hgen Hk; [discriminate|].
    cbn [each] in Eg; apply then_inv in Eg; destruct Eg as [(e' & E & _)|([] & s2 & E & Eg)].
    - unfold with_installer in E; destruct (lookup_installer cx n) as [i|] eqn:Hi.
      + unfold call in E; destruct (in_check_general i (o_fix o) (o_interactive o) (fst s)) as [y v]; injection E as -> <-.
        assert (D : Err e' = Ok tt); [|discriminate]; apply (Hgen n); apply in_or_app; right; left; reflexivity.
      + apply (Hk n); [left; reflexivity|exact Hi].
    - apply (IH _ Eg Hgen); intros m Hm; apply Hk; right; exact Hm.
  Qed.

  (** * C36 *)
  (** The documented InstallerError (or a subclass) ends in UnboundLocalError, an
      undocumented exception in XylemInternalError; no error list is returned. *)
  Theorem C36_composition_error_refuted o n rs w i e v :
    lookup_installer cx n = Some i ->
    in_commands i rs (o_interactive o) (o_reinstall o) w = (Err e, v) ->
    is_InstallerError e = true ->
    fst (install_resolutions o n rs (w, [])) = Err UnboundLocalError.
  Proof.
    intros Hi Hc He; unfold Install.install_resolutions, with_installer; rewrite Hi.
    unfold catch, call; cbn [fst]; rewrite Hc; unfold handle; rewrite He; reflexivity.
  Qed.
  Theorem C36_other_errors_partial o n rs w i e v :
    lookup_installer cx n = Some i ->
    in_commands i rs (o_interactive o) (o_reinstall o) w = (Err e, v) ->
    is_InstallerError e = false -> is_Exception e = true ->
    install_resolutions o n rs (w, []) = (Err XylemInternalError, (v, [ECompose n rs (Err e)])).
  Proof.
    intros Hi Hc He He'; unfold Install.install_resolutions, with_installer; rewrite Hi.
    unfold catch, call; cbn [fst]; rewrite Hc; unfold handle; rewrite He, He'; reflexivity.
  Qed.

  (** An interruption is no error of the installer: it comes out as it is. *)
  Theorem C36_interruption_partial o n rs w i e v :
    lookup_installer cx n = Some i ->
    in_commands i rs (o_interactive o) (o_reinstall o) w = (Err e, v) ->
    e = KeyboardInterrupt \/ (exists code, e = SystemExit code) ->
    install_resolutions o n rs (w, []) = (Err e, (v, [ECompose n rs (Err e)])).
  Proof.
    intros Hi Hc He; unfold Install.install_resolutions, with_installer; rewrite Hi.
    unfold catch, call; cbn [fst]; rewrite Hc; unfold handle. destruct He as [->|(code & ->)]; reflexivity.
  Qed.

  (** * C62 *)
  (** Proved for commands without "@": with continue_on_error they are all executed,
      in order, whatever else they contain. *)
  Theorem C62_commands_run_partial o n rs w x w' l cs :
    o_continue o = true -> o_simulate o = false ->
    ansi = ansi_enabled \/ ansi = ansi_disabled ->
    (forall c v, exists z, fst (run c v) = Ok z) ->
    install_resolutions o n rs (w, []) = (x, (w', l)) ->
    In (ECompose n rs (Ok cs)) l ->
    (forall c t, In c cs -> In t c -> ~ In at_ t) ->
    executed l = cs.
  Proof.
    intros Hc Hs Hd Hrun H Hin Hat.
    assert (All : forall cmds errs (s : st), (forall c t, In c cmds -> In t c -> ~ In at_ t) ->
      exists errs' s' ran, run_commands run ansi true cmds errs s = (Ok (inr errs'), s') /\
        snd s' = snd s ++ map (fun p : cmd * Z => EExec (R:=R) (fst p) (Ok (snd p))) ran /\ map fst ran = cmds).
    { induction cmds as [|c cmds IH]; intros errs s Hc'; cbn [run_commands].
      - exists errs, s, []; simpl; rewrite app_nil_r; auto.
      - destruct (exec_message_fmt ansi c Hd) as [t Ht]; [intros t; apply Hc'; left; reflexivity|].
        unfold then_ at 1, lift; rewrite Ht; unfold then_, call.
        destruct (Hrun c (fst s)) as [z Hz]; destruct (run c (fst s)) as [y v]; cbn [fst] in Hz; subst y.
        destruct (Z.eqb z 0);
          [destruct (IH errs (v, snd s ++ [EExec c (Ok z)])) as (errs' & s' & ran & -> & Hl & Hr)
          |destruct (IH (errs ++ [InstallError]) (v, snd s ++ [EExec c (Ok z)])) as (errs' & s' & ran & -> & Hl & Hr)];
          try (intros d t' Hd' Ht'; apply (Hc' d t'); [right; exact Hd'|exact Ht']);
          exists errs', s', ((c, z) :: ran); simpl in *; rewrite Hl, Hr, <- app_assoc; auto. }
    unfold Install.install_resolutions, with_installer in H.
    destruct (lookup_installer cx n) as [i|]; [|injection H as _ _ <-; contradiction].
    unfold catch, call in H; cbn [fst snd] in H.
    destruct (in_commands i rs (o_interactive o) (o_reinstall o) w) as [y v].
    assert (Hy : forall l', l = ECompose n rs y :: l' -> no_compose l' -> y = Ok cs).
    { intros l' -> Hl'; destruct Hin as [E|Hin]; [congruence|].
      unfold no_compose in Hl'; rewrite Forall_forall in Hl'; apply Hl' in Hin; contradiction. }
    destruct y as [[|c ds]|e].
    - injection H as _ _ El; simpl in El; subst l.
      specialize (Hy [] eq_refl ltac:(constructor)); injection Hy as <-; reflexivity.
    - rewrite Hs, Hc in H; cbn beta iota in H.
      assert (HL : logs (fun e => match e with ECompose _ _ _ => False | _ => True end)
          (then_ (run_commands run ansi true (c :: ds) []) (fun x : list exn + list exn =>
                    match x with inl errors => ret errors | inr errors => check_items i n rs errors end))).
      { apply logs_then; [apply logs_run_commands; intros; exact I|].
        intros [e|e]; [apply logs_ret|apply logs_check_items; intros; exact I]. }
      pose proof (HL _ _ _ H) as (l' & El & Hl'); cbn [snd] in El; simpl in El.
      specialize (Hy l' El Hl'); injection Hy as Ecs.
      destruct (All (c :: ds) [] (v, [] ++ [ECompose n rs (Ok (c :: ds))])) as (errs' & s' & ran & E & Hl & Hr);
        [rewrite Ecs; exact Hat|].
      unfold then_ in H; rewrite E in H.
      apply (logs_check_items (fun e => match e with ECheck _ _ _ => True | _ => False end)) in H; [|intros; exact I].
      destruct H as (l3 & El3 & HF3); cbn [snd] in El3; rewrite El3, Hl; cbn [snd].
      rewrite !executed_app, executed_execs, Hr, Ecs, (executed_no_exec l3); [apply app_nil_r|].
      apply no_exec_Forall; eapply Forall_impl; [|exact HF3]; intros ev; destruct ev; simpl; tauto.
    - exfalso; unfold handle in H; destruct (is_InstallerError e); [|destruct (is_Exception e)];
        injection H as _ _ El; simpl in El; subst l; destruct Hin as [D|[]]; discriminate.
  Qed.

  (** * C63 *)
  Lemma map_resolutions_covers (groups : list (text * list R)) n r :
    In (n, r) (pairs groups) -> exists rs, In (n, rs) (map_resolutions groups) /\ In r rs.
  Proof.
    intros H; apply (proj1 (pairs_In _ _ _)) in H; destruct H as (rs & Hg & Hr).
    destruct (C32_map groups) as [_ Hm]; specialize (Hm n).
    assert (Hn : mem n (map fst groups) = true) by (apply mem_In, in_map_iff; exists (n, rs); auto).
    rewrite Hn in Hm; eexists; split; [apply get_In; exact Hm|].
    apply in_flat_map; exists (n, rs); split; [exact Hg|]; simpl.
    destruct (eqb_spec n n); [exact Hr|congruence].
  Qed.

  (** Before any command is executed, the general prerequisites of the installer of
      every resolved key and the installation prerequisites of everything that is to be
      installed have been checked with success. *)
  Theorem C63_prerequisites_first o resolution w x w' l l1 c code l2 :
    install o resolution (w, []) = (x, (w', l)) ->
    l = l1 ++ EExec c code :: l2 ->
    (exists results rerrs, resolution = Ok (results, rerrs) /\
       forall key n rs, In (key, (n, rs)) results -> In (EGeneral n (Ok tt)) l1) /\
    (forall n r, In (n, r) (compose_requests l) ->
       exists rs, In (EInstallPre n rs (Ok tt)) l1 /\ In r rs).
  Proof.
    intros H El; apply install_app in H.
    destruct H as (lg & lf & lp & li & El' & HG & HF & HP & HI & HX).
    assert (Hpre : no_exec (lg ++ lf ++ lp)) by (apply isF_no_pre_exec; assumption).
    assert (Hsplit : exists l1', l1 = (lg ++ lf ++ lp) ++ l1' /\ li = l1' ++ EExec c code :: l2).
    { assert (E : (lg ++ lf ++ lp) ++ li = l1 ++ EExec c code :: l2)
        by (rewrite <- El, El', <- !app_assoc; reflexivity).
      clear - E Hpre; revert l1 E Hpre; generalize (lg ++ lf ++ lp) as p; induction p as [|a p IH]; intros l1 E Hp.
      - exists l1; split; [reflexivity|exact E].
      - destruct l1 as [|b l1]; simpl in E; injection E as -> E.
        + exfalso; apply (Hp c code); left; reflexivity.
        + destruct (IH l1 E) as (l1' & -> & Hli); [intros d y Hd; apply (Hp d y); right; exact Hd|].
          exists l1'; split; [reflexivity|exact Hli]. }
    destruct Hsplit as (l1' & -> & Hli).
    destruct HX as [->|(results & rerrs & resolved & uerrs & s3 & y & Hres & _ & _ & Hg & _ & _ & _ & _ & Hp & Hi & Hl & _)];
      [destruct l1'; discriminate|]; split.
    - exists results, rerrs; split; [exact Hres|]; intros key n rs Hin.
      apply in_or_app; left; apply in_or_app; left; apply Hg; rewrite map_map.
      apply in_map_iff; exists (key, (n, rs)); auto.
    - intros n r Hin; rewrite El', !compose_requests_app in Hin.
      rewrite (proj2 (composed_no lg (isG_no_compose lg HG))), (proj2 (composed_no lf (isF_no_compose lf HF))),
              (proj2 (composed_no lp (isP_no_compose lp HP))) in Hin; simpl in Hin.
      apply install_groups_requests in Hi; destruct Hi as (l3 & rest & Hl3 & Hr & _).
      cbn [snd] in Hl3; rewrite Hl in Hl3; apply app_inv_head in Hl3; subst l3.
      rewrite squash_pairs in Hr.
      destruct (map_resolutions_covers resolved n r) as (rs & Hrs & Hir); [rewrite Hr; apply in_or_app; left; exact Hin|].
      exists rs; split; [|exact Hir]; apply Hp in Hrs.
      apply in_or_app; left; apply in_or_app; right; apply in_or_app; right; exact Hrs.
  Qed.
End Props.

(** * Concrete installers *)
(** The machine: names of installed packages.  A command [prog; p1; ...] installs the
    packages p1 ...; the program "false" fails. *)
Definition toy_run (c : cmd) : act (list text) Z :=
  fun w => match c with
           | [] => (Err OSError, w)
           | p :: args => if eqb p (u "false") then (Ok 1%Z, w) else (Ok 0%Z, w ++ args)
           end.
Definition toy_installed (n : text) (w : list text) (r : text) : bool := mem r w.
(** An installer with faithful detection and one command [prog] for everything. *)
Definition toy_installer (name prog : text) : installer (list text) text :=
  {| in_name := name; in_additional := false;
     in_resolve := fun _ => Ok [];
     in_check_general := fun _ _ w => (Ok tt, w);
     in_check_install := fun _ _ _ w => (Ok tt, w);
     in_filter_uninstalled := fun rs w => (Ok (filter (fun r => negb (mem r w)) rs), w);
     in_is_installed := fun r w => (Ok (mem r w), w);
     in_commands := fun rs _ _ w => (Ok (match rs with [] => [] | _ => [prog :: rs] end), w) |}.
Definition toy_apt := toy_installer (u "apt") (u "apt-get").
Definition toy_pip := toy_installer (u "pip") (u "pip").
Definition toy_broken := toy_installer (u "broken") (u "false").
Definition toy_context (plugins : list (installer (list text) text)) : context (list text) text :=
  {| cx_ic := {| ic_os := u "ubuntu"; ic_version := u "trusty"; ic_default := Some (u "apt") |};
     cx_plugins := plugins; cx_core := plugins; cx_additional := [] |}.
Definition toy_cx := toy_context [toy_apt; toy_pip; toy_broken].
Definition toy_options : options :=
  {| o_interactive := true; o_reinstall := false; o_simulate := false; o_continue := false; o_fix := false |}.
Definition toy_results : list (text * (text * list text)) :=
  [(u "k1", (u "apt", [u "a"; u "b"])); (u "k2", (u "pip", [u "c"])); (u "k3", (u "pip", [u "d"]));
   (u "k4", (u "apt", [u "e"]))].

(** The hypotheses of C30_installed_afterwards, C30_install_success and C33_second_run
    are met by these installers ... *)
Example toy_faithful :
  (forall i, In i (cx_plugins toy_cx) -> faithful toy_installed i) /\
  never_uninstalls toy_installed toy_run (cx_plugins toy_cx).
Proof.
  split.
  - assert (X : forall n p, faithful toy_installed (toy_installer n p)).
    { intros n p; split; [reflexivity|]; split; [reflexivity|].
      intros rs a b w; eexists; split; [reflexivity|]; destruct rs; [congruence|discriminate]. }
    intros i [<-|[<-|[<-|[]]]]; apply X.
  - assert (X : forall i, In i (cx_plugins toy_cx) -> exists n p, i = toy_installer n p).
    { intros i [<-|[<-|[<-|[]]]]; unfold toy_apt, toy_pip, toy_broken; eauto. }
    split; [|split].
    + intros c w n r H; unfold toy_run; destruct c as [|p args]; [exact H|].
      destruct (eqb p (u "false")); [exact H|]; unfold toy_installed in *; simpl.
      apply mem_In; apply in_or_app; left; apply mem_In; exact H.
    + intros i a b w Hi n r H; destruct (X i Hi) as (m & p & ->); exact H.
    + intros i rs a b w Hi n r H; destruct (X i Hi) as (m & p & ->); exact H.
Qed.

(** ... and by this run: "b" is already installed, the two pip keys share one command. *)
Example toy_install_run :
  install toy_run ansi_disabled toy_cx toy_options (Ok (toy_results, [])) ([u "b"], []) =
  (Ok ([], []),
   ([u "b"; u "a"; u "c"; u "d"; u "e"],
    [EGeneral (u "apt") (Ok tt); EGeneral (u "pip") (Ok tt);
     EFilter (u "apt") [u "a"; u "b"] (Ok [u "a"]); EFilter (u "pip") [u "c"; u "d"] (Ok [u "c"; u "d"]);
     EFilter (u "apt") [u "e"] (Ok [u "e"]);
     EInstallPre (u "apt") [u "a"; u "e"] (Ok tt); EInstallPre (u "pip") [u "c"; u "d"] (Ok tt);
     ECompose (u "apt") [u "a"] (Ok [[u "apt-get"; u "a"]]);
     EExec [u "apt-get"; u "a"] (Ok 0%Z); ECheck (u "apt") (u "a") (Ok true);
     ECompose (u "pip") [u "c"; u "d"] (Ok [[u "pip"; u "c"; u "d"]]);
     EExec [u "pip"; u "c"; u "d"] (Ok 0%Z); ECheck (u "pip") (u "c") (Ok true); ECheck (u "pip") (u "d") (Ok true);
     ECompose (u "apt") [u "e"] (Ok [[u "apt-get"; u "e"]]);
     EExec [u "apt-get"; u "e"] (Ok 0%Z); ECheck (u "apt") (u "e") (Ok true)])).
Proof. vm_compute. reflexivity. Qed.

(** A failing command: without continue_on_error the command for "c" is not executed,
    with it, it is (C31). *)
Definition toy_failing : list (text * (text * list text)) :=
  [(u "k1", (u "broken", [u "a"])); (u "k2", (u "pip", [u "c"]))].
Example toy_failing_run :
  let stop := install toy_run ansi_disabled toy_cx toy_options (Ok (toy_failing, [])) ([], []) in
  let go := install toy_run ansi_disabled toy_cx
      {| o_interactive := true; o_reinstall := false; o_simulate := false; o_continue := true; o_fix := false |}
      (Ok (toy_failing, [])) ([], []) in
  fst stop = Ok ([], [InstallError]) /\ executed (snd (snd stop)) = [[u "false"; u "a"]] /\
  fst go = Ok ([], [InstallError; InstallError]) /\
  executed (snd (snd go)) = [[u "false"; u "a"]; [u "pip"; u "c"]].
Proof. vm_compute. repeat split. Qed.

(** Simulation of the first run (C29): the queries are read-only, nothing is executed. *)
Example toy_simulate :
  (forall i, In i (cx_plugins toy_cx) -> read_only_queries i) /\
  let sim := install toy_run ansi_disabled toy_cx
      {| o_interactive := true; o_reinstall := false; o_simulate := true; o_continue := false; o_fix := false |}
      (Ok (toy_results, [])) ([u "b"], []) in
  fst sim = Ok ([], []) /\ fst (snd sim) = [u "b"] /\
  composed (snd (snd sim)) = [[u "apt-get"; u "a"]; [u "pip"; u "c"; u "d"]; [u "apt-get"; u "e"]].
Proof.
  split; [intros i [<-|[<-|[<-|[]]]]; repeat split; reflexivity|].
  vm_compute; repeat split.
Qed.

(** The full C30 is false: an installer that composes no command for a resolution
    leads to success although the resolution is not installed. *)
Definition toy_lazy : installer (list text) text :=
  {| in_name := u "lazy"; in_additional := false; in_resolve := fun _ => Ok [];
     in_check_general := fun _ _ w => (Ok tt, w); in_check_install := fun _ _ _ w => (Ok tt, w);
     in_filter_uninstalled := fun rs w => (Ok (filter (fun r => negb (mem r w)) rs), w);
     in_is_installed := fun r w => (Ok (mem r w), w);
     in_commands := fun _ _ _ w => (Ok [], w) |}.
Theorem C30_no_commands_refuted :
  exists (cx : context (list text) text) resolved w w' l,
    install_resolved toy_run ansi_disabled cx toy_options resolved (w, []) = (Ok [], (w', l)) /\
    exists n rs r i, In (n, rs) resolved /\ In r rs /\ lookup_installer cx n = Some i /\
      in_is_installed i r w' = (Ok false, w').
Proof.
  exists (toy_context [toy_lazy]), [(u "lazy", [u "a"])], [], [], [ECompose (u "lazy") [u "a"] (Ok [])].
  split; [vm_compute; reflexivity|].
  exists (u "lazy"), [u "a"], (u "a"), toy_lazy.
  split; [left; reflexivity|]; split; [left; reflexivity|]; split; vm_compute; reflexivity.
Qed.

(** C34, C35, C36: runs meeting the hypotheses. *)
Definition toy_undecided : installer (list text) text :=
  {| in_name := u "undecided"; in_additional := false; in_resolve := fun _ => Ok [];
     in_check_general := fun _ _ w => (Ok tt, w); in_check_install := fun _ _ _ w => (Ok tt, w);
     in_filter_uninstalled := fun rs w => (Err InstallerError, w);
     in_is_installed := fun r w => (Ok (mem r w), w);
     in_commands := fun _ _ _ w => (Err InstallerError, w) |}.
Example C34_36_example :
  let cx := toy_context [toy_undecided] in
  let results := [(u "k", (u "undecided", [u "a"]))] in
  install toy_run ansi_disabled cx toy_options (Ok (results, [])) ([], []) =
    (Ok ([], []), ([], [EGeneral (u "undecided") (Ok tt); EFilter (u "undecided") [u "a"] (Err InstallerError);
                              EReport [InstallError]])) /\
  fst (install toy_run ansi_disabled cx
      {| o_interactive := true; o_reinstall := true; o_simulate := false; o_continue := false; o_fix := false |}
      (Ok (results, [])) ([], [])) = Err UnboundLocalError /\
  fst (install_resolutions toy_run ansi_disabled cx toy_options (u "undecided") [u "a"] ([], [])) =
    Err UnboundLocalError.
Proof. vm_compute. repeat split. Qed.

(** C62 is false for commands with an "@": nothing is executed and KeyError is raised,
    here for "pip install git+ssh://git@github.com/o/r". *)
Definition toy_git_url : text := u "git+ssh://git@github.com/o/r".
Theorem C62_at_sign_refuted ansi :
  ansi = ansi_enabled \/ ansi = ansi_disabled ->
  fst (run_commands (R:=text) toy_run ansi true [[u "pip"; u "install"; toy_git_url]] [] ([], [])) = Err KeyError /\
  install toy_run ansi toy_cx toy_options
    (Ok ([(u "k", (u "pip", [toy_git_url]))], [])) ([], []) =
  (Err KeyError, ([],
     [EGeneral (u "pip") (Ok tt); EFilter (u "pip") [toy_git_url] (Ok [toy_git_url]);
      EInstallPre (u "pip") [toy_git_url] (Ok tt);
      ECompose (u "pip") [toy_git_url] (Ok [[u "pip"; toy_git_url]])])).
Proof. intros [H|H]; subst ansi; vm_compute; split; reflexivity. Qed.

Print Assumptions C29_simulate_no_command.
Print Assumptions C29_simulate_changes_nothing.
Print Assumptions C30_no_error_done_partial.
Print Assumptions C30_installed_afterwards.
Print Assumptions C30_install_success.
Print Assumptions C30_no_commands_refuted.
Print Assumptions C31_stops_at_failure.
Print Assumptions C31_continues.
Print Assumptions C32_squash.
Print Assumptions C32_map.
Print Assumptions C33_only_uninstalled.
Print Assumptions C33_all_installed.
Print Assumptions C33_second_run.
Print Assumptions C34_nothing_installed_partial.
Print Assumptions C34_swallowed_refuted.
Print Assumptions C34_printed.
Print Assumptions C35_reinstall_refuted.
Print Assumptions C36_composition_error_refuted.
Print Assumptions C36_other_errors_partial.
Print Assumptions C36_interruption_partial.
Print Assumptions C62_commands_run_partial.
Print Assumptions C62_at_sign_refuted.
Print Assumptions C63_prerequisites_first.
