(** Proofs about installation. *)
From Verif Require Import Base Dict PyVal Sources Util Terminal TerminalProofs Installer Resolve Install InstallSpec.
From Coq Require Import Lia.

(** * Grouping *)
Section Squash.
  Context {R : Type}.
  Notation groups := (list (text * list R)).

  Lemma pairs_app (a b : groups) : pairs (a ++ b) = pairs a ++ pairs b.
  Proof. unfold pairs; apply flat_map_app. Qed.

  Lemma squash_from_pairs cur (l : groups) :
    pairs (squash_from cur l) = match cur with Some g => pairs [g] | None => [] end ++ pairs l.
  Proof.
    revert cur; induction l as [|[n rs] l IH]; intros cur; cbn [squash_from].
    - destruct cur; simpl; rewrite ?app_nil_r; reflexivity.
    - destruct cur as [[p ps]|].
      + destruct (eqb_spec p n) as [->|Hn].
        * rewrite IH; unfold pairs; cbn [flat_map fst snd]; rewrite !app_nil_r, map_app, app_assoc; reflexivity.
        * change ((p, ps) :: squash_from (Some (n, rs)) l) with ([(p, ps)] ++ squash_from (Some (n, rs)) l).
          rewrite pairs_app, IH; unfold pairs; cbn [flat_map fst snd]; rewrite !app_nil_r; reflexivity.
      + rewrite IH; unfold pairs; cbn [flat_map fst snd]; rewrite app_nil_r; reflexivity.
  Qed.

  Lemma squash_pairs (l : groups) : pairs (squash_resolutions l) = pairs l.
  Proof. unfold squash_resolutions; rewrite squash_from_pairs; reflexivity. Qed.

  Lemma squash_from_head p ps (l : groups) :
    exists qs r, squash_from (Some (p, ps)) l = (p, qs) :: r.
  Proof.
    revert ps; induction l as [|[n rs] l IH]; intros ps; cbn [squash_from]; [eauto|].
    destruct (eqb_spec p n); [apply IH|eauto].
  Qed.

  Lemma squash_from_alternating cur (l : groups) : alternating (squash_from cur l).
  Proof.
    revert cur; induction l as [|[n rs] l IH]; intros cur; cbn [squash_from].
    - destruct cur; simpl; auto.
    - destruct cur as [[p ps]|]; [|apply IH].
      destruct (eqb_spec p n) as [->|Hn]; [apply IH|].
      split; [|apply IH].
      destruct (squash_from_head n rs l) as (qs & r & ->); exact Hn.
  Qed.

  Lemma squash_from_id p ps (l : groups) :
    alternating ((p, ps) :: l) -> squash_from (Some (p, ps)) l = (p, ps) :: l.
  Proof.
    revert p ps; induction l as [|[n rs] l IH]; intros p ps H; [reflexivity|].
    destruct H as [H1 H2]; cbn [squash_from].
    destruct (eqb_spec p n) as [->|Hn]; [simpl in H1; congruence|].
    f_equal; apply IH; exact H2.
  Qed.

  Lemma squash_id (l : groups) : alternating l -> squash_resolutions l = l.
  Proof.
    destruct l as [|[n rs] l]; [reflexivity|]; intros H.
    unfold squash_resolutions; cbn [squash_from]; apply squash_from_id; exact H.
  Qed.

  Lemma squash_names cur (l : groups) n :
    In n (map fst (squash_from cur l)) <->
    (exists rs, cur = Some (n, rs)) \/ In n (map fst l).
  Proof.
    revert cur; induction l as [|[m rs] l IH]; intros cur; cbn [squash_from].
    - destruct cur as [[p ps]|]; simpl; split.
      + intros [->|[]]; left; eauto.
      + intros [(rs & E)|[]]; injection E as -> _; auto.
      + tauto.
      + intros [(rs & E)|[]]; discriminate.
    - destruct cur as [[p ps]|].
      + destruct (eqb_spec p m) as [->|Hn].
        * rewrite IH; simpl; split.
          -- intros [(q & E)|H]; [injection E as -> _; left; eauto|auto].
          -- intros [(q & E)|[->|H]]; [injection E as -> _; left; eauto|left; eauto|auto].
        * cbn [map]; simpl; rewrite IH; split.
          -- intros [->|[(q & E)|H]]; [left; eauto|injection E as -> _; auto|auto].
          -- intros [(q & E)|[->|H]]; [injection E as -> _; auto|right; left; eauto|auto].
      + rewrite IH; simpl; split.
        * intros [(q & E)|H]; [injection E as -> _; auto|auto].
        * intros [(q & E)|[->|H]]; [discriminate|left; eauto|auto].
  Qed.

  Lemma squash_nonempty cur (l : groups) :
    (forall g, cur = Some g -> snd g <> []) -> (forall g, In g l -> snd g <> []) ->
    forall g, In g (squash_from cur l) -> snd g <> [].
  Proof.
    revert cur; induction l as [|[m rs] l IH]; intros cur Hc Hl g; cbn [squash_from].
    - destruct cur as [g'|]; simpl; [|tauto]; intros [<-|[]]; apply Hc; reflexivity.
    - assert (Hrs : rs <> []) by (apply (Hl (m, rs)); left; reflexivity).
      assert (Hl' : forall g, In g l -> snd g <> []) by (intros g' H; apply Hl; right; exact H).
      destruct cur as [[p ps]|].
      + destruct (eqb_spec p m) as [->|Hn].
        * apply IH; [|exact Hl']; intros g' E; injection E as <-; simpl.
          destruct rs; [congruence|]; destruct ps; discriminate.
        * intros [<-|Hin]; [apply (Hc (p, ps)); reflexivity|].
          revert Hin; apply IH; [|exact Hl']; intros g' E; injection E as <-; exact Hrs.
      + apply IH; [|exact Hl']; intros g' E; injection E as <-; exact Hrs.
  Qed.

  Lemma pairs_In n r (l : groups) :
    In (n, r) (pairs l) <-> exists rs, In (n, rs) l /\ In r rs.
  Proof.
    unfold pairs; rewrite in_flat_map; split.
    - intros ([m rs] & Hg & Hin); simpl in Hin; apply in_map_iff in Hin.
      destruct Hin as (r' & E & Hr); injection E as -> ->; eauto.
    - intros (rs & Hg & Hr); exists (n, rs); split; [exact Hg|]; apply in_map; exact Hr.
  Qed.
End Squash.

(** * Computations and their logs *)
Local Opaque fmt exec_message.
Section Run.
  Context {W R : Type}.
  Variable run : cmd -> act W Z.
  Variable ansi : dict text text.
  Variable cx : context W R.

  Notation st := (W * list (event R))%type.
  Notation io A := (st -> res A * st).
  Notation log := (list (event R)).

  (** Every event appended by [m] satisfies [P]. *)
  Definition logs {A} (P : event R -> Prop) (m : io A) : Prop :=
    forall s x s', m s = (x, s') -> exists l, snd s' = snd s ++ l /\ Forall P l.
  (** [m] moves the world only along [Q]. *)
  Definition moves {A} (Q : W -> W -> Prop) (m : io A) : Prop :=
    forall s x s', m s = (x, s') -> Q (fst s) (fst s').

  Section Logs.
    Variable P : event R -> Prop.
    Lemma logs_ret A (a : A) : logs P (ret a).
    Proof. intros s x s' E; injection E as _ <-; exists []; rewrite app_nil_r; auto. Qed.
    Lemma logs_raise A e : logs P (@raise W R A e).
    Proof. intros s x s' E; injection E as _ <-; exists []; rewrite app_nil_r; auto. Qed.
    Lemma logs_lift A (y : res A) : logs P (lift y).
    Proof. intros s x s' E; injection E as _ <-; exists []; rewrite app_nil_r; auto. Qed.
    Lemma logs_catch A B (m : io A) (f : A -> io B) h :
      logs P m -> (forall a, logs P (f a)) -> (forall e, logs P (h e)) -> logs P (catch m f h).
    Proof.
      intros Hm Hf Hh s x s'; unfold catch; destruct (m s) as [[a|e] s1] eqn:E; intros E';
        destruct (Hm _ _ _ E) as (l1 & H1 & F1);
        [destruct (Hf _ _ _ _ E') as (l2 & H2 & F2)|destruct (Hh _ _ _ _ E') as (l2 & H2 & F2)];
        exists (l1 ++ l2); rewrite H2, H1, app_assoc; split; auto; apply Forall_app; auto.
    Qed.
    Lemma logs_then A B (m : io A) (f : A -> io B) :
      logs P m -> (forall a, logs P (f a)) -> logs P (then_ m f).
    Proof.
      intros Hm Hf; apply (logs_catch A B m f (fun e => raise e)); auto; intros e; apply logs_raise.
    Qed.
    Lemma logs_call A ev (m : act W A) : (forall x, P (ev x)) -> logs P (call ev m).
    Proof.
      intros H s x s'; unfold call; destruct (m (fst s)) as [y w]; intros E; injection E as _ <-.
      exists [ev y]; simpl; split; auto.
    Qed.
    Lemma logs_note ev : P ev -> logs P (note ev : io unit).
    Proof. intros H s x s' E; injection E as _ <-; exists [ev]; simpl; auto. Qed.
    Lemma logs_each A (f : A -> io unit) l : (forall a, In a l -> logs P (f a)) -> logs P (each f l).
    Proof.
      induction l as [|a l IH]; intros H; cbn [each]; [apply logs_ret|].
      apply logs_then; [apply H; left; reflexivity|]; intros _; apply IH; intros b Hb; apply H; right; exact Hb.
    Qed.
    Lemma logs_with A n (f : installer W R -> io A) : (forall i, logs P (f i)) -> logs P (with_installer cx n f).
    Proof. intros H; unfold with_installer; destruct (lookup_installer cx n); [apply H|apply logs_raise]. Qed.
    Lemma logs_handle B (h : io B) e : logs P h -> logs P (handle h e).
    Proof.
      intros H; unfold handle; destruct (is_InstallerError e); [exact H|].
      destruct (is_Exception e); apply logs_raise.
    Qed.
  End Logs.

  Section Moves.
    Variable Q : W -> W -> Prop.
    Hypothesis Qrefl : forall w, Q w w.
    Hypothesis Qtrans : forall a b c, Q a b -> Q b c -> Q a c.
    Lemma moves_ret A (a : A) : moves Q (ret a).
    Proof. intros s x s' E; injection E as _ <-; apply Qrefl. Qed.
    Lemma moves_raise A e : moves Q (@raise W R A e).
    Proof. intros s x s' E; injection E as _ <-; apply Qrefl. Qed.
    Lemma moves_lift A (y : res A) : moves Q (lift y).
    Proof. intros s x s' E; injection E as _ <-; apply Qrefl. Qed.
    Lemma moves_catch A B (m : io A) (f : A -> io B) h :
      moves Q m -> (forall a, moves Q (f a)) -> (forall e, moves Q (h e)) -> moves Q (catch m f h).
    Proof.
      intros Hm Hf Hh s x s'; unfold catch; destruct (m s) as [[a|e] s1] eqn:E; intros E';
        apply Hm in E; apply (Hf _ _ _ _) in E' || apply (Hh _ _ _ _) in E'; eapply Qtrans; eassumption.
    Qed.
    Lemma moves_then A B (m : io A) (f : A -> io B) :
      moves Q m -> (forall a, moves Q (f a)) -> moves Q (then_ m f).
    Proof.
      intros Hm Hf; apply (moves_catch A B m f (fun e => raise e)); auto; intros e; apply moves_raise.
    Qed.
    Lemma moves_call A ev (m : act W A) : (forall w, Q w (snd (m w))) -> moves Q (call ev m).
    Proof.
      intros H s x s'; unfold call; specialize (H (fst s)).
      destruct (m (fst s)) as [y w]; intros E; injection E as _ <-; exact H.
    Qed.
    Lemma moves_note ev : moves Q (note ev : io unit).
    Proof. intros s x s' E; injection E as _ <-; apply Qrefl. Qed.
    Lemma moves_each A (f : A -> io unit) l : (forall a, In a l -> moves Q (f a)) -> moves Q (each f l).
    Proof.
      induction l as [|a l IH]; intros H; cbn [each]; [apply moves_ret|].
      apply moves_then; [apply H; left; reflexivity|]; intros _; apply IH; intros b Hb; apply H; right; exact Hb.
    Qed.
    Lemma moves_with A n (f : installer W R -> io A) :
      (forall i, lookup_installer cx n = Some i -> moves Q (f i)) -> moves Q (with_installer cx n f).
    Proof.
      intros H; unfold with_installer; destruct (lookup_installer cx n); [apply H; reflexivity|apply moves_raise].
    Qed.
    Lemma moves_handle B (h : io B) e : moves Q h -> moves Q (handle h e).
    Proof.
      intros H; unfold handle; destruct (is_InstallerError e); [exact H|].
      destruct (is_Exception e); apply moves_raise.
    Qed.
  End Moves.

  Lemma no_exec_Forall (l : log) : no_exec l <-> Forall (fun e => is_exec e = false) l.
  Proof.
    unfold no_exec; rewrite Forall_forall; split.
    - intros H e He; destruct e; try reflexivity; exfalso; exact (H _ _ He).
    - intros H c x Hin; apply H in Hin; discriminate.
  Qed.

  Lemma no_exec_app (a b : log) : no_exec (a ++ b) <-> no_exec a /\ no_exec b.
  Proof. rewrite !no_exec_Forall; apply Forall_app. Qed.

  (** ** Logs of the parts *)
  Notation noex := (fun e : event R => is_exec e = false).

  Lemma logs_general names a b : logs noex (check_general_prerequisites cx names a b).
  Proof.
    apply logs_each; intros n _; apply logs_with; intros i; apply logs_call; reflexivity.
  Qed.
  Lemma logs_install_pre m a b : logs noex (check_install_prerequisites cx m a b).
  Proof.
    apply logs_each; intros n _; apply logs_with; intros i; apply logs_call; reflexivity.
  Qed.
  Lemma logs_filter (P : event R -> Prop) l :
    (forall n rs x, P (EFilter n rs x)) -> (forall es, P (EReport es)) -> logs P (uninstalled cx l).
  Proof.
    intros HP HR; unfold uninstalled; apply logs_then;
      [|intros q; apply logs_then; [apply logs_each; intros e _; apply logs_note, HR|intros _; apply logs_ret]].
    clear HR; induction l as [|[n rs] l IH]; cbn [filter_uninstalled]; [apply logs_ret|].
    apply logs_with; intros i; apply logs_then.
    - apply logs_catch; [apply logs_call; auto|intros a; apply logs_ret|].
      intros e; apply logs_handle, logs_ret.
    - intros p; apply logs_then; [exact IH|]; intros q; apply logs_ret.
  Qed.
  Lemma logs_check_items (P : event R -> Prop) i n items errs :
    (forall r x, P (ECheck n r x)) -> logs P (check_items i n items errs).
  Proof.
    intros HP; revert errs; induction items as [|r l IH]; intros errs; cbn [check_items]; [apply logs_ret|].
    apply logs_then.
    - apply logs_catch; [apply logs_call; auto|intros a; apply logs_ret|].
      intros e; apply logs_handle, logs_ret.
    - intros p; apply IH.
  Qed.
  Lemma logs_run_commands (P : event R -> Prop) c cmds errs :
    (forall d x, P (EExec d x)) -> logs P (run_commands run ansi c cmds errs).
  Proof.
    intros HP; revert errs; induction cmds as [|d ds IH]; intros errs; cbn [run_commands]; [apply logs_ret|].
    apply logs_then; [apply logs_lift|]; intros _.
    apply logs_then; [apply logs_call; auto|]; intros z.
    destruct (Z.eqb z 0); [apply IH|]; destruct c; [apply IH|apply logs_ret].
  Qed.

  (** ** Simulation *)
  Lemma simulate_resolutions o n rs : o_simulate o = true ->
    logs noex (install_resolutions run ansi cx o n rs).
  Proof.
    intros Hs; unfold install_resolutions; apply logs_with; intros i; apply logs_catch.
    - apply logs_call; reflexivity.
    - intros [|c cs]; [apply logs_ret|]; rewrite Hs; apply logs_then.
      + apply logs_each; intros d _; apply logs_note; reflexivity.
      + intros _; apply logs_ret.
    - intros e; apply logs_handle, logs_raise.
  Qed.

  Lemma simulate_groups o groups all : o_simulate o = true ->
    logs noex (install_groups run ansi cx o groups all).
  Proof.
    intros Hs; revert all; induction groups as [|[n rs] l IH]; intros all; cbn [install_groups]; [apply logs_ret|].
    apply logs_then; [apply simulate_resolutions; exact Hs|].
    intros [|e es]; [apply IH|]; destruct (o_continue o); [apply IH|apply logs_ret].
  Qed.

  Lemma simulate_install o resolution : o_simulate o = true ->
    logs noex (install run ansi cx o resolution).
  Proof.
    intros Hs; unfold install; apply logs_then; [apply logs_lift|]; intros [results rerrs].
    assert (X : logs noex
       (let resolved := squash_resolutions (map snd results) in
        then_ (check_general_prerequisites cx (installer_names resolved) (o_fix o) (o_interactive o)) (fun _ =>
        if o_reinstall o then raise UnboundLocalError
        else then_ (uninstalled cx resolved) (fun q =>
          let (resolved, uninstalled_errors) := q in
          match uninstalled_errors, o_continue o with
          | _ :: _, false => ret (rerrs, [])
          | _, _ =>
            then_ (check_install_prerequisites cx (map_resolutions resolved) (o_fix o) (o_interactive o)) (fun _ =>
            then_ (install_resolved run ansi cx o resolved) (fun install_errors =>
            ret (rerrs, install_errors)))
          end)))).
    { cbn zeta; apply logs_then; [apply logs_general|]; intros _.
      destruct (o_reinstall o); [apply logs_raise|].
      apply logs_then; [apply logs_filter; intros; reflexivity|]; intros [resolved uerrs].
      assert (Y : logs noex
            (then_ (check_install_prerequisites cx (map_resolutions resolved) (o_fix o) (o_interactive o)) (fun _ =>
            then_ (install_resolved run ansi cx o resolved) (fun install_errors =>
            ret (rerrs, install_errors))))).
      { apply logs_then; [apply logs_install_pre|]; intros _.
        apply logs_then; [apply simulate_groups; exact Hs|]; intros e; apply logs_ret. }
      destruct uerrs; [exact Y|]; destruct (o_continue o); [exact Y|apply logs_ret]. }
    destruct rerrs; [exact X|]; destruct (o_continue o); [exact X|apply logs_ret].
  Qed.

  (** ** The phases of [install] *)
  Lemma then_inv {A B} (m : io A) (f : A -> io B) s x s' :
    then_ m f s = (x, s') ->
    (exists e, m s = (Err e, s') /\ x = Err e) \/
    (exists a s1, m s = (Ok a, s1) /\ f a s1 = (x, s')).
  Proof.
    unfold then_; destruct (m s) as [[a|e] s1]; intros E; [right; eauto|].
    left; exists e; split; congruence.
  Qed.

  Inductive phases (o : options) (resolution : res (list (text * (text * list R)) * list (text * exn)))
      (s : st) : res (list (text * exn) * list exn) -> st -> Prop :=
  | Ph_resolve_raises e : resolution = Err e -> phases o resolution s (Err e) s
  | Ph_resolve_errors results rerrs :
      resolution = Ok (results, rerrs) -> rerrs <> [] -> o_continue o = false ->
      phases o resolution s (Ok (rerrs, [])) s
  | Ph_general_raises results rerrs e s1 :
      resolution = Ok (results, rerrs) -> (rerrs = [] \/ o_continue o = true) ->
      check_general_prerequisites cx (installer_names (squash_resolutions (map snd results)))
        (o_fix o) (o_interactive o) s = (Err e, s1) ->
      phases o resolution s (Err e) s1
  | Ph_reinstall results rerrs s1 :
      resolution = Ok (results, rerrs) -> (rerrs = [] \/ o_continue o = true) ->
      check_general_prerequisites cx (installer_names (squash_resolutions (map snd results)))
        (o_fix o) (o_interactive o) s = (Ok tt, s1) ->
      o_reinstall o = true ->
      phases o resolution s (Err UnboundLocalError) s1
  | Ph_filter_raises results rerrs s1 e s2 :
      resolution = Ok (results, rerrs) -> (rerrs = [] \/ o_continue o = true) ->
      check_general_prerequisites cx (installer_names (squash_resolutions (map snd results)))
        (o_fix o) (o_interactive o) s = (Ok tt, s1) ->
      o_reinstall o = false ->
      uninstalled cx (squash_resolutions (map snd results)) s1 = (Err e, s2) ->
      phases o resolution s (Err e) s2
  | Ph_filter_errors results rerrs s1 resolved uerrs s2 :
      resolution = Ok (results, rerrs) -> (rerrs = [] \/ o_continue o = true) ->
      check_general_prerequisites cx (installer_names (squash_resolutions (map snd results)))
        (o_fix o) (o_interactive o) s = (Ok tt, s1) ->
      o_reinstall o = false ->
      uninstalled cx (squash_resolutions (map snd results)) s1 = (Ok (resolved, uerrs), s2) ->
      uerrs <> [] -> o_continue o = false ->
      phases o resolution s (Ok (rerrs, [])) s2
  | Ph_pre_raises results rerrs s1 resolved uerrs s2 e s3 :
      resolution = Ok (results, rerrs) -> (rerrs = [] \/ o_continue o = true) ->
      check_general_prerequisites cx (installer_names (squash_resolutions (map snd results)))
        (o_fix o) (o_interactive o) s = (Ok tt, s1) ->
      o_reinstall o = false ->
      uninstalled cx (squash_resolutions (map snd results)) s1 = (Ok (resolved, uerrs), s2) ->
      (uerrs = [] \/ o_continue o = true) ->
      check_install_prerequisites cx (map_resolutions resolved) (o_fix o) (o_interactive o) s2 = (Err e, s3) ->
      phases o resolution s (Err e) s3
  | Ph_install results rerrs s1 resolved uerrs s2 s3 y s4 :
      resolution = Ok (results, rerrs) -> (rerrs = [] \/ o_continue o = true) ->
      check_general_prerequisites cx (installer_names (squash_resolutions (map snd results)))
        (o_fix o) (o_interactive o) s = (Ok tt, s1) ->
      o_reinstall o = false ->
      uninstalled cx (squash_resolutions (map snd results)) s1 = (Ok (resolved, uerrs), s2) ->
      (uerrs = [] \/ o_continue o = true) ->
      check_install_prerequisites cx (map_resolutions resolved) (o_fix o) (o_interactive o) s2 = (Ok tt, s3) ->
      install_resolved run ansi cx o resolved s3 = (y, s4) ->
      phases o resolution s (match y with Ok es => Ok (rerrs, es) | Err e => Err e end) s4.

  Lemma install_phases o resolution s x s' :
    install run ansi cx o resolution s = (x, s') -> phases o resolution s x s'.
  Proof.
    unfold install; intros H; apply then_inv in H.
    destruct H as [(e & E & ->)|([results rerrs] & s0 & E & H)].
    { injection E as E <-; apply Ph_resolve_raises; exact E. }
    injection E as Er <-; cbn beta iota zeta in H.
    assert (Hb : (rerrs <> [] /\ o_continue o = false /\ x = Ok (rerrs, []) /\ s' = s) \/
      ((rerrs = [] \/ o_continue o = true) /\
        then_ (check_general_prerequisites cx (installer_names (squash_resolutions (map snd results))) (o_fix o) (o_interactive o)) (fun _ =>
        if o_reinstall o then raise UnboundLocalError
        else then_ (uninstalled cx (squash_resolutions (map snd results))) (fun q =>
          let (resolved, uninstalled_errors) := q in
          match uninstalled_errors, o_continue o with
          | _ :: _, false => ret (rerrs, [])
          | _, _ =>
            then_ (check_install_prerequisites cx (map_resolutions resolved) (o_fix o) (o_interactive o)) (fun _ =>
            then_ (install_resolved run ansi cx o resolved) (fun install_errors =>
            ret (rerrs, install_errors)))
          end)) s = (x, s'))).
    { destruct rerrs as [|r rerrs]; [right; split; [left; reflexivity|exact H]|].
      destruct (o_continue o); [right; split; [right; reflexivity|exact H]|].
      left; injection H as <- <-; repeat split; discriminate. }
    clear H; destruct Hb as [(Hr & Hc & -> & ->)|[Hr H]].
    { eapply Ph_resolve_errors; eassumption. }
    apply then_inv in H; destruct H as [(e & E & ->)|([] & s1 & Eg & H)].
    { eapply Ph_general_raises; eassumption. }
    destruct (o_reinstall o) eqn:Ho.
    { injection H as <- <-; eapply Ph_reinstall; eassumption. }
    apply then_inv in H; destruct H as [(e & E & ->)|([resolved uerrs] & s2 & Ef & H)].
    { eapply Ph_filter_raises; eassumption. }
    assert (Hb : (uerrs <> [] /\ o_continue o = false /\ x = Ok (rerrs, []) /\ s' = s2) \/
      ((uerrs = [] \/ o_continue o = true) /\
            then_ (check_install_prerequisites cx (map_resolutions resolved) (o_fix o) (o_interactive o)) (fun _ =>
            then_ (install_resolved run ansi cx o resolved) (fun install_errors =>
            ret (rerrs, install_errors))) s2 = (x, s'))).
    { destruct uerrs as [|r uerrs]; [right; split; [left; reflexivity|exact H]|].
      destruct (o_continue o); [right; split; [right; reflexivity|exact H]|].
      left; injection H as <- <-; repeat split; discriminate. }
    clear H; destruct Hb as [(Hu & Hc & -> & ->)|[Hu H]].
    { eapply Ph_filter_errors; eassumption. }
    apply then_inv in H; destruct H as [(e & E & ->)|([] & s3 & Ep & H)].
    { eapply Ph_pre_raises; eassumption. }
    apply then_inv in H; destruct H as [(e & E & ->)|(es & s4 & Ei & H)].
    { apply (Ph_install o resolution s results rerrs s1 resolved uerrs s2 s3 (Err e) s'); assumption. }
    injection H as <- <-.
    apply (Ph_install o resolution s results rerrs s1 resolved uerrs s2 s3 (Ok es) s4); assumption.
  Qed.

  (** ** Running the commands *)
  Notation execs := (fun p : cmd * Z => EExec (R:=R) (fst p) (Ok (snd p))).

  Lemma run_commands_cases cont cmds errs s x s' :
    run_commands run ansi cont cmds errs s = (x, s') ->
    exists ran, (exists rest, cmds = map fst ran ++ rest /\
      match x with
      | Ok (inr errs') =>
        rest = [] /\ snd s' = snd s ++ map execs ran /\
        errs' = errs ++ map (fun _ => InstallError) (filter (fun p => negb (Z.eqb (snd p) 0)) ran) /\
        (cont = false -> Forall (fun p => snd p = 0%Z) ran)
      | Ok (inl errs') =>
        cont = false /\ errs' = errs ++ [InstallError] /\
        exists c z rest', rest = c :: rest' /\ z <> 0%Z /\ Forall (fun p => snd p = 0%Z) ran /\
          snd s' = snd s ++ map execs ran ++ [EExec c (Ok z)]
      | Err e =>
        (cont = false -> Forall (fun p => snd p = 0%Z) ran) /\
        exists c rest', rest = c :: rest' /\
          ((snd s' = snd s ++ map execs ran /\ fmt ansi (exec_message c) = Err e) \/
           (snd s' = snd s ++ map execs ran ++ [EExec c (Err e)]))
      end).
  Proof.
    revert errs s x s'; induction cmds as [|c cs IH]; intros errs s x s'; cbn [run_commands].
    - intros E; injection E as <- <-; exists []; exists []; simpl; rewrite !app_nil_r; auto.
    - intros H; remember (fmt ansi (exec_message c)) as ft eqn:Ef; symmetry in Ef.
      apply then_inv in H; destruct H as [(e & E & ->)|(t & s0 & E & H)].
      { injection E as E <-; exists []; exists (c :: cs); split; [reflexivity|]; split; [constructor|].
        exists c, cs; split; [reflexivity|]; left; simpl; rewrite app_nil_r; split; congruence. }
      injection E as _ <-; clear Ef; apply then_inv in H; destruct H as [(e & E & ->)|(z & s1 & E & H)].
      { unfold call in E; destruct (run c (fst s)) as [y w]; injection E as -> <-.
        exists []; exists (c :: cs); split; [reflexivity|]; split; [constructor|].
        exists c, cs; split; [reflexivity|]; right; reflexivity. }
      assert (E1 : snd s1 = snd s ++ [EExec c (Ok z)]).
      { unfold call in E; destruct (run c (fst s)) as [y w]; injection E as -> <-; reflexivity. }
      assert (Rec : forall errs1, run_commands run ansi cont cs errs1 s1 = (x, s') ->
                (z <> 0%Z -> cont = true) ->
                errs1 = errs ++ (if Z.eqb z 0 then [] else [InstallError]) ->
       exists ran, exists rest, c :: cs = map fst ran ++ rest /\
      match x with
      | Ok (inr errs') =>
        rest = [] /\ snd s' = snd s ++ map execs ran /\
        errs' = errs ++ map (fun _ => InstallError) (filter (fun p => negb (Z.eqb (snd p) 0)) ran) /\
        (cont = false -> Forall (fun p => snd p = 0%Z) ran)
      | Ok (inl errs') =>
        cont = false /\ errs' = errs ++ [InstallError] /\
        exists c z rest', rest = c :: rest' /\ z <> 0%Z /\ Forall (fun p => snd p = 0%Z) ran /\
          snd s' = snd s ++ map execs ran ++ [EExec c (Ok z)]
      | Err e =>
        (cont = false -> Forall (fun p => snd p = 0%Z) ran) /\
        exists c rest', rest = c :: rest' /\
          ((snd s' = snd s ++ map execs ran /\ fmt ansi (exec_message c) = Err e) \/
           (snd s' = snd s ++ map execs ran ++ [EExec c (Err e)]))
      end).
      { intros errs1 Hr Hz He; destruct (IH _ _ _ _ Hr) as (ran & rest & Ec & Hx).
        exists ((c, z) :: ran), rest; split; [simpl; rewrite Ec; reflexivity|].
        assert (Hz0 : cont = false -> z = 0%Z).
        { intros Hc; destruct (Z.eq_dec z 0) as [->|Hn]; [reflexivity|]; rewrite (Hz Hn) in Hc; discriminate. }
        destruct x as [[errs'|errs']|e].
        - destruct Hx as (Hc & He' & d & z' & rest' & H1 & H2 & H3 & H4).
          specialize (Hz0 Hc); subst z; simpl in He; rewrite app_nil_r in He; subst errs1.
          split; [exact Hc|]; split; [exact He'|]; exists d, z', rest'.
          split; [exact H1|]; split; [exact H2|]; split; [constructor; [reflexivity|exact H3]|].
          rewrite H4, E1; simpl; rewrite <- app_assoc; reflexivity.
        - destruct Hx as (H1 & H2 & H3 & H4); split; [exact H1|].
          split; [rewrite H2, E1; simpl; rewrite <- app_assoc; reflexivity|].
          split.
          + rewrite H3, He; cbn [filter snd]; destruct (Z.eqb z 0); simpl; rewrite <- app_assoc; reflexivity.
          + intros Hc; constructor; [exact (Hz0 Hc)|exact (H4 Hc)].
        - destruct Hx as (H0 & d & rest' & H1 & H2); split.
          { intros Hc; constructor; [exact (Hz0 Hc)|exact (H0 Hc)]. }
          exists d, rest'; split; [exact H1|].
          destruct H2 as [[H2 H3]|H2]; [left; split; [|exact H3]|right];
            rewrite H2, E1; simpl; rewrite <- app_assoc; reflexivity. }
      destruct (Z.eqb_spec z 0) as [->|Hz].
      + apply (Rec errs H); [congruence|simpl; rewrite app_nil_r; reflexivity].
      + destruct cont.
        * apply (Rec _ H); [reflexivity|]; destruct (Z.eqb_spec z 0); [congruence|reflexivity].
        * injection H as <- <-; exists [], (c :: cs); split; [reflexivity|].
          split; [reflexivity|]; split; [reflexivity|]; exists c, z, cs.
          split; [reflexivity|]; split; [exact Hz|]; split; [constructor|]; exact E1.
  Qed.

  (** ** Checking the items *)
  Lemma check_items_Ok (i : installer W R) n items errs (s : st) errs' (s' : st) :
    check_items i n items errs s = (Ok errs', s') ->
    exists answers : list (res bool), List.length answers = List.length items /\
      snd s' = snd s ++ map (fun p : R * res bool => ECheck n (fst p) (snd p)) (combine items answers) /\
      errs' = errs ++ map (fun _ => InstallError)
                          (filter (fun a : res bool => match a with Ok true => false | _ => true end) answers).
  Proof.
    revert errs s; induction items as [|r l IH]; intros errs s; cbn [check_items].
    - intros E; injection E as <- <-; exists []; simpl; rewrite !app_nil_r; auto.
    - intros H; apply then_inv in H; destruct H as [(e & E & D)|(es & s1 & E & H)]; [discriminate|].
      unfold catch, call in E; destruct (in_is_installed i r (fst s)) as [a w].
      assert (X : s1 = (w, snd s ++ [ECheck n r a]) /\
                  es = match a with Ok true => [] | _ => [InstallError] end).
      { destruct a as [b|e].
        - injection E as <- <-; destruct b; auto.
        - unfold handle in E; destruct (is_InstallerError e); [injection E as <- <-; auto|].
          destruct (is_Exception e); discriminate. }
      destruct X as [-> ->]; destruct (IH _ _ H) as (answers & HL & Hl & He).
      exists (a :: answers); split; [simpl; congruence|].
      split; [rewrite Hl; simpl; rewrite <- app_assoc; reflexivity|].
      rewrite He; destruct a as [[|]|e]; simpl; rewrite <- ?app_assoc, ?app_nil_r; reflexivity.
  Qed.

  (** ** Determining what is uninstalled *)
  Definition kept (e : event R) : list (text * R) :=
    match e with
    | EFilter n _ (Ok rs') => map (pair n) rs'
    | EFilter n rs (Err _) => map (pair n) rs
    | _ => []
    end.

  Lemma filter_uninstalled_raw groups (s : st) resolved uerrs (s' : st) :
    filter_uninstalled cx groups s = (Ok (resolved, uerrs), s') ->
    exists l, snd s' = snd s ++ l /\
      Forall (fun e => match e with
                       | EFilter _ _ (Ok _) => True
                       | EFilter _ _ (Err e) => is_InstallerError e = true
                       | _ => False end) l /\
      pairs resolved = flat_map kept l /\
      (forall g, In g resolved -> snd g <> []) /\
      (forall n rs x, In (EFilter n rs x) l -> In (n, rs) groups) /\
      (forall n rs, In (n, rs) groups -> exists x, In (EFilter n rs x) l) /\
      (uerrs <> [] <-> filter_failed l).
  Proof.
    revert s resolved uerrs; induction groups as [|[n rs] l IH]; intros s resolved uerrs; cbn [filter_uninstalled].
    - intros E; injection E as <- <- <-; exists []; rewrite app_nil_r; simpl.
      repeat split; auto; try tauto.
      intros (n & rs & e & []).
    - unfold with_installer; destruct (lookup_installer cx n) as [i|]; [|discriminate].
      intros H; apply then_inv in H; destruct H as [(e & _ & D)|([rs' er] & s1 & E & H)]; [discriminate|].
      apply then_inv in H; destruct H as [(e & _ & D)|([q uq] & s2 & E2 & H)]; [discriminate|].
      injection H as <- <- <-; cbn [fst snd].
      destruct (IH _ _ _ E2) as (l2 & Hl & HF & Hp & Hn & Hi & Hi' & Hf).
      unfold catch, call in E; destruct (in_filter_uninstalled i rs (fst s)) as [y w].
      assert (X : s1 = (w, snd s ++ [EFilter n rs y]) /\ map (pair n) rs' = kept (EFilter n rs y) /\
                  (er <> [] <-> is_ok y = false) /\
                  match y with Ok _ => True | Err e => is_InstallerError e = true end).
      { destruct y as [a|e].
        - injection E as <- <- <-; simpl; repeat split; auto; congruence.
        - unfold handle in E; destruct (is_InstallerError e) eqn:Ee.
          + injection E as <- <- <-; simpl; repeat split; auto; discriminate.
          + destruct (is_Exception e); discriminate. }
      destruct X as (-> & Hk & He & Hy).
      exists (EFilter n rs y :: l2); split; [rewrite Hl; simpl; rewrite <- app_assoc; reflexivity|].
      split; [constructor; assumption|].
      split; [|split; [|split; [|split]]].
      + rewrite pairs_app, Hp; cbn [flat_map]; f_equal; rewrite <- Hk.
        destruct rs'; [reflexivity|]; unfold pairs; simpl; rewrite app_nil_r; reflexivity.
      + intros g Hg; apply in_app_or in Hg; destruct Hg as [Hg|Hg]; [|auto].
        destruct rs'; simpl in Hg; [contradiction|]; destruct Hg as [<-|[]]; discriminate.
      + intros m ms x [E'|Hin]; [injection E' as -> -> _; left; reflexivity|right; eapply Hi; exact Hin].
      + intros m ms [E'|Hin]; [injection E' as <- <-; exists y; left; reflexivity|].
        destruct (Hi' _ _ Hin) as [x Hx]; exists x; right; exact Hx.
      + split.
        * intros Hne; destruct er as [|e0 er].
          -- destruct (proj1 Hf Hne) as (m & ms & e & Hin); exists m, ms, e; right; exact Hin.
          -- destruct y as [a|e]; [simpl in He; destruct He as [He _]; specialize (He ltac:(discriminate)); discriminate|].
             exists n, rs, e; left; reflexivity.
        * intros (m & ms & e & [E'|Hin]) D; apply app_eq_nil in D; destruct D as [D1 D2].
          -- injection E' as -> -> ->; apply (proj2 He); [reflexivity|exact D1].
          -- apply (proj2 Hf); [exists m, ms, e; exact Hin|exact D2].
  Qed.

  Lemma report_each (es es' : list exn) (s : st) :
    each (fun _ => note (EReport es)) es' s = (Ok tt, (fst s, snd s ++ map (fun _ => EReport es) es')).
  Proof.
    clear run ansi cx; revert s; induction es' as [|e es' IH]; intros [w l]; cbn [each map]; [rewrite app_nil_r; reflexivity|].
    unfold then_, note; rewrite IH; cbn [fst snd]; rewrite <- app_assoc; reflexivity.
  Qed.

  Lemma uninstalled_inv groups (s : st) x (s' : st) : uninstalled cx groups s = (x, s') ->
    (exists e, (x = Err e) /\ (filter_uninstalled cx groups s = (Err e, s'))) \/
    (exists resolved uerrs s1, x = Ok (resolved, uerrs) /\ filter_uninstalled cx groups s = (Ok (resolved, uerrs), s1) /\
      (s' = (fst s1, snd s1 ++ map (fun _ => EReport uerrs) uerrs))).
  Proof.
    clear run ansi; unfold uninstalled; intros H; apply then_inv in H; destruct H as [(e & E & ->)|([r ue] & s1 & E & H)]; [left; eauto|right].
    unfold then_ in H; cbn [snd] in H; rewrite report_each in H; injection H as <- <-; eauto 6.
  Qed.

  Lemma uninstalled_quiet groups (s : st) resolved s' : filter_uninstalled cx groups s = (Ok (resolved, []), s') ->
    uninstalled cx groups s = (Ok (resolved, []), s').
  Proof. clear run ansi; unfold uninstalled, then_; intros ->; destruct s'; reflexivity. Qed.

  Lemma filter_uninstalled_Ok groups (s : st) resolved uerrs (s' : st) :
    uninstalled cx groups s = (Ok (resolved, uerrs), s') ->
    exists l, snd s' = snd s ++ l /\
      Forall (fun e => match e with
                       | EFilter _ _ (Ok _) => True
                       | EFilter _ _ (Err e) => is_InstallerError e = true
                       | EReport es => es = uerrs
                       | _ => False end) l /\
      pairs resolved = flat_map kept l /\
      (forall g, In g resolved -> snd g <> []) /\
      (forall n rs x, In (EFilter n rs x) l -> In (n, rs) groups) /\
      (forall n rs, In (n, rs) groups -> exists x, In (EFilter n rs x) l) /\
      (uerrs <> [] <-> filter_failed l).
  Proof.
    clear run ansi; intros H; apply uninstalled_inv in H; destruct H as [(e & D & _)|(r & ue & s1 & E & H & ->)]; [discriminate|].
    injection E as <- <-; apply filter_uninstalled_raw in H; destruct H as (l & Hl & HF & Hp & Hn & Hi & Hi' & Hf).
    assert (Hr : forall n rs x, In (EFilter n rs x) (l ++ map (fun _ : exn => EReport uerrs) uerrs) -> In (EFilter n rs x) l).
    { intros n rs x Hin; apply in_app_or in Hin; destruct Hin as [Hin|Hin]; [exact Hin|].
      apply in_map_iff in Hin; destruct Hin as (? & D & _); discriminate. }
    exists (l ++ map (fun _ => EReport uerrs) uerrs); cbn [snd]; split; [rewrite Hl, app_assoc; reflexivity|].
    split; [apply Forall_app; split|].
    - eapply Forall_impl; [|exact HF]; intros ev; destruct ev; tauto.
    - apply Forall_forall; intros ev Hin; apply in_map_iff in Hin; destruct Hin as (? & <- & _); reflexivity.
    - split; [|split; [exact Hn|split; [|split]]].
      + rewrite Hp, flat_map_app; replace (flat_map kept (map (fun _ : exn => EReport uerrs) uerrs)) with (@nil (text * R));
          [rewrite app_nil_r; reflexivity|].
        generalize uerrs at 2; intros l0; induction l0; [reflexivity|assumption].
      + intros n rs x Hin; eapply Hi; apply Hr; exact Hin.
      + intros n rs Hin; destruct (Hi' n rs Hin) as [x Hx]; exists x; apply in_or_app; left; exact Hx.
      + rewrite Hf; split; intros (n & rs & e & Hin); exists n, rs, e; [apply in_or_app; left; exact Hin|apply Hr, Hin].
  Qed.

  (** ** One group *)
  Definition good_event (e : event R) : Prop := match e with EExec _ x => x = Ok 0%Z | _ => True end.

  Lemma no_exec_good (l : log) : no_exec l -> Forall good_event l.
  Proof.
    rewrite no_exec_Forall; intros H; eapply Forall_impl; [|exact H].
    intros e; destruct e; simpl; auto; discriminate.
  Qed.

  Lemma stops_good (l : log) : Forall good_event l -> stops_at_failure l.
  Proof.
    intros H l1 c x l2 -> Hx; apply Forall_app in H; destruct H as [_ H].
    inversion H as [|? ? Hg _]; subst; simpl in Hg; congruence.
  Qed.

  Lemma stops_app_good (l1 l2 : log) : Forall good_event l1 -> stops_at_failure l2 -> stops_at_failure (l1 ++ l2).
  Proof.
    induction l1 as [|e l1 IH]; intros H1 H2; [exact H2|].
    inversion H1 as [|? ? He H1']; subst.
    intros [|a k] c x m E Hx; injection E as Ee E.
    - subst e; simpl in He; congruence.
    - exact (IH H1' H2 k c x m E Hx).
  Qed.

  Lemma stops_app_no_exec (l1 l2 : log) : stops_at_failure l1 -> no_exec l2 -> stops_at_failure (l1 ++ l2).
  Proof.
    intros H1 H2 k c x m E Hx.
    revert k E; induction l1 as [|e l1 IH]; intros k E.
    - simpl in E; subst l2; exfalso; apply (H2 c x); apply in_or_app; right; left; reflexivity.
    - destruct k as [|a k]; simpl in E; injection E as -> E.
      + subst m; apply no_exec_app; split; [|exact H2]; exact (H1 [] c x l1 eq_refl Hx).
      + apply (IH) with (k := k); [|exact E].
        intros p d y q Ep Hy; apply (H1 (a :: p) d y q); [simpl; rewrite Ep; reflexivity|exact Hy].
  Qed.

  Lemma execs_good ran : Forall (fun p => snd p = 0%Z) ran -> Forall good_event (map execs ran).
  Proof.
    intros H; induction H as [|[c z] ran Hz H IH]; constructor; [|exact IH].
    simpl in *; rewrite Hz; reflexivity.
  Qed.

  Lemma executed_execs ran : executed (map execs ran) = map fst ran.
  Proof. induction ran as [|p ran IH]; simpl; [|rewrite IH]; reflexivity. Qed.

  Lemma executed_app (a b : log) : executed (a ++ b) = executed a ++ executed b.
  Proof. apply flat_map_app. Qed.
  Lemma composed_app (a b : log) : composed (a ++ b) = composed a ++ composed b.
  Proof. apply flat_map_app. Qed.
  Lemma compose_requests_app (a b : log) : compose_requests (a ++ b) = compose_requests a ++ compose_requests b.
  Proof. apply flat_map_app. Qed.

  Lemma executed_no_exec (l : log) : no_exec l -> executed l = [].
  Proof.
    rewrite no_exec_Forall; intros H; induction H as [|e l He H IH]; [reflexivity|].
    simpl; destruct e; try exact IH; discriminate.
  Qed.

  Definition no_compose (l : log) : Prop := Forall (fun e => match e with ECompose _ _ _ => False | _ => True end) l.
  Lemma composed_no (l : log) : no_compose l -> composed l = [] /\ compose_requests l = [].
  Proof.
    intros H; induction H as [|e l He H [IH1 IH2]]; [split; reflexivity|].
    simpl; rewrite IH1, IH2; destruct e; split; try reflexivity; contradiction.
  Qed.

  (** The complete picture of one group. *)
  Lemma install_resolutions_cases o n rs (s : st) x (s' : st) :
    o_simulate o = false ->
    install_resolutions run ansi cx o n rs s = (x, s') ->
    (x = Err XylemInternalError /\ s' = s /\ lookup_installer cx n = None) \/
    (exists y l, lookup_installer cx n <> None /\
       snd s' = snd s ++ ECompose n rs y :: l /\ no_compose l /\
       (o_continue o = false -> stops_at_failure l /\ (x = Ok [] -> Forall good_event l)) /\
       match y with
       | Err e => l = [] /\ x = Err (if is_InstallerError e then UnboundLocalError
                                     else if is_Exception e then XylemInternalError else e)
       | Ok [] => l = [] /\ x = Ok []
       | Ok cs => (exists rest, cs = executed l ++ rest) /\
                  (forall es, x = Ok es -> (o_continue o = true \/ es = []) -> executed l = cs) /\
                  (x = Ok [] -> l = map (fun c => EExec c (Ok 0%Z)) cs ++
                                    map (fun r => ECheck n r (Ok true)) rs)
       end).
  Proof.
    intros Hs; unfold install_resolutions, with_installer.
    destruct (lookup_installer cx n) as [i|] eqn:Ei.
    2:{ intros E; injection E as <- <-; left; auto. }
    unfold catch, call; destruct (in_commands i rs (o_interactive o) (o_reinstall o) (fst s)) as [y w].
    intros H; right; exists y.
    assert (D : Some i <> None) by discriminate.
    destruct y as [[|c cs]|e].
    - injection H as <- <-; exists []; split; [exact D|]; split; [reflexivity|].
      split; [constructor|]; split; [|auto].
      intros _; split; [apply stops_good; constructor|constructor].
    - rewrite Hs in H; apply then_inv in H.
      assert (NC : forall ran : list (cmd * Z), no_compose (map execs ran)).
      { intros ran; apply Forall_forall; intros ev Hin; apply in_map_iff in Hin.
        destruct Hin as (p & <- & _); exact I. }
      destruct H as [(e & H & ->)|([errs|errs] & s2 & H & H2)];
        apply run_commands_cases in H; destruct H as (ran & rest & Ec & Hx).
      + destruct Hx as (H0 & d & rest' & -> & Hl).
        destruct Hl as [[Hl _]|Hl].
        * exists (map execs ran); split; [exact D|]; split; [rewrite Hl; simpl; rewrite <- app_assoc; reflexivity|].
          split; [apply NC|]; split.
          { intros Hc; split; [apply stops_good, execs_good, H0, Hc|discriminate]. }
          split; [exists (d :: rest'); rewrite executed_execs; exact Ec|].
          split; [intros es E; discriminate|discriminate].
        * exists (map execs ran ++ [EExec d (Err e)]); split; [exact D|].
          split; [rewrite Hl; simpl; rewrite <- app_assoc; reflexivity|].
          split; [apply Forall_app; split; [apply NC|repeat constructor]|]; split.
          { intros Hc; split; [|discriminate]; apply stops_app_good; [apply execs_good, H0, Hc|].
            intros l1 c0 x0 l2 E _; destruct l1 as [|? [|? ?]]; [|discriminate|discriminate].
            injection E as <- <- <-; intros ? ? []. }
          split; [exists rest'; rewrite executed_app, executed_execs; simpl; rewrite <- app_assoc; exact Ec|].
          split; [intros es E; discriminate|discriminate].
      + destruct Hx as (Hc & -> & d & z & rest' & -> & Hz & HF & Hl).
        injection H2 as <- <-.
        exists (map execs ran ++ [EExec d (Ok z)]); split; [exact D|].
        split; [rewrite Hl; simpl; rewrite <- app_assoc; reflexivity|].
        split; [apply Forall_app; split; [apply NC|repeat constructor]|]; split.
        { intros _; split; [|discriminate]; apply stops_app_good; [apply execs_good, HF|].
          intros l1 c0 x0 l2 E _; destruct l1 as [|? [|? ?]]; [|discriminate|discriminate].
          injection E as <- <- <-; intros ? ? []. }
        split; [exists rest'; rewrite executed_app, executed_execs; simpl; rewrite <- app_assoc; exact Ec|].
        split; [|discriminate].
        intros es E [E'|E']; [congruence|]; subst es; discriminate.
      + destruct Hx as (-> & Hl & He & H0); rewrite app_nil_r in Ec.
        assert (Hck : exists l3, snd s' = snd s2 ++ l3 /\ Forall (fun e => match e with ECheck _ _ _ => True | _ => False end) l3)
          by (exact (logs_check_items _ i n rs errs (fun _ _ => I) _ _ _ H2)).
        destruct Hck as (l3 & Hl3 & HF3).
        assert (N3 : no_exec l3).
        { apply no_exec_Forall; eapply Forall_impl; [|exact HF3]; intros ev; destruct ev; simpl; tauto. }
        exists (map execs ran ++ l3); split; [exact D|].
        split; [rewrite Hl3, Hl; simpl; rewrite <- !app_assoc; reflexivity|].
        split.
        { apply Forall_app; split; [apply NC|]; eapply Forall_impl; [|exact HF3]; intros ev; destruct ev; simpl; tauto. }
        split.
        { intros Hc; split.
          - apply stops_app_no_exec; [apply stops_good, execs_good, H0, Hc|exact N3].
          - intros _; apply Forall_app; split; [apply execs_good, H0, Hc|apply no_exec_good, N3]. }
        split; [exists []; rewrite executed_app, executed_execs, (executed_no_exec l3 N3), !app_nil_r; exact Ec|].
        split; [intros es _ _; rewrite executed_app, executed_execs, (executed_no_exec l3 N3), app_nil_r; symmetry; exact Ec|].
        intros ->; apply check_items_Ok in H2; destruct H2 as (answers & HL & Hl2 & He2).
        rewrite Hl3 in Hl2; apply app_inv_head in Hl2; subst l3.
        symmetry in He2; apply app_eq_nil in He2; destruct He2 as [He1 He2].
        rewrite He1 in He; symmetry in He; simpl in He.
        apply map_eq_nil in He; apply map_eq_nil in He2.
        f_equal.
        * rewrite Ec, map_map; apply map_ext_in; intros [d z] Hin; simpl.
          assert (Z0 : (z =? 0)%Z = true); [|apply Z.eqb_eq in Z0; rewrite Z0; reflexivity].
          destruct (z =? 0)%Z eqn:Ez; [reflexivity|exfalso].
          assert (In (d, z) (filter (fun p => negb (snd p =? 0)%Z) ran))
            by (apply filter_In; simpl; rewrite Ez; auto).
          rewrite He in H; contradiction.
        * clear - HL He2; revert answers HL He2; induction rs as [|r rs IH]; intros [|a answers] HL He2; try discriminate; [reflexivity|].
          simpl in *; destruct a as [[|]|e]; try discriminate; f_equal; apply IH; [congruence|exact He2].
    - exists []; unfold handle in H; split; [exact D|].
      destruct (is_InstallerError e) eqn:E1; [|destruct (is_Exception e) eqn:E2];
        injection H as <- <-; (split; [reflexivity|]; split; [constructor|];
          split; [intros _; split; [apply stops_good; constructor|discriminate]|auto]).
  Qed.

  (** ** Several groups *)
  Lemma install_groups_done o groups all (s s' : st) :
    o_simulate o = false ->
    install_groups run ansi cx o groups all s = (Ok [], s') ->
    exists ls, Forall2 (fun g l => group_done g l \/ group_nothing_to_do g l) groups ls /\
      snd s' = snd s ++ List.concat ls.
  Proof.
    intros Hs; revert all s; induction groups as [|[n rs] l IH]; intros all s; cbn [install_groups].
    - intros E; injection E as _ <-; exists []; simpl; rewrite app_nil_r; auto.
    - intros H; apply then_inv in H; destruct H as [(e & _ & D)|(errs & s1 & E & H)]; [discriminate|].
      assert (Hr : errs = [] /\ install_groups run ansi cx o l (all ++ errs) s1 = (Ok [], s')).
      { assert (Mono : forall gs all s s', install_groups run ansi cx o gs all s = (Ok [], s') ->
                  o_continue o = true -> all = []).
        { clear - Hs; induction gs as [|[n rs] gs IH]; intros all s s' H Hc; cbn [install_groups] in H.
          - injection H as <- _; reflexivity.
          - apply then_inv in H; destruct H as [(e & _ & D)|(es & s1 & _ & H)]; [discriminate|].
            rewrite Hc in H; assert (H' : install_groups run ansi cx o gs (all ++ es) s1 = (Ok [], s'))
              by (destruct es; exact H).
            apply IH in H'; [|exact Hc]; apply app_eq_nil in H'; tauto. }
        destruct errs as [|e0 es]; [split; [reflexivity|exact H]|].
        destruct (o_continue o) eqn:Hc; [|discriminate].
        apply Mono in H; [|reflexivity]; apply app_eq_nil in H; destruct H; discriminate. }
      destruct Hr as [-> Hr]; destruct (IH _ _ Hr) as (ls & HF & Hl).
      apply (install_resolutions_cases o n rs s _ s1 Hs) in E.
      destruct E as [(D & _)|(y & l0 & _ & Hl0 & _ & _ & Hy)]; [discriminate|].
      exists ((ECompose n rs y :: l0) :: ls); split.
      + constructor; [|exact HF]; unfold group_done, group_nothing_to_do; simpl.
        destruct y as [[|c cs]|e].
        * destruct Hy as [-> _]; right; reflexivity.
        * destruct Hy as (_ & _ & Hy); left; exists (c :: cs); split; [discriminate|].
          rewrite (Hy eq_refl); reflexivity.
        * destruct Hy as [_ D]; discriminate.
      + rewrite Hl, Hl0; simpl; rewrite <- app_assoc; reflexivity.
  Qed.

  Lemma install_groups_stops o groups all (s : st) x (s' : st) :
    o_simulate o = false -> o_continue o = false ->
    install_groups run ansi cx o groups all s = (x, s') ->
    exists l, snd s' = snd s ++ l /\ stops_at_failure l.
  Proof.
    intros Hs Hc; revert all s; induction groups as [|[n rs] g IH]; intros all s; cbn [install_groups].
    - intros E; injection E as _ <-; exists []; rewrite app_nil_r; split; [reflexivity|apply stops_good; constructor].
    - intros H; apply then_inv in H; destruct H as [(e & E & ->)|(errs & s1 & E & H)];
        apply (install_resolutions_cases o n rs s _ _ Hs) in E.
      + destruct E as [(_ & -> & _)|(y & l0 & _ & Hl0 & _ & H0 & _)].
        * exists []; rewrite app_nil_r; split; [reflexivity|apply stops_good; constructor].
        * exists (ECompose n rs y :: l0); split; [exact Hl0|].
          apply (stops_app_good [_]); [repeat constructor|apply H0, Hc].
      + destruct E as [(D & _)|(y & l0 & _ & Hl0 & _ & H0 & _)]; [discriminate|].
        destruct (H0 Hc) as [Hst Hgood].
        destruct errs as [|e0 es].
        * destruct (IH _ _ H) as (l1 & Hl1 & Hs1).
          exists ((ECompose n rs y :: l0) ++ l1); split; [rewrite Hl1, Hl0, app_assoc; reflexivity|].
          apply stops_app_good; [constructor; [exact I|apply Hgood; reflexivity]|exact Hs1].
        * rewrite Hc in H; injection H as <- <-.
          exists (ECompose n rs y :: l0); split; [exact Hl0|].
          apply (stops_app_good [_]); [repeat constructor|exact Hst].
  Qed.

  Lemma install_groups_requests o groups all (s : st) x (s' : st) :
    install_groups run ansi cx o groups all s = (x, s') ->
    exists l rest, snd s' = snd s ++ l /\ pairs groups = compose_requests l ++ rest /\
      (forall n rs y, In (ECompose n rs y) l -> In (n, rs) groups) /\
      (o_simulate o = false -> o_continue o = true -> (exists es, x = Ok es) -> executed l = composed l) /\
      Forall (fun e => match e with ECompose _ _ _ | EShow _ | EExec _ _ | ECheck _ _ _ => True | _ => False end) l.
  Proof.
    revert all s; induction groups as [|[n rs] g IH]; intros all s; cbn [install_groups].
    - intros E; injection E as _ <-; exists [], []; rewrite app_nil_r; simpl; repeat split; auto.
    - assert (One : forall y (s1 : st), install_resolutions run ansi cx o n rs s = (y, s1) ->
        exists l, snd s1 = snd s ++ l /\ (compose_requests l = map (pair n) rs \/ l = []) /\
          (l = [] -> exists e, y = Err e) /\
          (forall m ms z, In (ECompose m ms z) l -> (m, ms) = (n, rs)) /\
          (o_simulate o = false -> o_continue o = true -> (exists es, y = Ok es) -> executed l = composed l) /\
          Forall (fun e => match e with ECompose _ _ _ | EShow _ | EExec _ _ | ECheck _ _ _ => True | _ => False end) l).
      { intros y s1 E; destruct (o_simulate o) eqn:Hs.
        - unfold install_resolutions, with_installer in E.
          destruct (lookup_installer cx n) as [i|].
          2:{ injection E as <- <-; exists []; rewrite app_nil_r; split; [reflexivity|]; split; [auto|].
              split; [eauto|]; split; [simpl; tauto|]; split; [discriminate|constructor]. }
          unfold catch, call in E.
          destruct (in_commands i rs (o_interactive o) (o_reinstall o) (fst s)) as [[[|c cs]|e] w].
          + injection E as <- <-; exists [ECompose n rs (Ok [])]; split; [reflexivity|].
            split; [left; simpl; rewrite app_nil_r; reflexivity|]; split; [discriminate|].
            split; [intros m ms z [E|[]]; congruence|]; split; [discriminate|repeat constructor].
          + rewrite Hs in E.
            destruct (logs_then (fun e => match e with EShow _ => True | _ => False end) unit (list exn)
                     (each (fun c => note (EShow c)) (c :: cs)) (fun _ => ret [])) with (3 := E) as (l & Hl & HF).
            { apply logs_each; intros d _; apply logs_note; exact I. }
            { intros _; apply logs_ret. }
            exists (ECompose n rs (Ok (c :: cs)) :: l).
            split; [rewrite Hl; simpl; rewrite <- app_assoc; reflexivity|].
            assert (NC : no_compose l) by (eapply Forall_impl; [|exact HF]; intros ev; destruct ev; simpl; tauto).
            split; [left; simpl; rewrite (proj2 (composed_no l NC)), app_nil_r; reflexivity|].
            split; [discriminate|]; split.
            { intros m ms z [E'|Hin]; [congruence|]; unfold no_compose in NC; rewrite Forall_forall in NC.
              apply NC in Hin; contradiction. }
            split; [discriminate|].
            constructor; [exact I|]; eapply Forall_impl; [|exact HF]; intros ev; destruct ev; simpl; tauto.
          + assert (E' : s1 = (w, snd s ++ [ECompose n rs (Err e)]) /\ exists e', y = Err e').
            { unfold handle in E; destruct (is_InstallerError e); [|destruct (is_Exception e)];
                injection E as <- <-; eauto. }
            destruct E' as [-> He]; exists [ECompose n rs (Err e)]; split; [reflexivity|].
            split; [left; simpl; rewrite app_nil_r; reflexivity|]; split; [auto|].
            split; [intros m ms z [E'|[]]; congruence|]; split; [discriminate|repeat constructor].
        - assert (HL : logs (fun e => match e with ECompose _ _ _ | EShow _ | EExec _ _ | ECheck _ _ _ => True | _ => False end)
                         (install_resolutions run ansi cx o n rs)).
          { unfold install_resolutions; apply logs_with; intros i; apply logs_catch.
            - apply logs_call; intros; exact I.
            - intros [|c cs]; [apply logs_ret|]; rewrite Hs.
              apply logs_then; [apply logs_run_commands; intros; exact I|].
              intros [e|e]; [apply logs_ret|apply logs_check_items; intros; exact I].
            - intros e; apply logs_handle, logs_raise. }
          destruct (HL _ _ _ E) as (lF & HlF & HFF).
          apply (install_resolutions_cases o n rs s _ _ Hs) in E.
          destruct E as [(-> & -> & _)|(y0 & l0 & _ & Hl0 & NC & _ & Hy)].
          + exists []; rewrite app_nil_r; split; [reflexivity|]; split; [auto|].
            split; [eauto|]; split; [simpl; tauto|]; split; [|constructor].
            intros _ _ [es D]; discriminate.
          + exists (ECompose n rs y0 :: l0); split; [exact Hl0|].
            split; [left; simpl; rewrite (proj2 (composed_no l0 NC)), app_nil_r; reflexivity|].
            split; [discriminate|]; split.
            { intros m ms z [E'|Hin]; [congruence|]; unfold no_compose in NC; rewrite Forall_forall in NC.
              apply NC in Hin; contradiction. }
            split.
            * intros _ Hc [es ->]; simpl; rewrite (proj1 (composed_no l0 NC)), app_nil_r.
              destruct y0 as [[|c cs]|e].
              -- destruct Hy as [-> _]; reflexivity.
              -- destruct Hy as (_ & Hy & _); apply (Hy es eq_refl); left; exact Hc.
              -- destruct Hy as [_ D]; discriminate.
            * rewrite HlF in Hl0; apply app_inv_head in Hl0; subst lF; exact HFF. }
      intros H; apply then_inv in H; destruct H as [(e & E & ->)|(errs & s1 & E & H)];
        apply One in E; destruct E as (l & Hl & Hr & He & Hin & Hex & HF).
      + destruct Hr as [Hr|Hr].
        * exists l, (pairs g); split; [exact Hl|]; split; [simpl; rewrite Hr; reflexivity|].
          split; [intros m ms z Hm; apply Hin in Hm; left; congruence|].
          split; [intros _ _ [es D]; discriminate|exact HF].
        * subst l; exists [], (pairs ((n, rs) :: g)); split; [exact Hl|]; split; [reflexivity|].
          split; [simpl; tauto|]; split; [intros _ _ [es D]; discriminate|constructor].
      + destruct Hr as [Hr|Hr]; [|subst l; destruct (He eq_refl); discriminate].
        assert (Stop : forall a, (Ok a, s1) = (x, s') -> o_continue o = false ->
          exists l rest, snd s' = snd s ++ l /\ pairs ((n, rs) :: g) = compose_requests l ++ rest /\
      (forall m ms y, In (ECompose m ms y) l -> In (m, ms) ((n, rs) :: g)) /\
      (o_simulate o = false -> o_continue o = true -> (exists es, x = Ok es) -> executed l = composed l) /\
      Forall (fun e => match e with ECompose _ _ _ | EShow _ | EExec _ _ | ECheck _ _ _ => True | _ => False end) l).
        { intros a Ea Hc; injection Ea as <- <-; exists l, (pairs g); split; [exact Hl|].
          split; [simpl; rewrite Hr; reflexivity|].
          split; [intros m ms z Hm; apply Hin in Hm; left; congruence|].
          split; [intros _ D; congruence|exact HF]. }
        assert (Go : install_groups run ansi cx o g (all ++ errs) s1 = (x, s') ->
          exists l rest, snd s' = snd s ++ l /\ pairs ((n, rs) :: g) = compose_requests l ++ rest /\
      (forall m ms y, In (ECompose m ms y) l -> In (m, ms) ((n, rs) :: g)) /\
      (o_simulate o = false -> o_continue o = true -> (exists es, x = Ok es) -> executed l = composed l) /\
      Forall (fun e => match e with ECompose _ _ _ | EShow _ | EExec _ _ | ECheck _ _ _ => True | _ => False end) l).
        { intros Hg; destruct (IH _ _ Hg) as (l2 & rest & Hl2 & Hp & Hin2 & Hex2 & HF2).
          exists (l ++ l2), rest; split; [rewrite Hl2, Hl, app_assoc; reflexivity|].
          split; [simpl; rewrite compose_requests_app, Hr, Hp, app_assoc; reflexivity|].
          split.
          { intros m ms z Hm; apply in_app_or in Hm; destruct Hm as [Hm|Hm];
              [apply Hin in Hm; left; congruence|right; eapply Hin2; exact Hm]. }
          split; [|apply Forall_app; auto].
          intros Hs Hc Hx; rewrite executed_app, composed_app, Hex2, Hex by eauto; reflexivity. }
        destruct errs as [|e0 es]; [exact (Go H)|].
        destruct (o_continue o) eqn:Hc; [exact (Go H)|exact (Stop _ H eq_refl)].
  Qed.

  (** ** Logs of the whole call *)
  Definition isG (e : event R) : Prop := match e with EGeneral _ _ => True | _ => False end.
  Definition isF (e : event R) : Prop := match e with EFilter _ _ _ | EReport _ => True | _ => False end.
  Definition isP (e : event R) : Prop := match e with EInstallPre _ _ _ => True | _ => False end.
  Definition isI (e : event R) : Prop :=
    match e with ECompose _ _ _ | EShow _ | EExec _ _ | ECheck _ _ _ => True | _ => False end.

  Lemma general_log names a b (s : st) x (s' : st) :
    check_general_prerequisites cx names a b s = (x, s') ->
    exists l, snd s' = snd s ++ l /\ Forall isG l /\
      (x = Ok tt -> forall n, In n names -> In (EGeneral n (Ok tt)) l) /\
      (forall n y, In (EGeneral n y) l -> In n names).
  Proof.
    clear run ansi; unfold check_general_prerequisites; revert s; induction names as [|n names IH]; intros s; cbn [each].
    - intros E; injection E as _ <-; exists []; rewrite app_nil_r; simpl; repeat split; auto; tauto.
    - intros H; apply then_inv in H; destruct H as [(e & E & ->)|([] & s1 & E & H)];
        unfold with_installer in E; destruct (lookup_installer cx n) as [i|].
      + unfold call in E; destruct (in_check_general i a b (fst s)) as [y w]; injection E as -> <-.
        exists [EGeneral n (Err e)]; split; [reflexivity|]; split; [repeat constructor|].
        split; [discriminate|]; intros m y [E|[]]; injection E as -> _; left; reflexivity.
      + injection E as _ <-; exists []; rewrite app_nil_r; simpl; repeat split; auto; try discriminate; tauto.
      + unfold call in E; destruct (in_check_general i a b (fst s)) as [y w]; injection E as -> <-.
        destruct (IH _ H) as (l & Hl & HF & Hall & Hin).
        exists (EGeneral n (Ok tt) :: l); split; [rewrite Hl; simpl; rewrite <- app_assoc; reflexivity|].
        split; [constructor; [exact I|exact HF]|]; split.
        * intros Hx m [<-|Hm]; [left; reflexivity|right; apply Hall; assumption].
        * intros m y [E|Hm]; [injection E as -> _; left; reflexivity|right; eapply Hin; exact Hm].
      + discriminate.
  Qed.

  Lemma pre_log m a b (s : st) x (s' : st) :
    check_install_prerequisites cx m a b s = (x, s') ->
    exists l, snd s' = snd s ++ l /\ Forall isP l /\
      (x = Ok tt -> forall n rs, In (n, rs) m -> In (EInstallPre n rs (Ok tt)) l).
  Proof.
    unfold check_install_prerequisites; revert s; induction m as [|[n rs] m IH]; intros s; cbn [each].
    - intros E; injection E as _ <-; exists []; rewrite app_nil_r; simpl; repeat split; auto; tauto.
    - intros H; apply then_inv in H; destruct H as [(e & E & ->)|([] & s1 & E & H)];
        unfold with_installer in E; cbn [fst snd] in E; destruct (lookup_installer cx n) as [i|].
      + unfold call in E; destruct (in_check_install i rs a b (fst s)) as [y w]; injection E as -> <-.
        exists [EInstallPre n rs (Err e)]; split; [reflexivity|]; split; [repeat constructor|discriminate].
      + injection E as _ <-; exists []; rewrite app_nil_r; simpl; repeat split; auto; discriminate.
      + unfold call in E; destruct (in_check_install i rs a b (fst s)) as [y w]; injection E as -> <-.
        destruct (IH _ H) as (l & Hl & HF & Hall).
        exists (EInstallPre n rs (Ok tt) :: l); split; [rewrite Hl; simpl; rewrite <- app_assoc; reflexivity|].
        split; [constructor; [exact I|exact HF]|].
        intros Hx k ks [E|Hm]; [injection E as <- <-; left; reflexivity|right; apply Hall; assumption].
      + discriminate.
  Qed.

  Lemma filter_log groups (s : st) x (s' : st) :
    uninstalled cx groups s = (x, s') -> exists l, snd s' = snd s ++ l /\ Forall isF l.
  Proof. apply (logs_filter isF); intros; exact I. Qed.

  (** Either nothing of the installation phase happened, or everything before it
      succeeded. *)
  Lemma install_log o resolution (s : st) x (s' : st) :
    install run ansi cx o resolution s = (x, s') ->
    exists lg lf lp li, snd s' = snd s ++ lg ++ lf ++ lp ++ li /\
      Forall isG lg /\ Forall isF lf /\ Forall isP lp /\ Forall isI li /\
      (li = [] \/
       exists results rerrs resolved (uerrs : list exn) (s3 : st) (y : res (list exn)),
         resolution = Ok (results, rerrs) /\ (rerrs = [] \/ o_continue o = true) /\
         o_reinstall o = false /\
         (forall n, In n (map fst (map snd results)) -> In (EGeneral n (Ok tt)) lg) /\
         pairs resolved = flat_map kept lf /\ (forall g, In g resolved -> snd g <> []) /\
         (uerrs <> [] <-> filter_failed lf) /\ (uerrs = [] \/ o_continue o = true) /\
         (forall n rs, In (n, rs) (map_resolutions resolved) -> In (EInstallPre n rs (Ok tt)) lp) /\
         install_resolved run ansi cx o resolved s3 = (y, s') /\ snd s' = snd s3 ++ li /\
         x = match y with Ok es => Ok (rerrs, es) | Err e => Err e end).
  Proof.
    intros H; apply install_phases in H.
    destruct H as [e Hres|results rerrs Hres Hr Hc|results rerrs e s1 Hres Hr Eg
      |results rerrs s1 Hres Hr Eg Ho|results rerrs s1 e s2 Hres Hr Eg Ho Ef
      |results rerrs s1 resolved uerrs s2 Hres Hr Eg Ho Ef Hu Hc
      |results rerrs s1 resolved uerrs s2 e s3 Hres Hr Eg Ho Ef Hu Ep
      |results rerrs s1 resolved uerrs s2 s3 y s4 Hres Hr Eg Ho Ef Hu Ep Ei].
    - exists [], [], [], []; simpl; rewrite app_nil_r; repeat split; auto.
    - exists [], [], [], []; simpl; rewrite app_nil_r; repeat split; auto.
    - apply general_log in Eg; destruct Eg as (lg & Hl & HF & _).
      exists lg, [], [], []; simpl; rewrite app_nil_r; repeat split; auto.
    - apply general_log in Eg; destruct Eg as (lg & Hl & HF & _).
      exists lg, [], [], []; simpl; rewrite app_nil_r; repeat split; auto.
    - apply general_log in Eg; destruct Eg as (lg & Hl & HF & _).
      apply filter_log in Ef; destruct Ef as (lf & Hl2 & HF2).
      exists lg, lf, [], []; simpl; rewrite Hl2, Hl, app_nil_r, app_assoc; repeat split; auto.
    - apply general_log in Eg; destruct Eg as (lg & Hl & HF & _).
      apply filter_log in Ef; destruct Ef as (lf & Hl2 & HF2).
      exists lg, lf, [], []; simpl; rewrite Hl2, Hl, app_nil_r, app_assoc; repeat split; auto.
    - apply general_log in Eg; destruct Eg as (lg & Hl & HF & _).
      apply filter_log in Ef; destruct Ef as (lf & Hl2 & HF2).
      apply pre_log in Ep; destruct Ep as (lp & Hl3 & HF3 & _).
      exists lg, lf, lp, []; rewrite Hl3, Hl2, Hl, app_nil_r, !app_assoc; repeat split; auto.
    - apply general_log in Eg; destruct Eg as (lg & Hl & HF & Hall & _).
      apply filter_uninstalled_Ok in Ef; destruct Ef as (lf & Hl2 & HF2 & Hp & Hn & _ & _ & Hff).
      apply pre_log in Ep; destruct Ep as (lp & Hl3 & HF3 & Hpre).
      pose proof Ei as Ei'; apply install_groups_requests in Ei'.
      destruct Ei' as (li & rest & Hl4 & _ & _ & _ & HF4).
      exists lg, lf, lp, li.
      split; [rewrite Hl4, Hl3, Hl2, Hl, !app_assoc; reflexivity|].
      split; [exact HF|]; split.
      { eapply Forall_impl; [|exact HF2]; intros ev; destruct ev; simpl; tauto. }
      split; [exact HF3|]; split; [exact HF4|]; right.
      exists results, rerrs, resolved, uerrs, s3, y.
      split; [exact Hres|]; split; [exact Hr|]; split; [exact Ho|]; split.
      { intros n Hin; apply (Hall eq_refl); unfold installer_names; apply remove_duplicates_In.
        unfold squash_resolutions; apply squash_names; right; exact Hin. }
      split; [exact Hp|]; split; [exact Hn|]; split; [exact Hff|]; split; [exact Hu|].
      split; [exact (Hpre eq_refl)|]; split; [exact Ei|]; split; [exact Hl4|reflexivity].
  Qed.

End Run.

Section Post.
  Context {R : Type}.
  Implicit Types l : list (event R).
  Lemma isG_no_exec l : Forall isG l -> no_exec l.
  Proof. intros H; apply no_exec_Forall; eapply Forall_impl; [|exact H]; intros e; destruct e; simpl; tauto. Qed.
  Lemma isF_no_exec l : Forall isF l -> no_exec l.
  Proof. intros H; apply no_exec_Forall; eapply Forall_impl; [|exact H]; intros e; destruct e; simpl; tauto. Qed.
  Lemma isP_no_exec l : Forall isP l -> no_exec l.
  Proof. intros H; apply no_exec_Forall; eapply Forall_impl; [|exact H]; intros e; destruct e; simpl; tauto. Qed.
  Lemma isG_no_compose l : Forall isG l -> no_compose l.
  Proof. intros H; eapply Forall_impl; [|exact H]; intros e; destruct e; simpl; tauto. Qed.
  Lemma isF_no_compose l : Forall isF l -> no_compose l.
  Proof. intros H; eapply Forall_impl; [|exact H]; intros e; destruct e; simpl; tauto. Qed.
  Lemma isP_no_compose l : Forall isP l -> no_compose l.
  Proof. intros H; eapply Forall_impl; [|exact H]; intros e; destruct e; simpl; tauto. Qed.
End Post.
