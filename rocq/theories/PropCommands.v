(** C58 (lookup answers), C59 (exit codes), C82 (command plugins). *)
From Verif Require Import Base Dict PyVal RulesDict Verify VerifySpec VerifyProofs Sources Util Installer Resolve
  Terminal Install InstallSpec InstallProofs PropInstall SourcesProofs VerifiedLookup PropSources Commands.

(** *** C58 *)

(** How a rule is presented: a rule with nothing but packages by these, any other rule
    in full. *)
Definition shown_rule (rule shown : pyval) : Prop :=
  rule = VDict [(KStr (u "packages"), shown)] \/
  ((forall x, rule <> VDict [(KStr (u "packages"), x)]) /\ shown = rule).

(** How the rules for a key are presented: each under its installer, or just the
    packages if they are all there is for the default installer. *)
Definition shows (default : option text) (shown : pyval) (rules : pydict) : Prop :=
  (exists e, shown = VDict e /\
     Forall2 (fun p q => fst p = fst q /\ shown_rule (snd p) (snd q)) rules e) \/
  (exists n, default = Some n /\ rules = [(KStr n, VDict [(KStr (u "packages"), shown)])] /\
     forall d, shown <> VDict d).

Section C58.
  Variable uni : N -> bool.
  Notation acc := (accepted_identifier uni).

  Lemma db_lookup_items l key ic d : db_lookup uni l key ic = Ok d -> Forall (item_ok uni) d.
  Proof.
    unfold db_lookup; generalize (rev l); clear l; intros l.
    assert (G : forall a, Forall (item_ok uni) a ->
       foldM (fun acc0 s => let* new := source_lookup uni s key ic in raw_merge new acc0 None) l a = Ok d ->
       Forall (item_ok uni) d).
    { induction l as [|s l IH]; intros a Ha E; cbn [foldM] in E; [injection E as <-; exact Ha|].
      apply bind_Ok in E; destruct E as (a' & E1 & E); apply bind_Ok in E1; destruct E1 as (v & E1 & E2).
      apply (IH a'); [|exact E].
      unfold source_lookup in E1; apply bind_Ok in E1; destruct E1 as (v0 & _ & E1).
      apply bind_Ok in E1; destruct E1 as ([] & Ev & E1); injection E1 as <-.
      destruct (raw_merge_verified uni v0 a None Ev) as (dd & -> & Em); rewrite E2 in Em; injection Em as ->.
      apply (proj1 (verify_installer_dict_Ok _ _ _)) in Ev; destruct Ev as (dd' & Edd & Hall); injection Edd as <-.
      clear - Ha Hall; revert a Ha; induction dd as [|[k x] dd IH]; intros a Ha; cbn [fold_left fst snd]; [exact Ha|].
      apply IH; [intros k' x' Hin; apply Hall; right; exact Hin|].
      apply Forall_set; [|exact Ha]; destruct (Hall k x (or_introl eq_refl)) as (H1 & H2 & H3).
      split; [exact H1|]; split; [intros E; specialize (H2 E); discriminate|exact H3]. }
    apply G; constructor.
  Qed.

  Lemma compact_rule_shown r : rule_ok acc r -> exists c, raw_compact_rule r = Ok c /\ shown_rule r c /\
    ((exists d, c = VDict d) -> c = r).
  Proof.
    intros (d & -> & Hall); unfold raw_compact_rule; cbn [text_in bind].
    destruct (has (KStr (u "packages")) d) eqn:Eh.
    - cbn [py_len bind]; destruct d as [|[k x] [|q d]].
      + discriminate.
      + cbn [List.length Nat.eqb]; unfold has in Eh; rewrite get_cons in Eh.
        destruct (eqb_spec (KStr (u "packages")) k) as [Hk|Hk]; [|rewrite get_nil in Eh; discriminate]; subst k.
        unfold k_packages; rewrite get_cons, eqb_refl; exists x; split; [reflexivity|]; split; [left; reflexivity|].
        intros (d & ->); destruct (Hall _ _ (or_introl eq_refl)) as (_ & Hp & _).
        destruct (Hp eq_refl) as (l & El); discriminate.
      + cbn [List.length Nat.eqb]; eexists; split; [reflexivity|]; split; [|reflexivity].
        right; split; [intros y Ey; discriminate|reflexivity].
    - eexists; split; [reflexivity|]; split; [|reflexivity]; right; split; [|reflexivity].
      intros y Ey; injection Ey as ->; unfold has in Eh; rewrite get_cons, eqb_refl in Eh; discriminate.
  Qed.

  Lemma compact_shows d def : Forall (item_ok uni) d ->
    exists v, raw_compact_installer_dict d def = Ok v /\ shows def v d.
  Proof.
    intros Hd; unfold raw_compact_installer_dict.
    assert (G : exists e, mapM (fun p : pkey * pyval => let* c := raw_compact_rule (snd p) in Ok (fst p, c)) d = Ok e /\
      Forall2 (fun p q => fst p = fst q /\ shown_rule (snd p) (snd q) /\ ((exists dd, snd q = VDict dd) -> snd q = snd p)) d e).
    { induction Hd as [|[k x] d (H1 & H2 & H3) Hd (e & E & F)]; cbn [mapM].
      - exists []; split; [reflexivity|constructor].
      - cbn [fst snd] in *; destruct (compact_rule_shown x H3) as (c & Ec & Hc & Hn); rewrite Ec; cbn [bind].
        rewrite E; cbn [bind]; eexists; split; [reflexivity|]; constructor; [|exact F].
        split; [reflexivity|]; split; [exact Hc|exact Hn]. }
    destruct G as (e & E & F); rewrite E; cbn [bind].
    assert (Hnd : get (KStr default_installer) e = None).
    { apply get_None; intros Hin; unfold keys in Hin.
      assert (Hk : map fst e = map fst d) by (clear - F; induction F as [|p q d e [Hp _] F IH]; cbn [map]; [reflexivity|congruence]).
      rewrite Hk in Hin; apply in_map_iff in Hin; destruct Hin as (p & Hp & Hin); rewrite Forall_forall in Hd.
      destruct (Hd p Hin) as (_ & H2 & _); exact (H2 Hp). }
    assert (Hfull : shows def (VDict e) d).
    { left; exists e; split; [reflexivity|]; clear - F; induction F as [|p q d e [Hp [Hq _]] F IH]; constructor; auto. }
    unfold raw_compact_rename; rewrite Hnd.
    destruct def as [[|c n]|]; cbn [bind]; try (rewrite Hnd; eexists; split; [reflexivity|exact Hfull]).
    destruct (get (KStr (c :: n)) e) as [r|] eqn:Eg; [|eexists; split; [reflexivity|exact Hfull]].
    destruct (Nat.eqb_spec (List.length e) 1) as [Hl|Hl]; cbn [andb]; [|eexists; split; [reflexivity|exact Hfull]].
    destruct e as [|[k x] [|q e]]; try discriminate.
    inversion F as [|[k' x'] q' d' e' Hp F' ]; subst; inversion F'; subst; cbn [fst snd] in Hp; destruct Hp as (-> & Hs & Hd2).
    rewrite get_cons in Eg; destruct (eqb_spec (KStr (c :: n)) k) as [Hk|Hk]; [|rewrite get_nil in Eg; discriminate].
    injection Eg as ->; subst k.
    destruct r as [ | | | | | |dr]; cbn [negb]; try (eexists; split; [reflexivity|]; right; exists (c :: n); split; [reflexivity|];
      split; [|intros dd Edd; discriminate];
      destruct Hs as [->|[_ Hs]]; [reflexivity|];
      exfalso; rewrite Forall_forall in Hd; destruct (Hd _ (or_introl eq_refl)) as (_ & _ & Hr); cbn [snd] in Hr;
      destruct Hr as (d0 & Ed0 & _); congruence).
    eexists; split; [reflexivity|exact Hfull].
  Qed.

  Variable sha1 : text -> list N.
  Variable loads : text -> res pyval.

  (** Asked for compact presentation, the API presents what the database answers, and
      fails only if the database does. *)
  Theorem C58_compact_partial : forall sources cache_dir f ic key l f' l',
    sources = Ok l -> db_load_from_cache sha1 loads true cache_dir l f = (l', f', Ok tt) ->
    (forall d, db_lookup uni l' key ic = Ok d ->
       exists v, lookup uni sha1 loads sources cache_dir f ic key true = Ok v /\ shows (ic_default ic) v d) /\
    (forall e, db_lookup uni l' key ic = Err e ->
       lookup uni sha1 loads sources cache_dir f ic key true = Err e).
  Proof.
    intros sources cd f ic key l f' l' -> E; unfold lookup; cbn [bind]; rewrite E; cbn [bind]; split.
    - intros d Hd; rewrite Hd; cbn [bind]; apply compact_shows; eapply db_lookup_items; exact Hd.
    - intros e He; rewrite He; reflexivity.
  Qed.

  Lemma mapM_app_Ok {A B} (g : A -> res B) l l' e : mapM g l = Ok e ->
    mapM g (l ++ l') = (let* e' := mapM g l' in Ok (e ++ e')).
  Proof.
    revert e. induction l as [|a l IH]; intros e E; cbn [mapM app] in *.
    - injection E as <-. destruct (mapM g l'); reflexivity.
    - apply bind_Ok in E as (b & Eb & E). apply bind_Ok in E as (e1 & E1 & E). injection E as <-.
      rewrite Eb. cbn [bind]. rewrite (IH e1 E1). destruct (mapM g l'); reflexivity.
  Qed.

  (** An answer in which the rule of the default installer is still called default_installer
      (the API function on its own): presented as if it were listed under the name of the
      default installer; rejected if that name is there as well. *)
  Theorem C58_default_renamed : forall d n rule, n <> [] ->
    get (KStr (u "default_installer")) d = Some rule ->
    Forall (fun p => rule_ok acc (snd p)) d ->
    (get (KStr n) d <> None -> raw_compact_installer_dict d (Some n) = Err ValueError) /\
    (get (KStr n) d = None -> n <> u "default_installer" -> name_ok acc [u "default_installer"] (KStr n) ->
     (forall k x, In (k, x) d -> name_ok acc [u "default_installer"] k) ->
     exists v, raw_compact_installer_dict d (Some n) = Ok v /\
       shows (Some n) v (filter (fun p => negb (eqb (KStr (u "default_installer")) (fst p))) d ++ [(KStr n, rule)])).
  Proof.
    intros d n rule Hn Hdef Hall. destruct n as [|c n]; [congruence|]. clear Hn.
    assert (G : forall l, Forall (fun p : pkey * pyval => rule_ok acc (snd p)) l ->
      exists e, mapM (fun p : pkey * pyval => let* c := raw_compact_rule (snd p) in Ok (fst p, c)) l = Ok e /\
        (forall k, get k e = None <-> get k l = None) /\
        (forall k x, get k l = Some x -> exists y, get k e = Some y /\ raw_compact_rule x = Ok y) /\
        mapM (fun p : pkey * pyval => let* c := raw_compact_rule (snd p) in Ok (fst p, c))
          (filter (fun p => negb (eqb (KStr (u "default_installer")) (fst p))) l) =
        Ok (filter (fun p => negb (eqb (KStr (u "default_installer")) (fst p))) e)).
    { induction 1 as [|[k x] l Hr Hl (e & E & E1 & E2 & E3)]; cbn [mapM].
      - exists []. split; [reflexivity|]. split; [intros k; rewrite !get_nil; tauto|].
        split; [intros k x H; rewrite get_nil in H; discriminate H|reflexivity].
      - cbn [fst snd] in *. destruct (compact_rule_shown x Hr) as (y & Ey & _). rewrite Ey. cbn [bind]. rewrite E. cbn [bind].
        exists ((k, y) :: e). split; [reflexivity|].
        split; [intros k'; rewrite !get_cons; destruct (eqb k' k); [split; discriminate|apply E1]|].
        split; [intros k' x'; rewrite !get_cons; destruct (eqb k' k); [intros H; injection H as <-; eauto|apply E2]|].
        cbn [filter fst]. destruct (eqb (KStr (u "default_installer")) k); cbn [negb]; [exact E3|].
        cbn [mapM fst snd]. rewrite Ey. cbn [bind]. rewrite E3. reflexivity. }
    destruct (G d Hall) as (e & E & E1 & E2 & E3).
    destruct (E2 _ _ Hdef) as (y & Hy & Ey).
    split.
    - intros Hg. unfold raw_compact_installer_dict. rewrite E. cbn [bind]. unfold raw_compact_rename.
      unfold default_installer. rewrite Hy. unfold has.
      destruct (get (KStr (c :: n)) e) eqn:Eg; [reflexivity|]. apply E1 in Eg. congruence.
    - intros Hg Hne Hname Hnames.
      set (d' := filter (fun p => negb (eqb (KStr (u "default_installer")) (fst p))) d ++ [(KStr (c :: n), rule)]).
      assert (Ed : raw_compact_installer_dict d (Some (c :: n)) = raw_compact_installer_dict d' (Some (c :: n))).
      { unfold raw_compact_installer_dict. rewrite E. unfold d'. rewrite (mapM_app_Ok _ _ _ _ E3). cbn [mapM bind fst snd]. rewrite Ey. cbn [bind].
        unfold raw_compact_rename, default_installer. rewrite Hy. unfold has.
        assert (Hge : get (KStr (c :: n)) e = None) by (apply E1, Hg). rewrite Hge.
        assert (Es : set (KStr (c :: n)) y e = e ++ [(KStr (c :: n), y)]).
        { rewrite <- (app_nil_r e) at 1. rewrite set_app_fresh; [reflexivity|exact Hge]. }
        rewrite Es. unfold del. rewrite filter_app. cbn [filter fst].
        destruct (eqb_spec (KStr (u "default_installer")) (KStr (c :: n))) as [Eq|_]; [exfalso; congruence|]. cbn [negb].
        match goal with |- context [get (KStr (u "default_installer")) ?l] =>
          assert (Hnone : get (KStr (u "default_installer")) l = None) end.
        { apply get_None. unfold keys. rewrite map_app, in_app_iff. intros [H|[H|[]]].
          - apply in_map_iff in H as (q & Hq & H). apply filter_In in H as [_ H]. rewrite Hq, eqb_refl in H. discriminate H.
          - cbn [fst] in H. congruence. }
        rewrite Hnone. reflexivity. }
      rewrite Ed. apply compact_shows. apply Forall_app. split.
      + apply Forall_forall. intros [k x] Hin. apply filter_In in Hin as [Hin Hk]. cbn [fst] in Hk.
        rewrite Forall_forall in Hall. split; [exact (Hnames k x Hin)|]. split; [|exact (Hall _ Hin)].
        cbn [fst]. intros ->. unfold default_installer in Hk. rewrite eqb_refl in Hk. discriminate Hk.
      + constructor; [|constructor]. split; [exact Hname|]. split.
        * cbn [fst]. unfold default_installer. congruence.
        * apply get_In in Hdef. rewrite Forall_forall in Hall. exact (Hall _ Hdef).
  Qed.

  (** The presentation can be read back: it determines the rules. *)
  Theorem C58_compact_unambiguous : forall default shown l1 l2 key1 key2 ic1 ic2 d1 d2,
    db_lookup uni l1 key1 ic1 = Ok d1 -> db_lookup uni l2 key2 ic2 = Ok d2 ->
    shows default shown d1 -> shows default shown d2 -> d1 = d2.
  Proof.
    intros df sh l1 l2 k1 k2 i1 i2 d1 d2 E1 E2 H1 H2.
    apply db_lookup_items in E1, E2.
    assert (R : forall r r' x, rule_ok acc r -> rule_ok acc r' -> shown_rule r x -> shown_rule r' x -> r = r').
    { intros r r' x Hr Hr' [->|[Ha ->]] [->|[Hb Eb]].
      - reflexivity.
      - subst x; destruct Hr' as (d' & -> & Hall'); destruct Hr as (d & Ed & Hall); injection Ed as <-.
        destruct (Hall _ _ (or_introl eq_refl)) as (_ & Hp & _); destruct (Hp eq_refl) as (ll & Ell); discriminate.
      - destruct Hr as (d & -> & _); destruct Hr' as (d' & Ed & Hall); injection Ed as <-.
        destruct (Hall _ _ (or_introl eq_refl)) as (_ & Hp & _); destruct (Hp eq_refl) as (ll & Ell); discriminate.
      - exact Eb. }
    destruct H1 as [(e & -> & F1)|(n & Hn & -> & Hnd)], H2 as [(e' & Ee & F2)|(n' & Hn' & -> & Hnd')].
    - injection Ee as <-; revert d2 E2 F2; induction F1 as [|[k x] [k' y] d e [Hk Hs] F IH]; intros d2 E2 F2;
        inversion F2 as [|[k2' x2] q d2' e2 [Hk2 Hs2] F2']; subst; [reflexivity|].
      inversion E1 as [|? ? (_ & _ & Hr) E1']; inversion E2 as [|? ? (_ & _ & Hr2) E2']; subst.
      cbn [fst snd] in *; subst; f_equal; [f_equal; eapply R; eassumption|]; apply IH; assumption.
    - elim (Hnd' e); reflexivity.
    - elim (Hnd e'); exact Ee.
    - congruence.
  Qed.

  (** Not asked for compact presentation, it never answers. *)
  Theorem C58_plain_refuted : forall sources cache_dir f ic key,
    (forall v, lookup uni sha1 loads sources cache_dir f ic key false <> Ok v) /\
    (forall l l' f' d, sources = Ok l -> db_load_from_cache sha1 loads true cache_dir l f = (l', f', Ok tt) ->
       db_lookup uni l' key ic = Ok d ->
       lookup uni sha1 loads sources cache_dir f ic key false = Err UnboundLocalError).
  Proof.
    intros sources cd f ic key; split.
    - intros v E; unfold lookup in E; apply bind_Ok in E; destruct E as (l & _ & E).
      destruct (db_load_from_cache sha1 loads true cd l f) as [[l' f'] r].
      apply bind_Ok in E; destruct E as (? & _ & E); apply bind_Ok in E; destruct E as (? & _ & E); discriminate.
    - intros l l' f' d -> E Ed; unfold lookup; cbn [bind]; rewrite E; cbn [bind]; rewrite Ed; reflexivity.
  Qed.
End C58.

(** *** C59 *)

(** A run that reports no error and is not ended by an exception. *)
Definition reports_error (out : list output) : Prop := exists es, In (ErrorReport es) out.
Definition clean {A} (r : list output * res A) : Prop := ~ reports_error (fst r) /\ exists a, snd r = Ok a.

Definition exit_code (r : list output * exn) : Z := process_status (snd r).

(** The documented errors of the code base: the subclasses of XylemError. *)
Definition documented_errors : list exn :=
  [XylemError; XylemInternalError; ResolutionError; InstallError; InstallerError; InvalidRuleError;
   InstallerPrerequisiteError; SpecParsingError; UnknownSpecError; DownloadFailure; InvalidPluginError;
   ConfigValueError; ConfigDescriptionError; UnsupportedOSError; UnsupportedOSVersionError].

(** An exception that is not reported still makes the exit code 1, unless it asks for another. *)
Theorem C59_uncaught parse func e : snd (main parse func) = e -> (forall c, e <> SystemExit c) -> exit_code (main parse func) = 1%Z.
Proof. intros E H; unfold exit_code; rewrite E; destruct e; try reflexivity; exfalso; eapply H; reflexivity. Qed.
Example C59_uncaught_nonvacuous : snd (main (Ok tt) ([], Err KeyError)) = KeyError /\ exit_code (main (Ok tt) ([], Err KeyError)) = 1%Z.
Proof. split; reflexivity. Qed.

(** Whatever a command does: if it ends with an exception the exit code is not 0,
    unless it asks for that itself. *)
Theorem C59_main parse func :
  (exit_code (main parse func) = 0%Z <->
   (exists c, parse = Err (SystemExit c) /\ (c mod 256 = 0)%Z) \/
   (parse = Ok tt /\ (snd func = Ok tt \/ exists c, snd func = Err (SystemExit c) /\ (c mod 256 = 0)%Z))) /\
  (* errors of the documented kind are reported, others end in a traceback *)
  (forall e, parse = Ok tt -> snd func = Err e -> In e documented_errors ->
     fst (main parse func) = fst func ++ [ErrorReport [e]] /\ exit_code (main parse func) = 1%Z) /\
  (forall e, parse = Ok tt -> snd func = Err e -> ~ In e documented_errors -> e <> KeyboardInterrupt -> e <> EOFError ->
     main parse func = (fst func, e)) /\
  (* nothing the command printed is lost *)
  (forall o, parse = Ok tt -> In o (fst func) -> In o (fst (main parse func))).
Proof.
  destruct func as [out x]; unfold exit_code, main; cbn [snd fst]; split; [|split; [|split]].
  - destruct parse as [[]|e].
    + destruct x as [[]|e].
      * split; [intros _; right; split; [reflexivity|left; reflexivity]|reflexivity].
      * split.
        -- intros E; right; split; [reflexivity|]; right.
           destruct e; cbn in E; try discriminate; eexists; split; [reflexivity|exact E].
        -- intros [(c & E & _)|(_ & [E|(c & E & Ec)])]; try discriminate; injection E as ->; exact Ec.
    + cbn [snd]; split.
      * intros E; left; destruct e; cbn in E; try discriminate; eexists; split; [reflexivity|exact E].
      * intros [(c & E & Ec)|(E & _)]; [injection E as ->; exact Ec|discriminate].
  - intros e -> -> He; repeat (destruct He as [<-|He]; [cbn; split; reflexivity|]); destruct He.
  - intros e -> -> He H1 H2. destruct e; try reflexivity; try congruence;
      exfalso; apply He; unfold documented_errors, In; tauto.
  - intros o -> Hin; destruct x as [[]|e]; [exact Hin|].
    destruct e; cbn; try exact Hin; apply in_or_app; left; exact Hin.
Qed.

(** An exit code of 0 means: nothing was reported as error, and the other way round,
    provided no error is a SystemExit raised elsewhere. *)
Definition no_exit {A} (x : res A) : Prop := forall c, x <> Err (SystemExit c).

Lemma clean_line {A} out (a : A) : (forall o, In o out -> exists t, o = Line t) -> clean (out, Ok a).
Proof.
  intros H; split; cbn [fst snd]; [|eauto]; intros (es & Hin); destruct (H _ Hin); discriminate.
Qed.

Lemma interrupt_exit {A} (out : list output) (x : res A) :
  no_exit x -> snd (exit_on_interrupt (out, x)) = x \/
  (snd (exit_on_interrupt (out, x)) = Err (SystemExit 1) /\ exists e, x = Err e).
Proof.
  intros Hx; unfold exit_on_interrupt; cbn [snd fst]; destruct x as [a|e]; [left; reflexivity|].
  destruct e; cbn [snd]; try (left; reflexivity); right; split; eauto.
Qed.

Lemma exit_via {A} (x : res A) out : no_exit x ->
  forall run, run = exit_on_interrupt (out, let* _ := x in Ok tt) ->
  (exit_code (main (Ok tt) run) = 0%Z <-> exists a, x = Ok a).
Proof.
  intros Hx run ->; rewrite (proj1 (C59_main _ _)); split.
  - intros [(c & E & _)|(_ & H)]; [discriminate|].
    destruct x as [a|e]; [eauto|]; exfalso; cbn [bind] in H.
    destruct e; unfold exit_on_interrupt in H; cbn in H; destruct H as [H|(c & H & Hc)]; try discriminate;
      injection H as <-; try discriminate Hc; eapply Hx; reflexivity.
  - intros (a & ->); right; split; [reflexivity|]; left; reflexivity.
Qed.

(** resolve: exit code 0 exactly if the context was created and every key resolved;
    errors are all reported; every result is printed. *)
Theorem C59_resolve {R} ansi (show : R -> text) flag ctx resolved :
  no_exit ctx -> no_exit resolved ->
  let run := resolve_command ansi show flag ctx resolved in
  (exit_code (main (Ok tt) run) = 0%Z <-> exists d results, ctx = Ok d /\ resolved = Ok (results, [])) /\
  (exit_code (main (Ok tt) run) = 0%Z <-> clean run) /\
  (forall d results errors, ctx = Ok d -> resolved = Ok (results, errors) ->
     (errors <> [] -> In (ErrorReport (map snd errors)) (fst run)) /\
     flat_map (fun o => match o with Line t => [t] | _ => [] end) (fst run) =
       map (result_line ansi show d flag) results).
Proof.
  intros Hc Hr; cbv zeta.
  assert (A : exit_code (main (Ok tt) (resolve_command ansi show flag ctx resolved)) = 0%Z <->
              exists d results, ctx = Ok d /\ resolved = Ok (results, [])).
  { rewrite (proj1 (C59_main _ _)); split.
    - intros [(c & E & _)|(_ & H)]; [discriminate|]; unfold resolve_command in H.
      destruct ctx as [d|e].
      + destruct resolved as [[results [|er errors]]|e].
        * exists d, results; split; reflexivity.
        * exfalso; unfold exit_on_interrupt in H; cbn in H; destruct H as [H|(c & H & Hz)]; [discriminate|].
          injection H as <-; discriminate Hz.
        * exfalso; destruct e; cbn in H; destruct H as [H|(c & H & Hz)]; try discriminate;
            injection H as <-; try discriminate Hz; eapply Hr; reflexivity.
      + exfalso; destruct e; cbn in H; destruct H as [H|(c & H & Hz)]; try discriminate;
            injection H as <-; try discriminate Hz; eapply Hc; reflexivity.
    - intros (d & results & -> & ->); right; split; [reflexivity|]; left; reflexivity. }
  split; [exact A|]; split.
  - rewrite A; split.
    + intros (d & results & -> & ->); unfold resolve_command, exit_on_interrupt; cbn [snd fst app].
      apply clean_line; intros o Hin; apply in_map_iff in Hin; destruct Hin as (r & <- & _); eauto.
    + intros [H1 (a & H2)]; unfold resolve_command in *; destruct ctx as [d|e].
      * destruct resolved as [[results [|er errors]]|e].
        -- exists d, results; split; reflexivity.
        -- discriminate H2.
        -- destruct e; discriminate H2.
      * destruct e; discriminate H2.
  - intros d results errors -> ->; unfold resolve_command, exit_on_interrupt.
    assert (L : forall l, flat_map (fun o => match o with Line t => [t] | _ => [] end)
                  (map (fun r => Line (result_line ansi show d flag r)) l) = map (result_line ansi show d flag) l).
    { induction l as [|r l IH]; cbn [map flat_map app]; [reflexivity|rewrite IH; reflexivity]. }
    destruct errors as [|er errors]; cbn [snd fst app].
    + split; [intros H; elim H; reflexivity|apply L].
    + split; [intros _; left; reflexivity|]; cbn [flat_map app]; apply L.
Qed.

(** install: exit code 0 exactly if no error was returned; the command itself prints an error exactly if the exit
    code is not 0 (the messages printed while [install] runs are C34_printed). *)
Theorem C59_install_partial installed : no_exit installed ->
  let run := install_command installed in
  (exit_code (main (Ok tt) run) = 0%Z <-> installed = Ok ([], [])) /\
  (exit_code (main (Ok tt) run) = 0%Z <-> clean run) /\
  (forall rerrs ierrs, installed = Ok (rerrs, ierrs) ->
     (rerrs <> [] -> In (ErrorReport (map snd rerrs)) (fst run)) /\
     (ierrs <> [] -> In (ErrorReport ierrs) (fst run))).
Proof.
  intros Hi; cbv zeta.
  assert (A : exit_code (main (Ok tt) (install_command installed)) = 0%Z <-> installed = Ok ([], [])).
  { rewrite (proj1 (C59_main _ _)); split.
    - intros [(c & E & _)|(_ & H)]; [discriminate|]; unfold install_command in H.
      destruct installed as [[[|r rs] [|i is_]]|e]; [reflexivity| | | |];
        try (exfalso; cbn in H; destruct H as [H|(c & H & Hz)]; [discriminate|]; injection H as <-; discriminate Hz).
      exfalso; destruct e; cbn in H; destruct H as [H|(c & H & Hz)]; try discriminate;
        injection H as <-; try discriminate Hz; eapply Hi; reflexivity.
    - intros ->; right; split; [reflexivity|]; left; reflexivity. }
  split; [exact A|]; split.
  - rewrite A; split.
    + intros ->; apply clean_line; intros o [].
    + intros [_ (a & H)]; unfold install_command in H.
      destruct installed as [[[|r rs] [|i is_]]|e]; [reflexivity| | | |]; try discriminate H; destruct e; discriminate H.
  - intros re ie ->; split; intros H; unfold install_command, exit_on_interrupt; destruct re as [|r re], ie as [|i ie];
      cbn [snd fst app]; try (elim H; reflexivity); [left; reflexivity|left; reflexivity|left; reflexivity|right; left; reflexivity].
Qed.

(** lookup: exit code 0 exactly if every requested key could be looked up, in which
    case the rules of every key are printed, in the order of the arguments. *)
Theorem C59_lookup uni sha1 loads ansi dump ctx sources cache_dir f keys :
  no_exit ctx -> (forall ic k, no_exit (lookup uni sha1 loads sources cache_dir f ic k true)) ->
  let run := lookup_command uni sha1 loads ansi dump ctx sources cache_dir f keys in
  (exit_code (main (Ok tt) run) = 0%Z <->
   exists ic os_string vs, ctx = Ok (ic, os_string) /\
     Forall2 (fun k v => lookup uni sha1 loads sources cache_dir f ic k true = Ok v) keys vs) /\
  (exit_code (main (Ok tt) run) = 0%Z <-> clean run) /\
  (forall ic os_string vs, ctx = Ok (ic, os_string) ->
     Forall2 (fun k v => lookup uni sha1 loads sources cache_dir f ic k true = Ok v) keys vs ->
     fst run = map (fun p => Line (rules_line ansi dump os_string (fst p) (snd p))) (combine keys vs)).
Proof.
  intros Hc Hl; cbv zeta.
  assert (L1 : forall look os ks vs, Forall2 (fun k v => look k = Ok v) ks vs ->
     lookup_loop ansi dump look os ks =
     (map (fun p => Line (rules_line ansi dump os (fst p) (snd p))) (combine ks vs), Ok tt)).
  { intros look os ks vs F; induction F as [|k v ks vs Hk F IH]; cbn [lookup_loop combine map]; [reflexivity|].
    rewrite Hk, IH; reflexivity. }
  assert (L2 : forall look os ks, (exists vs, Forall2 (fun k v => look k = Ok v) ks vs) \/
     (exists out k e, lookup_loop ansi dump look os ks = (out, Err e) /\ look k = Err e)).
  { intros look os ks; induction ks as [|k ks IH]; [left; exists []; constructor|].
    destruct (look k) as [v|e] eqn:Ek.
    - destruct IH as [(vs & F)|(out & k' & e & E & H)]; [left; exists (v :: vs); constructor; assumption|].
      right; cbn [lookup_loop]; rewrite Ek, E; eauto.
    - right; cbn [lookup_loop]; rewrite Ek; eauto. }
  assert (A : exit_code (main (Ok tt) (lookup_command uni sha1 loads ansi dump ctx sources cache_dir f keys)) = 0%Z <->
     exists ic os_string vs, ctx = Ok (ic, os_string) /\
     Forall2 (fun k v => lookup uni sha1 loads sources cache_dir f ic k true = Ok v) keys vs).
  { rewrite (proj1 (C59_main _ _)); split.
    - intros [(c & E & _)|(_ & H)]; [discriminate|]; unfold lookup_command in H.
      destruct ctx as [[ic os]|e].
      + destruct (L2 (fun k => lookup uni sha1 loads sources cache_dir f ic k true) os keys) as
          [(vs & F)|(out & k & e & E & Hk)]; [exists ic, os, vs; split; [reflexivity|exact F]|].
        exfalso; rewrite E in H; destruct e; cbn in H; destruct H as [H|(c & H & Hz)]; try discriminate;
          injection H as <-; try discriminate Hz; eapply Hl; exact Hk.
      + exfalso; destruct e; cbn in H; destruct H as [H|(c & H & Hz)]; try discriminate;
            injection H as <-; try discriminate Hz; eapply Hc; reflexivity.
    - intros (ic & os & vs & -> & F); right; split; [reflexivity|]; left; unfold lookup_command; rewrite (L1 _ _ _ _ F); reflexivity. }
  split; [exact A|]; split.
  - rewrite A; split.
    + intros (ic & os & vs & -> & F); unfold lookup_command; rewrite (L1 _ _ _ _ F); unfold exit_on_interrupt; cbn [snd].
      apply clean_line; intros o Hin; apply in_map_iff in Hin; destruct Hin as (p & <- & _); eauto.
    + intros [_ (a & H)]; unfold lookup_command in H; destruct ctx as [[ic os]|e].
      * destruct (L2 (fun k => lookup uni sha1 loads sources cache_dir f ic k true) os keys) as
          [(vs & F)|(out & k & e & E & Hk)]; [exists ic, os, vs; split; [reflexivity|exact F]|].
        rewrite E in H; destruct e; discriminate H.
      * destruct e; discriminate H.
  - intros ic os vs -> F; unfold lookup_command; rewrite (L1 _ _ _ _ F); reflexivity.
Qed.

(** update: the errors of single sources are reported, but do not show in the exit code. *)
Theorem C59_update_refuted :
  exists sha1 dumps version envs cache_dir l f,
    l <> [] /\
    (forall j s, nth_error l j = Some s -> exists e, snd (update_source sha1 dumps version envs cache_dir j s f) = Err e) /\
    let run := update_command sha1 dumps version (Ok tt) (Ok l) envs cache_dir f in
    reports_error (fst run) /\ exit_code (main (Ok tt) run) = 0%Z.
Proof.
  exists x_sha1, Codec.enc, VNone, x_envs, (u "/c"), [x_source "http://b"], [].
  split; [discriminate|]; split.
  - intros [|[|j]] s E; [injection E as <-; eexists; vm_compute; reflexivity|discriminate|discriminate].
  - cbv zeta; split; [|vm_compute; reflexivity]; exists [DownloadFailure]; vm_compute; left; reflexivity.
Qed.

(** Source number [j] is updated: downloaded, verified, and written to the cache. *)
Definition updated (envs : nat -> step_env) (j : nat) (s : source) : Prop :=
  exists d, sp_load_data (s_spec s) (e_net (envs j)) (s_args s) = Ok d /\
    sp_verify_data (s_spec s) d (s_args s) = Ok tt /\ e_write (envs j) = WriteOk.
(** ... or fails with error [e]. *)
Definition update_fails (envs : nat -> step_env) (j : nat) (s : source) (e : exn) : Prop :=
  sp_load_data (s_spec s) (e_net (envs j)) (s_args s) = Err e \/
  exists d, sp_load_data (s_spec s) (e_net (envs j)) (s_args s) = Ok d /\
    (sp_verify_data (s_spec s) d (s_args s) = Err e \/
     sp_verify_data (s_spec s) d (s_args s) = Ok tt /\
     (e_write (envs j) = OpenFails e \/ exists n, e_write (envs j) = WriteFails n e)).

Lemma update_source_outcome sha1 dumps version envs cd j s f : (exists p, source_path sha1 cd s = Ok p) ->
  (snd (update_source sha1 dumps version envs cd j s f) = Ok tt <-> updated envs j s) /\
  (forall e, snd (update_source sha1 dumps version envs cd j s f) = Err e <-> update_fails envs j s e).
Proof.
  intros (p & Hp); unfold update_source, load_from_source, updated, update_fails.
  destruct (sp_load_data (s_spec s) (e_net (envs j)) (s_args s)) as [d|e] eqn:El; cbn [bind].
  - destruct (sp_verify_data (s_spec s) d (s_args s)) as [[]|e] eqn:Ev; cbn [bind].
    + match goal with |- context [save_to_cache _ _ _ _ _ ?x _] => set (s' := x) end.
      unfold save_to_cache, source_path, unique_id; subst s'; cbn [s_spec s_args].
      unfold source_path, unique_id in Hp; rewrite Hp; unfold write_cache.
      destruct (e_write (envs j)) as [|e|n e]; cbn [snd].
      * split; [split; [eauto|reflexivity]|]; intros e; split; [discriminate|].
        intros [H|(d' & H & [H'|(_ & [H'|(n & H')])])]; try discriminate; injection H as <-; congruence.
      * split; [split; [discriminate|intros (d' & _ & _ & H); discriminate]|]; intros e'; split.
        -- intros H; injection H as <-; right; exists d; split; [reflexivity|]; right; split; [exact Ev|left; reflexivity].
        -- intros [H|(d' & H & [H'|(_ & [H'|(n & H')])])]; try discriminate; [injection H as <-; congruence|injection H' as ->; reflexivity].
      * split; [split; [discriminate|intros (d' & _ & _ & H); discriminate]|]; intros e'; split.
        -- intros H; injection H as <-; right; exists d; split; [reflexivity|]; right; split; [exact Ev|right; exists n; reflexivity].
        -- intros [H|(d' & H & [H'|(_ & [H'|(m & H')])])]; try discriminate; [injection H as <-; congruence|injection H' as -> ->; reflexivity].
    + cbn [snd]; split; [split; [discriminate|intros (d' & H & H' & _); injection H as <-; congruence]|].
      intros e'; split.
      * intros H; injection H as <-; right; exists d; split; [reflexivity|left; exact Ev].
      * intros [H|(d' & H & [H'|(H' & _)])]; [discriminate|injection H as <-; congruence|injection H as <-; congruence].
  - cbn [snd]; split; [split; [discriminate|intros (d' & H & _); discriminate]|].
    intros e'; split; [intros H; injection H as <-; left; reflexivity|].
    intros [H|(d' & H & _)]; [injection H as ->; reflexivity|discriminate].
Qed.

Lemma reported_failures_spec sha1 dumps version envs cd l i f :
  (forall s, In s l -> exists p, source_path sha1 cd s = Ok p) ->
  (forall j s e, nth_error l j = Some s -> update_fails envs (i + j) s e -> is_Exception e = true) ->
  let fl := reported_failures (update_source sha1 dumps version envs cd) i l f in
  (fl = [] <-> forall j s, nth_error l j = Some s -> updated envs (i + j) s) /\
  (forall j s e, nth_error l j = Some s -> update_fails envs (i + j) s e -> In e fl).
Proof.
  revert i f; induction l as [|s l IH]; intros i f Hp Hx; cbn [reported_failures].
  - split; [split; [intros _ [|j] s E; discriminate|reflexivity]|]; intros [|j] s e E; discriminate.
  - pose proof (update_source_outcome sha1 dumps version envs cd i s f (Hp s (or_introl eq_refl))) as [H1 H2].
    destruct (update_source sha1 dumps version envs cd i s f) as [[s' f'] r]; cbn [snd] in H1, H2.
    destruct (IH (Datatypes.S i) f') as [I1 I2].
    { intros t Ht; apply Hp; right; exact Ht. }
    { intros j t e Hj; specialize (Hx (Datatypes.S j) t e Hj); rewrite Nat.add_succ_r in Hx; exact Hx. }
    destruct r as [[]|e]; cbv zeta.
    + split; [split|].
      * intros E [|j] t Hj; [injection Hj as <-; rewrite Nat.add_0_r; apply H1; reflexivity|].
        rewrite Nat.add_succ_r; apply (proj1 I1 E j t Hj).
      * intros H; apply I1; intros j t Hj; specialize (H (Datatypes.S j) t Hj); rewrite Nat.add_succ_r in H; exact H.
      * intros [|j] t e Hj He.
        -- exfalso; injection Hj as <-; rewrite Nat.add_0_r in He; apply H2 in He; discriminate.
        -- rewrite Nat.add_succ_r in He; exact (I2 j t e Hj He).
    + assert (He : update_fails envs i s e) by (apply H2; reflexivity).
      assert (Hex : is_Exception e = true) by (apply (Hx 0 s e eq_refl); rewrite Nat.add_0_r; exact He).
      rewrite Hex; split; [split|].
      * discriminate.
      * intros H; specialize (H 0 s eq_refl); rewrite Nat.add_0_r in H; apply H1 in H; discriminate.
      * intros [|j] t e' Hj He'.
        -- injection Hj as <-; rewrite Nat.add_0_r in He'; apply H2 in He'; injection He' as ->; left; reflexivity.
        -- right; rewrite Nat.add_succ_r in He'; exact (I2 j t e' Hj He').
Qed.

(** What update does tell: it exits with 0 exactly if the cache directory and the list
    of sources are usable; every source that fails is reported, and if nothing is
    reported all sources were updated. *)
Theorem C59_update_partial yaml sha1 dumps version specs dir st defaults ensure envs cache_dir f :
  let sources := init_from_sources yaml sha1 specs dir st defaults in
  no_exit ensure -> no_exit sources ->
  (* no KeyboardInterrupt or SystemExit while a source is updated *)
  (forall l j s e, sources = Ok l -> nth_error l j = Some s -> update_fails envs j s e -> is_Exception e = true) ->
  let run := update_command sha1 dumps version ensure sources envs cache_dir f in
  (exit_code (main (Ok tt) run) = 0%Z <-> ensure = Ok tt /\ exists l, sources = Ok l) /\
  (clean run <-> ensure = Ok tt /\ exists l, sources = Ok l /\
                 forall j s, nth_error l j = Some s -> updated envs j s) /\
  (forall l j s e, ensure = Ok tt -> sources = Ok l -> nth_error l j = Some s -> update_fails envs j s e ->
     exists es, In (ErrorReport es) (fst run) /\ In e es).
Proof.
  intros sources He Hs Hx; cbv zeta; unfold update_command.
  destruct ensure as [[]|e]; cbn [bind].
  2:{ split; [|split].
      - rewrite (proj1 (C59_main _ _)); split; [|intros [H _]; discriminate].
        intros [(c & E & _)|(_ & H)]; [discriminate|]; exfalso.
        destruct e; cbn in H; destruct H as [H|(c & H & Hz)]; try discriminate;
          injection H as <-; try discriminate Hz; eapply He; reflexivity.
      - split; [|intros [H _]; discriminate]; intros [_ (a & H)]; destruct e; discriminate H.
      - discriminate. }
  destruct sources as [l|e] eqn:El.
  2:{ split; [|split].
      - rewrite (proj1 (C59_main _ _)); split; [|intros [_ (l & H)]; discriminate].
        intros [(c & E & _)|(_ & H)]; [discriminate|]; exfalso.
        destruct e; cbn in H; destruct H as [H|(c & H & Hz)]; try discriminate;
          injection H as <-; try discriminate Hz; eapply Hs; reflexivity.
      - split; [|intros [_ (l & H & _)]; discriminate]; intros [_ (a & H)]; destruct e; discriminate H.
      - discriminate. }
  destruct (C19_distinct_cache_files yaml sha1 specs dir st defaults l cache_dir El) as [Hok _].
  destruct (C20_update_isolates yaml sha1 dumps version specs dir st defaults l cache_dir envs f El) as (l' & f' & Eu & _).
  { intros j s g e Hj Hu; apply (Hx l j s e eq_refl Hj).
    apply (proj2 (update_source_outcome sha1 dumps version envs cache_dir j s g (Hok s (nth_error_In _ _ Hj)))); exact Hu. }
  rewrite Eu; cbn [snd].
  assert (R' : forall j s e, nth_error l j = Some s -> update_fails envs j s e -> is_Exception e = true)
    by (intros j s e; apply (Hx l j s e eq_refl)).
  specialize (reported_failures_spec sha1 dumps version envs cache_dir l 0 f Hok R'); cbv zeta.
  set (fl := reported_failures _ 0 l f); cbn [Nat.add]; intros [R1 R2].
  unfold exit_on_interrupt; cbn [snd]; split; [|split].
  - split; [intros _; split; [reflexivity|eauto]|]; intros _; reflexivity.
  - split.
    + intros [H _]; split; [reflexivity|]; exists l; split; [reflexivity|]; apply R1.
      destruct fl as [|e0 fl0]; [reflexivity|]; elim H; eexists; left; reflexivity.
    + intros (_ & l0 & E & H); injection E as <-; apply R1 in H; rewrite H; split; cbn [fst snd]; [|eauto].
      intros (es & []).
  - intros l0 j s e _ E Hj Hf; injection E as <-; specialize (R2 j s e Hj Hf).
    destruct fl as [|e0 fl0]; [contradiction|]; exists (e0 :: fl0); split; [left; reflexivity|exact R2].
Qed.

(** install, on its own: when it exits with 0, every requested key was resolved and
    every resolution is installed.  Hypotheses: the installers' queries tell the truth,
    their commands install what they claim, and nothing is uninstalled meanwhile. *)
Theorem C59_install_success {W R} (installed : text -> W -> R -> bool) run ansi (cx : context W R) o resolution w x w' l :
  (forall i, In i (cx_plugins cx) -> faithful installed i) -> never_uninstalls installed run (cx_plugins cx) ->
  o_simulate o = false -> no_exit x ->
  install run ansi cx o resolution (w, []) = (x, (w', l)) ->
  exit_code (main (Ok tt) (install_command x)) = 0%Z ->
  exists results, resolution = Ok (results, []) /\
    forall key n rs r, In (key, (n, rs)) results -> In r rs -> installed n w' r = true.
Proof.
  intros Hf Hn Hs Hx H E; apply (proj1 (C59_install_partial x Hx)) in E; subst x.
  destruct resolution as [[results rerrs]|e]; [|discriminate H].
  assert (Hr : rerrs = [] \/ o_continue o = true).
  { destruct rerrs as [|r rerrs]; [left; reflexivity|right].
    unfold install, lift, then_, ret in H; cbn in H; destruct (o_continue o); [reflexivity|discriminate H]. }
  destruct (C30_install_success run ansi cx installed Hf Hn o results rerrs w [] w' l Hs Hr H) as [<- Hall].
  exists results; split; [reflexivity|exact Hall].
Qed.

(** The converse trouble: a run that ends before anything is installed because xylem
    could not find out what is installed.  Error messages are printed (see C34_printed), but the exit code is 0. *)
Theorem C59_install_refuted {W R} run ansi (cx : context W R) o resolution w z w' l :
  o_continue o = false -> filter_failed l ->
  install run ansi cx o resolution (w, []) = (Ok z, (w', l)) ->
  printed_errors l <> [] /\ clean (install_command (Ok z)) /\ exit_code (main (Ok tt) (install_command (Ok z))) = 0%Z.
Proof.
  intros Hc Hf H; split.
  { pose proof (C34_printed run ansi cx o resolution w z w' l H) as P; cbv zeta in P; rewrite P.
    destruct Hf as (n & rs & e & Hin); assert (He : In e (failed_checks l))
      by (apply in_flat_map; eexists; split; [exact Hin|left; reflexivity]).
    destruct (failed_checks l); [destruct He|discriminate]. }
  destruct z as [re ie]; destruct (C34_swallowed_refuted run ansi cx o resolution w re ie w' l Hc Hf H) as [-> ->].
  split; [apply clean_line; intros o' []|reflexivity].
Qed.

(** Such a run exists: the one key was resolved, nothing was executed or installed. *)
Example C59_install_example :
  let cx := toy_context [toy_undecided] in
  let results := [(u "k", (u "undecided", [u "a"]))] in
  exists z l, install toy_run ansi_disabled cx toy_options (Ok (results, [])) ([], []) = (Ok z, ([], l)) /\
    filter_failed l /\ no_exec l /\
    exit_code (main (Ok tt) (install_command (Ok z))) = 0%Z.
Proof.
  cbv zeta; eexists _, _; split; [exact (proj1 C34_36_example)|]; split; [|split; [|reflexivity]].
  - eexists _, _, _; right; left; reflexivity.
  - apply no_exec_Forall; repeat constructor.
Qed.

(** *** C82: command plugins *)
Section C82.
  Context {D : Type}.

  (** The entry points whose object is a command definition. *)
  Definition valid_eps (eps : list (command_ep D)) : list (command_ep D) :=
    filter (fun e => match ce_load e with Ok (Some _) => true | _ => false end) eps.

  Lemma load_found (eps : list (command_ep D)) e : NoDup (map ce_name eps) -> In e eps ->
    load_command_definition eps (ce_name e) = ce_load e.
  Proof.
    unfold load_command_definition; induction eps as [|x eps IH]; intros Hn Hin; [contradiction|].
    cbn [map] in Hn; inversion Hn as [|? ? Hx Hn']; subst; cbn [find].
    destruct (eqb_spec (ce_name x) (ce_name e)) as [E|E].
    - destruct Hin as [->|Hin]; [reflexivity|]; elim Hx; rewrite E; apply in_map; exact Hin.
    - destruct Hin as [->|Hin]; [congruence|apply IH; assumption].
  Qed.

  Lemma remove_first_filter a l : NoDup l -> remove_first a l = filter (fun x => negb (eqb a x)) l.
  Proof.
    induction l as [|x l IH]; intros Hn; cbn [remove_first filter]; [reflexivity|].
    inversion Hn as [|? ? Hx Hn']; subst; destruct (eqb_spec a x) as [E|E]; cbn [negb].
    - subst x; clear - Hx; induction l as [|y l IHl]; cbn [filter]; [reflexivity|].
      destruct (eqb_spec a y) as [E|E]; cbn [negb]; [subst y; elim Hx; left; reflexivity|].
      rewrite <- IHl; [reflexivity|]; intros H; apply Hx; right; exact H.
    - rewrite IH by exact Hn'; reflexivity.
  Qed.

  Lemma filter_twice {A} (f g : A -> bool) l : filter f (filter g l) = filter (fun x => f x && g x) l.
  Proof.
    induction l as [|x l IH]; cbn [filter]; [reflexivity|].
    destruct (g x); cbn [filter]; [rewrite andb_true_r; destruct (f x); rewrite IH; reflexivity|].
    rewrite andb_false_r; exact IH.
  Qed.

  Lemma load_definitions_spec (all : list (command_ep D)) : NoDup (map ce_name all) ->
    forall todo cmds, incl todo all -> NoDup (map ce_name todo) -> NoDup cmds ->
      (forall e, In e todo -> exists d, ce_load e = Ok d) ->
      exists ds, load_definitions all (map ce_name todo) cmds =
        Ok (ds, filter (fun c => negb (existsb (fun e => eqb (ce_name e) c && match ce_load e with Ok None => true | _ => false end) todo)) cmds) /\
        map (fun d => Ok (Some d)) ds = map ce_load (valid_eps todo).
  Proof.
    intros Ha; induction todo as [|e todo IH]; intros cmds Hi Hn Hc Hl; cbn [map load_definitions].
    - exists []; split; [|reflexivity]; f_equal; f_equal; symmetry.
      induction cmds as [|c cmds IHc]; cbn [filter existsb negb]; [reflexivity|]; f_equal; apply IHc; inversion Hc; assumption.
    - rewrite (load_found all e Ha (Hi e (or_introl eq_refl))).
      destruct (Hl e (or_introl eq_refl)) as (d & Ed); rewrite Ed; cbn [bind].
      assert (Hi' : incl todo all) by (intros x Hx; apply Hi; right; exact Hx).
      assert (Hl' : forall x, In x todo -> exists d, ce_load x = Ok d) by (intros x Hx; apply Hl; right; exact Hx).
      cbn [map] in Hn; inversion Hn as [|? ? He Hn']; subst.
      destruct d as [d|].
      + destruct (IH cmds Hi' Hn' Hc Hl') as (ds & E & F); rewrite E; cbn [bind]; exists (d :: ds); split.
        * f_equal; f_equal; apply filter_ext; intros c; cbn [existsb]; rewrite Ed, andb_false_r; reflexivity.
        * unfold valid_eps; cbn [filter map]; rewrite Ed; cbn [map]; rewrite F, Ed; reflexivity.
      + assert (Hc' : NoDup (remove_first (ce_name e) cmds)) by (rewrite remove_first_filter by exact Hc; apply NoDup_filter; exact Hc).
        destruct (IH (remove_first (ce_name e) cmds) Hi' Hn' Hc' Hl') as (ds & E & F); rewrite E; exists ds; split.
        * f_equal; f_equal; rewrite remove_first_filter by exact Hc; rewrite filter_twice.
          apply filter_ext; intros c; cbn [existsb]; rewrite Ed, andb_true_r, negb_orb; apply andb_comm.
        * unfold valid_eps; cbn [filter]; rewrite Ed; exact F.
  Qed.

  (** If all entry points can be loaded, those that are not command definitions are left
      out and all others are offered, in order; names with a leading underscore are not
      listed. *)
  Theorem C82_invalid_skipped_partial : forall eps : list (command_ep D),
    NoDup (map ce_name eps) -> (forall e, In e eps -> exists d, ce_load e = Ok d) ->
    exists ds, create_subparsers eps =
        Ok (ds, filter (fun c => negb (is_prefix (u "_") c)) (map ce_name (valid_eps eps))) /\
      Forall2 (fun e d => ce_load e = Ok (Some d)) (valid_eps eps) ds.
  Proof.
    intros eps Hn Hl; unfold create_subparsers, list_commands.
    destruct (load_definitions_spec eps Hn eps (map ce_name eps) (incl_refl _) Hn Hn Hl) as (ds & E & F).
    rewrite E; cbn [bind]; exists ds; split.
    - f_equal; f_equal; unfold public_cmds; f_equal.
      assert (G : forall l, incl l eps ->
        filter (fun c => negb (existsb (fun e => eqb (ce_name e) c && match ce_load e with Ok None => true | _ => false end) eps)) (map ce_name l)
        = map ce_name (valid_eps l)).
      { induction l as [|e l IH]; intros Hi; [reflexivity|].
        cbn [map filter]; unfold valid_eps; cbn [filter]; fold (valid_eps l).
        rewrite IH by (intros x Hx; apply Hi; right; exact Hx).
        pose proof (Hi e (or_introl eq_refl)) as Hin.
        destruct (Hl e Hin) as ([d|] & Ed); rewrite Ed.
        - destruct (existsb _ eps) eqn:Ex; cbn [negb map]; [|reflexivity].
          apply existsb_exists in Ex; destruct Ex as (x & Hx & Ex); apply andb_true_iff in Ex; destruct Ex as [En Ex].
          apply (proj1 (eqb_eq _ _)) in En.
          pose proof (load_found eps x Hn Hx) as L1; pose proof (load_found eps e Hn Hin) as L2.
          rewrite En, L2, Ed in L1; rewrite <- L1 in Ex; discriminate.
        - assert (Ex : existsb (fun e0 => eqb (ce_name e0) (ce_name e) && match ce_load e0 with Ok None => true | _ => false end) eps = true).
          { apply existsb_exists; exists e; split; [exact Hin|]; rewrite eqb_refl, Ed; reflexivity. }
          rewrite Ex; reflexivity. }
      apply G, incl_refl.
    - clear E; revert F; generalize (valid_eps eps); intros es; revert ds; induction es as [|e es IH]; intros [|d ds] F; try discriminate.
      + constructor.
      + cbn [map] in F; injection F as E1 F; constructor; [congruence|apply IH; exact F].
  Qed.

  (** But one entry point that cannot be loaded takes all commands away. *)
  Theorem C82_broken_plugin_refuted : forall (eps : list (command_ep D)) e err,
    NoDup (map ce_name eps) -> In e eps -> ce_load e = Err err ->
    exists err', create_subparsers eps = Err err' /\ exists e', In e' eps /\ ce_load e' = Err err'.
  Proof.
    intros eps e err Hn Hin He; unfold create_subparsers, list_commands.
    assert (G : forall todo cmds, incl todo eps -> In e todo ->
      exists err', load_definitions eps (map ce_name todo) cmds = Err err' /\ exists e', In e' eps /\ ce_load e' = Err err').
    { induction todo as [|x todo IH]; intros cmds Hi H; [contradiction|].
      cbn [map load_definitions]; rewrite (load_found eps x Hn (Hi x (or_introl eq_refl))).
      assert (Hi' : incl todo eps) by (intros y Hy; apply Hi; right; exact Hy).
      destruct (ce_load x) as [[d|]|ex] eqn:Ex; cbn [bind].
      - destruct H as [->|H]; [congruence|]; destruct (IH cmds Hi' H) as (err' & E & X); rewrite E; cbn [bind]; eauto.
      - destruct H as [->|H]; [congruence|]; apply IH; assumption.
      - exists ex; split; [reflexivity|]; exists x; split; [apply Hi; left; reflexivity|exact Ex]. }
    destruct (G eps (map ce_name eps) (incl_refl _) Hin) as (err0 & E & X); rewrite E; cbn [bind]; exists err0; split; [reflexivity|exact X].
  Qed.
End C82.

Example C82_nonvacuous :
  let ok n d := {| ce_name := n; ce_load := Ok (Some d) |} in
  let bad := {| ce_name := u "bad"; ce_load := Ok None |} in
  create_subparsers [ok (u "update") 1; bad; ok (u "_config") 2; ok (u "lookup") 3] =
    Ok ([1; 2; 3], [u "update"; u "lookup"]) /\
  create_subparsers [ok (u "update") 1; {| ce_name := u "ext"; ce_load := Err ImportError |}] = Err ImportError.
Proof. vm_compute; split; reflexivity. Qed.

(** *** Runs meeting the hypotheses of C58 and C59 *)
Example C58_nonvacuous :
  let s := {| s_spec := rules_spec (fun _ => false) (fun _ => Err ValueError); s_args := VStr (u "http://a"); s_origin := VNone;
              s_data := VDict [(KStr (u "boost"), VDict [(KStr (u "ubuntu"), VDict [(KStr (u "any_version"),
                          VDict [(KStr (u "default_installer"), VDict [(KStr (u "packages"), VList [VStr (u "libboost")])])])])])];
              s_time := VNone |} in
  let ic := {| ic_os := u "ubuntu"; ic_version := u "trusty"; ic_default := Some (u "apt") |} in
  exists d, db_lookup (fun _ => false) [s] (u "boost") ic = Ok d /\
    raw_compact_installer_dict d (Some (u "apt")) = Ok (VList [VStr (u "libboost")]) /\
    raw_compact_installer_dict d (Some (u "pip")) = Ok (VDict [(KStr (u "apt"), VList [VStr (u "libboost")])]).
Proof. cbv zeta; eexists; split; [vm_compute; reflexivity|]; vm_compute; split; reflexivity. Qed.

Example C58_default_renamed_nonvacuous :
  let p x := VDict [(KStr (u "packages"), VList [VStr x])] in
  let d := [(KStr (u "default_installer"), p (u "a")); (KStr (u "pip"), p (u "b"))] in
  Forall (fun q => rule_ok (accepted_identifier (fun _ => false)) (snd q)) d /\
  get (KStr (u "default_installer")) d = Some (p (u "a")) /\
  name_ok (accepted_identifier (fun _ => false)) [u "default_installer"] (KStr (u "apt")) /\
  (forall k x, In (k, x) d -> name_ok (accepted_identifier (fun _ => false)) [u "default_installer"] k) /\
  raw_compact_installer_dict d (Some (u "apt")) =
    Ok (VDict [(KStr (u "pip"), VList [VStr (u "b")]); (KStr (u "apt"), VList [VStr (u "a")])]) /\
  raw_compact_installer_dict d (Some (u "pip")) = Err ValueError.
Proof.
  cbv zeta. split.
  { repeat constructor; eexists; (split; [reflexivity|]); intros k x [E|[]]; injection E as <- <-;
      (split; [eexists; reflexivity|]); (split; [intros _; eexists; reflexivity|]); discriminate. }
  split; [reflexivity|].
  assert (N : forall s, s = u "apt" \/ s = u "pip" \/ s = u "default_installer" ->
    name_ok (accepted_identifier (fun _ => false)) [u "default_installer"] (KStr s)).
  { intros s Hs. exists s. split; [reflexivity|]. split.
    - left. right. destruct Hs as [->|[->| ->]]; (split; [discriminate|]);
        repeat (apply Forall_cons; [left; ((right; right; left; cbn; lia) || (right; right; right; left; reflexivity))|]); apply Forall_nil.
    - intros Hr. destruct Hs as [->|[->| ->]]; [exfalso|exfalso|left; reflexivity];
        vm_compute in Hr; repeat destruct Hr as [Hr|Hr]; try discriminate Hr; exact Hr. }
  split; [apply N; tauto|]. split; [|split; reflexivity].
  intros k x [E|[E|[]]]; injection E as <- <-; apply N; tauto.
Qed.

Example C59_nonvacuous :
  let toys := install toy_run ansi_disabled toy_cx toy_options (Ok (toy_results, [])) ([u "b"], []) in
  let failing := install toy_run ansi_disabled toy_cx toy_options (Ok (toy_failing, [])) ([], []) in
  no_exit (fst toys) /\ exit_code (main (Ok tt) (install_command (fst toys))) = 0%Z /\
  no_exit (fst failing) /\ exit_code (main (Ok tt) (install_command (fst failing))) = 1%Z.
Proof.
  split; [|split; [vm_compute; reflexivity|split; [|vm_compute; reflexivity]]]; intros c; vm_compute; discriminate.
Qed.

Print Assumptions C58_compact_partial.
Print Assumptions C58_default_renamed.
Print Assumptions C58_compact_unambiguous.
Print Assumptions C58_plain_refuted.
Print Assumptions C59_main.
Print Assumptions C59_resolve.
Print Assumptions C59_install_partial.
Print Assumptions C59_install_success.
Print Assumptions C59_install_refuted.
Print Assumptions C59_lookup.
(** C119: as a command of xylem, the update leaves the caches of [RulesDatabase.update] and reports its failures
    whatever the parsed arguments are. *)
Theorem C119_command_partial {P} (parse : P -> res bool) dry_run sha1 dumps version l envs cache_dir f :
  let r := update_main parse (Some dry_run) sha1 dumps version (Ok tt) (Ok l) envs cache_dir f in
  fst r = snd (fst (db_update sha1 dumps version envs false cache_dir l f)) /\
  snd r = update_command sha1 dumps version (Ok tt) (Ok l) envs cache_dir f.
Proof. cbv zeta; split; reflexivity. Qed.

(** If the caches can not be prepared or the sources not be determined, it changes no file and ends with that
    exception, an interruption as exit with code 1. *)
Theorem C119_no_sources {P} (parse : P -> res bool) dry_run sha1 dumps version ensure sources envs cache_dir f e :
  ensure = Err e \/ ensure = Ok tt /\ sources = Err e ->
  let r := update_main parse (Some dry_run) sha1 dumps version ensure sources envs cache_dir f in
  fst r = f /\ snd (snd r) = Err (if eqb e KeyboardInterrupt || eqb e EOFError then SystemExit 1 else e).
Proof.
  intros H; cbv zeta.
  assert (E : (let* _ := ensure in sources) = Err e) by (destruct H as [->|[-> ->]]; reflexivity).
  unfold update_main, update_command; cbn [command_handle_args]; rewrite E; split; [reflexivity|].
  destruct e; reflexivity.
Qed.

(** The installed script xylem-update never works: whatever the command line, the configuration, the sources and
    the caches, it fails with an AttributeError (which is no documented error, so a traceback is printed)
    before any file is changed. *)
Theorem C119_script_refuted {P} (parse : P -> res bool) sha1 dumps version ensure sources envs cache_dir f :
  let r := update_main parse None sha1 dumps version ensure sources envs cache_dir f in
  fst r = f /\ snd r = ([], Err AttributeError) /\ ~ In AttributeError documented_errors.
Proof.
  cbv zeta; split; [reflexivity|split; [reflexivity|]].
  cbn; intuition discriminate.
Qed.

(** A case in which the command works and changes the caches, and the script does not. *)
Example C119_nonvacuous : exists sha1 dumps version envs cache_dir l f,
  let r args := update_main (fun p : unit => Ok true) args sha1 dumps version (Ok tt) (Ok l) envs cache_dir f in
  fst (r (Some false)) <> f /\ clean (snd (r (Some false))) /\ ~ clean (snd (r None)).
Proof.
  exists x_sha1, Codec.enc, VNone, x_envs, (u "/c"), [x_source "http://a"], [].
  cbv zeta; split; [vm_compute; discriminate|split].
  - unfold clean; split; [intros (es & H); vm_compute in H; tauto|exists tt; vm_compute; reflexivity].
  - intros (_ & a & E); discriminate E.
Qed.

Print Assumptions C119_command_partial.
Print Assumptions C119_no_sources.
Print Assumptions C119_script_refuted.
Print Assumptions C59_update_refuted.
Print Assumptions C59_update_partial.
Print Assumptions C82_invalid_skipped_partial.
Print Assumptions C82_broken_plugin_refuted.
Print Assumptions C59_uncaught.
