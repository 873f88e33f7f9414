(** C114: from the rules files that the sources serve to the command lines: an update in one
    process, then an installation by another one, on the bundled systems with the default
    configuration. *)
From Verif Require Import Base Dict PyVal RulesDict RulesSpec Verify VerifySpec VerifyProofs VerifiedLookup
  Expand ExpandProofs CompactSpec CompactProofs Sources SourcesSpec SourcesProofs CacheProofs Order PropRules PropSources PropPipeline
  Util Paths Config XylemConfig Terminal Installer Installers
  Plugins OsSupport Context Resolve Install InstallSpec InstallProofs PropInstall PropResolve PropInstallers
  PropContext PropDefault PropEndToEnd.
Notation S := Datatypes.S.

(** * Specification *)
(** The rule for installer [i] in the rules of the sources [rs]: that of the first source that
    has one; [effective] (RulesSpec.v) is the rule in a single file. *)
Definition rule_for (rs : list (rules_dict pyval)) (def key os version i : text) (rule : pyval) : Prop :=
  exists before r after, rs = before ++ r :: after /\ effective r (Some def) key os version i rule /\
    forall r' rule', In r' before -> ~ effective r' (Some def) key os version i rule'.
Definition no_rule_for (rs : list (rules_dict pyval)) (def key os version i : text) : Prop :=
  forall r rule, In r rs -> ~ effective r (Some def) key os version i rule.

(** The tool and the packages for a key: what the native tool's rule says, which is also the
    default installer; if there is none, what pip's rule says. *)
Inductive wanted (rs : list (rules_dict pyval)) (os version key : text) : tool * list text -> Prop :=
| wanted_native t rule ps : native os t ->
    rule_for rs (t_name t) key os version (t_name t) rule -> package_rule rule ps ->
    wanted rs os version key (t, ps)
| wanted_pip t rule ps : native os t ->
    no_rule_for rs (t_name t) key os version (t_name t) ->
    rule_for rs (t_name t) key os version (u "pip") rule -> package_rule rule ps ->
    wanted rs os version key (t_pip, ps).

(** No file has an entry for both [default_installer] and the tool it stands for side by side. *)
Definition unambiguous_rules (rs : list (rules_dict pyval)) (os version key : text) : Prop :=
  forall r t id, In r rs -> native os t -> consulted r key os version id -> unambiguous_id (Some (t_name t)) id.

(** * Proof *)
Lemma wfval_wf_rules (r : rules_dict pyval) : wfval (inj_rules r) -> wf_rules r.
Proof.
  intros Hw. apply wfval_inj_dict in Hw; destruct Hw as [Hwr Hw]; split; [assumption|].
  intros k od Hin; specialize (Hw k od Hin); apply wfval_inj_dict in Hw.
  destruct Hw as [Hwo Hw']; split; [assumption|].
  intros os vd Hin'; specialize (Hw' os vd Hin'); apply wfval_inj_dict in Hw'.
  destruct Hw' as [Hwv Hw'']; split; [assumption|].
  intros ver id Hin''; specialize (Hw'' ver id Hin''); apply wfval_inj_dict in Hw''; tauto.
Qed.

Lemma in_inj {V} (f : V -> pyval) k x (e : dict text V) :
  In (KStr k, x) (map (fun p => (KStr (fst p), f (snd p))) e) -> exists v, In (k, v) e /\ x = f v.
Proof.
  intros H. apply in_map_iff in H as ([k' v] & E & H). cbn [fst snd] in E. injection E as -> <-. eauto.
Qed.

Lemma raw_entry_inj (r : rules_dict pyval) key os ver d :
  raw_entry (inj_rules r) key os ver d ->
  exists id, entry r key os ver id /\ d = map (fun p => (KStr (fst p), snd p)) id.
Proof.
  intros (r' & od & vd & E & H1 & H2 & H3). injection E as <-.
  apply in_inj in H1 as (od' & H1 & E1). injection E1 as ->.
  apply in_inj in H2 as (vd' & H2 & E2). injection E2 as ->.
  apply in_inj in H3 as (id & H3 & E3). injection E3 as ->.
  exists id. split; [exists od', vd'; auto|reflexivity].
Qed.

Lemma unamb_inj (r : rules_dict pyval) key os ver n :
  (forall id, consulted r key os ver id -> unambiguous_id (Some n) id) ->
  unamb_lookup (inj_rules r) key os ver (Some n).
Proof.
  assert (K : forall (id : installer_dict pyval) k,
     In (KStr k) (map fst (map (fun p => (KStr (fst p), snd p)) id)) <-> In k (map fst id)).
  { intros id k. rewrite map_map. cbn [fst]. rewrite <- (map_map fst KStr). rewrite in_map_iff. split.
    - intros (x & E & H). injection E as <-. exact H.
    - intros H. exists k. auto. }
  intros H d Hd. assert (C : exists id, consulted r key os ver id /\ d = map (fun p => (KStr (fst p), snd p)) id).
  { destruct Hd as [Hd|[Hd|Hd]]; apply raw_entry_inj in Hd as (id & He & ->); exists id; (split; [|reflexivity]);
      [right; right|right; left|left]; exact He. }
  destruct C as (id & Hc & ->). intros m Em Hm Hin. apply K in Hin. rewrite K.
  apply (H id Hc m Em Hm Hin).
Qed.

Section Files.
  Variables (rs : list (rules_dict pyval)) (n key os version : text).
  Hypothesis Hw : forall r, In r rs -> wfval (inj_rules r).
  Hypothesis Hu : forall r id, In r rs -> consulted r key os version id -> unambiguous_id (Some n) id.

  Lemma file_get r o i : In r rs -> raw_lookup (inj_rules r) key os version (Some n) = Ok (VDict o) ->
    (forall rule, get (KStr i) o = Some rule <-> effective r (Some n) key os version i rule) /\
    (forall rule, get (KStr i) o = Some rule -> wfval rule).
  Proof.
    intros Hin E. pose proof (raw_lookup_wfval _ _ _ _ _ _ (Hw r Hin) E) as Wo.
    rewrite raw_lookup_inj in E.
    destruct (lookup_rules r key os version (Some n)) as [d|] eqn:El; [|discriminate E].
    cbn [res_map] in E. injection E as <-.
    apply (proj1 (wfval_dict _)) in Wo. destruct Wo as [Wd Wv]. split.
    - intros rule.
      rewrite <- (C01_lookup_precedence _ r key os version (Some n) d (wfval_wf_rules r (Hw r Hin)) (fun id => Hu r id Hin) El i rule).
      rewrite (get_inj (fun x => x)). apply (proj1 (wf_inj (fun x : pyval => x) d)) in Wd. split.
      + intros G. destruct (get i d) as [x|] eqn:Gi; [|discriminate G]. injection G as <-. apply get_In, Gi.
      + intros I. apply In_get in I; [|exact Wd]. rewrite I. reflexivity.
    - intros rule G. apply get_In in G. rewrite Forall_forall in Wv. apply (Wv _ G).
  Qed.

  Lemma files_get outs i :
    Forall2 (fun d o => raw_lookup d key os version (Some n) = Ok (VDict o)) (map inj_rules rs) outs ->
    (forall rule, rule_for rs n key os version i rule -> first_some (map (get (KStr i)) outs) = Some rule /\ wfval rule) /\
    (no_rule_for rs n key os version i -> first_some (map (get (KStr i)) outs) = None).
  Proof.
    revert outs. assert (G : forall r o i, In r rs -> raw_lookup (inj_rules r) key os version (Some n) = Ok (VDict o) ->
      (forall rule, get (KStr i) o = Some rule <-> effective r (Some n) key os version i rule) /\
      (forall rule, get (KStr i) o = Some rule -> wfval rule)) by apply file_get.
    clear Hw Hu. induction rs as [|r l IH]; intros outs HF; cbn [map] in HF.
    - inversion HF; subst. split; [|reflexivity]. intros rule (b & r & a & E & _). destruct b; discriminate E.
    - inversion HF as [|x o y outs' Ho HF' E1 E2]; subst.
      destruct (G r o i (or_introl eq_refl) Ho) as [Gi Gw].
      destruct (IH (fun r o i H => G r o i (or_intror H)) outs' HF') as [IH1 IH2].
      cbn [map first_some]. split.
      + intros rule (b & r' & a & E & He & Hb). destruct b as [|r0 b].
        * cbn [app] in E. injection E as <- _. apply Gi in He. rewrite He. split; [reflexivity|apply Gw, He].
        * cbn [app] in E. injection E as <- E.
          assert (N : get (KStr i) o = None).
          { destruct (get (KStr i) o) as [x|] eqn:Gx; [|reflexivity]. exfalso. apply (Hb r x (or_introl eq_refl)). apply Gi. reflexivity. }
          rewrite N. apply IH1. exists b, r', a. split; [exact E|]. split; [exact He|]. intros r1 x H. apply Hb. right; exact H.
      + intros Hn. assert (N : get (KStr i) o = None).
        { destruct (get (KStr i) o) as [x|] eqn:Gx; [|reflexivity]. exfalso. apply (Hn r x (or_introl eq_refl)). apply Gi. reflexivity. }
        rewrite N. apply IH2. intros r' x H. apply Hn. right; exact H.
  Qed.
End Files.

Lemma veq_texts ps l : Forall2 veq (map VStr ps) l -> l = map VStr ps.
Proof.
  revert l; induction ps as [|p ps IH]; intros l H; inversion H as [|? y ? l' Hy Hl]; subst; [reflexivity|].
  apply veq_cases in Hy. cbn in Hy. subst y. cbn [map]. f_equal. apply IH, Hl.
Qed.

Lemma package_rule_veq rule rule' ps : wfval rule -> veq rule rule' -> package_rule rule ps -> package_rule rule' ps.
Proof.
  intros W H (r & deps & -> & Hp & Hd). destruct (veq_cases _ _ H) as (r' & ->).
  apply (proj1 (wfval_dict _)) in W. destruct W as [Wr _].
  assert (G : forall k, match get k r with Some x => exists x', get k r' = Some x' /\ veq x x' | None => get k r' = None end).
  { intros k. destruct (veq_get r (VDict r') k Wr H) as (e & E & Hg). injection E as <-. exact Hg. }
  exists r', deps. split; [reflexivity|]. split.
  - specialize (G (KStr (u "packages"))). rewrite Hp in G. destruct G as (x & -> & Hx).
    destruct (veq_cases _ _ Hx) as (l & -> & Hl). rewrite (veq_texts _ _ Hl). reflexivity.
  - specialize (G (KStr (u "depends"))). destruct Hd as [Hd|Hd]; rewrite Hd in G; [left; exact G|right].
    destruct G as (x & -> & Hx). destruct (veq_cases _ _ Hx) as (l & -> & Hl). rewrite (veq_texts _ _ Hl). reflexivity.
Qed.

Lemma native_legal uni os t : native os t -> legal_identifier uni (t_name t) /\ ~ In (t_name t) reserved.
Proof.
  intros H.
  assert (A : t = t_brew \/ t = t_apt) by (inversion H; auto).
  split.
  - right. destruct A as [-> | ->]; (split; [discriminate|]); repeat (apply Forall_cons; [left; right; right; left; cbn; lia|]); apply Forall_nil.
  - intros D. destruct A as [-> | ->]; repeat (destruct D as [D|D]; [discriminate D|]); exact D.
Qed.

Lemma Forall2_mono_In {A B} (P Q : A -> B -> Prop) l l' :
  (forall x y, In x l -> P x y -> Q x y) -> Forall2 P l l' -> Forall2 Q l l'.
Proof.
  intros H HF. induction HF as [|x y l l' Hxy HF IH]; [constructor|]. constructor.
  - apply H; [left; reflexivity|exact Hxy].
  - apply IH. intros a b Ha. apply H. right; exact Ha.
Qed.

Section Full.
  (** The libraries used by update and lookup. *)
  Variable uni : N -> bool.
  Variable yaml : text -> res pyval.
  Variable sha1 : text -> list N.
  Variable dumps : pyval -> text.
  Variable loads : text -> res pyval.
  Variable version : pyval.
  (** The machine. *)
  Context {W : Type}.
  Variable env : penv.
  Variable root : bool.
  Variable program_installed : text -> act W bool.
  Variable freeze : act W text.
  Variables exists_ isdir : text -> W -> bool.
  Variable makedirs : text -> act W unit.
  Variable f : W -> machine.
  Variable run : cmd -> act W Z.
  Variable ansi : dict text text.
  Notation plugins := (bundled_installers env root program_installed freeze exists_ isdir makedirs).
  Notation context_for c w := (make_context env c (bundled_os_eps uni f) (bundled_inst_eps uni plugins) w).

  (** What the sources in [l] serve during the update ([served] in PropPipeline.v). *)
  Definition serve (envs : nat -> step_env) cache_dir (fs0 : dict text text) (l : list source) (rs : list (rules_dict pyval)) : Prop :=
    List.length rs = List.length l /\
    forall j s r, nth_error l j = Some s -> nth_error rs j = Some r ->
      PropPipeline.served sha1 dumps envs cache_dir fs0 j s (inj_rules r).

  Lemma wanted_wants rs os v key q l2 ic t0 outs ans :
    (forall r, In r rs -> wfval (inj_rules r)) -> unambiguous_rules rs os v key ->
    native os t0 -> ic_os ic = os -> ic_version ic = v -> 
    db_lookup uni l2 key ic = Ok ans ->
    Forall2 (fun d o => raw_lookup d key os v (Some (t_name t0)) = Ok (VDict o)) (map inj_rules rs) outs ->
    (forall i, opt_veq (first_some (map (get i) outs)) (get i ans)) ->
    wanted rs os v key q -> wants os (fun key => db_lookup uni l2 key ic) key q.
  Proof.
    intros Hw Hu Hn Eo Ev Ea HF Hveq Hq.
    assert (Hu' : forall r id, In r rs -> consulted r key os v id -> unambiguous_id (Some (t_name t0)) id)
      by (intros r id Hr; apply Hu; assumption).
    pose proof (files_get rs (t_name t0) key os v Hw Hu' outs) as FG.
    inversion Hq as [t rule ps Ht Hr Hp Eq|t rule ps Ht Hno Hr Hp Eq]; subst q;
      pose proof (native_unique os t t0 Ht Hn) as D; subst t.
    - destruct (FG (t_name t0) HF) as [F _]. destruct (F rule Hr) as [F1 Wr].
      specialize (Hveq (KStr (t_name t0))). rewrite F1 in Hveq.
      destruct (get (KStr (t_name t0)) ans) as [rule'|] eqn:G; [|destruct Hveq].
      exists ans, rule'. split; [exact Ea|]. split; [apply pref_native; assumption|].
      exact (package_rule_veq rule rule' ps Wr Hveq Hp).
    - destruct (FG (u "pip") HF) as [F _]. destruct (F rule Hr) as [F1 Wr].
      destruct (FG (t_name t0) HF) as [_ F2]. specialize (F2 Hno).
      pose proof (Hveq (KStr (t_name t0))) as V0. rewrite F2 in V0.
      specialize (Hveq (KStr (u "pip"))). rewrite F1 in Hveq.
      destruct (get (KStr (t_name t0)) ans) as [x|] eqn:G0; [destruct V0|].
      destruct (get (KStr (u "pip")) ans) as [rule'|] eqn:G; [|destruct Hveq].
      exists ans, rule'. split; [exact Ea|]. split; [apply (pref_pip os ans t0); assumption|].
      exact (package_rule_veq rule rule' ps Wr Hveq Hp).
  Qed.

  (** An update, then an installation of [keys] by another process that reads the cache.  The
      sources may fail during the update, if their cache files are there. *)
  Section Claims.
    Variables (dir : text) (st : dir_state) (defaults : list (text * text)) (l : list source) (cache_dir : text)
      (envs : nat -> step_env) (fs0 : dict text text) (rs : list (rules_dict pyval)).
    (** Pickling restores what was saved, up to the order of dicts. *)
    Hypothesis Hrt : forall v, exists v', loads (dumps v) = Ok v' /\ veq v v'.
    Hypothesis Hinit : init_from_sources yaml sha1 [rules_spec uni yaml] dir st defaults = Ok l.
    (** No KeyboardInterrupt or SystemExit during the update. *)
    Hypothesis Hexc : forall j s g e, nth_error l j = Some s ->
      snd (update_source sha1 dumps version envs cache_dir j s g) = Err e -> is_Exception e = true.
    Hypothesis Hserve : serve envs cache_dir fs0 l rs.
    (** The machine on which keys are installed. *)
    Variables (c : pydict) (w : W) (b : builtin_os) (v os : text).
    Hypothesis Hc : plain_config c [].
    Hypothesis Hr : runs (f w) b v.
    Hypothesis Hos : os_names b = Some os.
    Variables (dk : res (list text)) (keys : list text) (reqs : list (tool * list text)).
    Hypothesis Hnd : NoDup keys.
    Hypothesis Hunamb : forall key, In key keys -> unambiguous_rules rs os v key.
    Hypothesis Hwanted : Forall2 (wanted rs os v) keys reqs.
    (** The tools are installed; pip freeze prints [lines]. *)
    Hypothesis Hex : forall t, In t (map fst reqs) -> program_installed (executable t) w = (Ok true, w).
    Variable lines : list text.
    Hypothesis Hfreeze : In t_pip (map fst reqs) -> freeze w = (Ok (join [newline] lines), w) /\ lines <> [] /\
      (forall line, In line lines -> ~ In newline line).
    Hypothesis Heq : forall p, In (t_pip, p) (items reqs) -> ~ In equals_sign p.
    Variable o : options.
    Hypothesis Hre : o_reinstall o = false.

    Lemma full : exists l1 f1 l2 ctx,
      db_update sha1 dumps version envs false cache_dir l fs0 = (l1, f1, Ok tt) /\
      db_load_from_cache sha1 loads true cache_dir l f1 = (l2, f1, Ok tt) /\
      context_for c w = Ok ctx /\
      Forall2 (wants os (fun key => db_lookup uni l2 key (cx_ic ctx))) keys reqs.
    Proof.
      destruct Hserve as [Hlen Hs].
      destruct (C80_lookup_after_update uni yaml sha1 dumps loads version dir st defaults l cache_dir envs fs0 (map inj_rules rs)
                  Hrt Hinit Hexc) as (l1 & f1 & l2 & Eu & El & Hans).
      { rewrite map_length; exact Hlen. }
      { intros j s d Hj Hd. rewrite nth_error_map in Hd. destruct (nth_error rs j) as [r|] eqn:Er; [|discriminate Hd].
        injection Hd as <-. apply (Hs j s r Hj Er). }
      assert (Hw : forall r, In r rs -> wfval (inj_rules r)).
      { intros r Hin. apply In_nth_error in Hin as (j & Hj).
        assert (Hl : exists s, nth_error l j = Some s).
        { destruct (nth_error l j) as [s|] eqn:E; [eauto|]. apply nth_error_None in E.
          assert (nth_error rs j <> None) as X by congruence. apply nth_error_Some in X. rewrite Hlen in X. lia. }
        destruct Hl as (s & Hl). destruct (Hs j s r Hl Hj) as [X _]. exact X. }
      destruct (C76_default_context uni env root program_installed freeze exists_ isdir makedirs f c w b v Hc Hr)
        as (ctx & Ec & Eo & Ev & Ed & _).
      exists l1, f1, l2, ctx. split; [exact Eu|]. split; [exact El|]. split; [exact Ec|].
      rewrite Hos in Eo. injection Eo as Eo.
      assert (Hn : exists t0, native os t0 /\ b_default b = Some (t_name t0)).
      { destruct Hr; injection Hos as <-;
          ((exists t_brew; split; [constructor|reflexivity]) ||
           (exists t_apt; split; [constructor; cbn; tauto|reflexivity])). }
      destruct Hn as (t0 & Hn & Hd). rewrite Hd in Ed. destruct (native_legal uni os t0 Hn) as [Hl1 Hl2].
      assert (One : forall key q, In key keys -> wanted rs os v key q ->
        wants os (fun key => db_lookup uni l2 key (cx_ic ctx)) key q).
      { intros key q Hk Hq.
        destruct (Hans key (cx_ic ctx) (t_name t0) Ed Hl1 Hl2) as (ans & outs & Ea & HF & Hveq).
        { intros d Hin. apply in_map_iff in Hin as (r & <- & Hin). apply unamb_inj. intros id Hcons.
          rewrite Eo, Ev in Hcons. apply (Hunamb key Hk r t0 id Hin Hn Hcons). }
        rewrite Eo, Ev in HF.
        exact (wanted_wants rs os v key q l2 (cx_ic ctx) t0 outs ans Hw (Hunamb key Hk) Hn Eo Ev Ea HF Hveq Hq). }
      exact (Forall2_mono_In _ _ _ _ One Hwanted).
    Qed.

    (** With --simulate: the update and loading the cache succeed, and the installation shows
        exactly the commands for the packages that the files want, in the order of the keys,
        without the pip packages already installed; nothing is executed or changed. *)
    Theorem C114_simulated : o_simulate o = true -> exists l1 f1 l2 ctx log rest,
      db_update sha1 dumps version envs false cache_dir l fs0 = (l1, f1, Ok tt) /\
      db_load_from_cache sha1 loads true cache_dir l f1 = (l2, f1, Ok tt) /\
      context_for c w = Ok ctx /\
      install run ansi ctx o (resolve (fun key => db_lookup uni l2 key (cx_ic ctx)) dk ctx [] keys false) (w, [])
        = (Ok ([], []), (w, log)) /\
      remaining lines (items reqs) rest /\ shown log = command_lines root rest /\ executed log = [].
    Proof.
      intros Ho. destruct full as (l1 & f1 & l2 & ctx & Eu & El & Ec & HW).
      destruct (C105_simulated uni env root program_installed freeze exists_ isdir makedirs f run ansi c w b v os Hc Hr Hos
                  _ dk keys reqs Hnd HW Hex lines Hfreeze Heq o Hre Ho) as (ctx' & log & rest & Ec' & E & R & S1 & S2).
      assert (ctx' = ctx) by congruence. subst ctx'.
      exists l1, f1, l2, ctx, log, rest. auto 10.
    Qed.

    (** Without --simulate and with --continue-on-error: exactly these commands are executed. *)
    Theorem C114_executed_partial :
      ansi = ansi_enabled \/ ansi = ansi_disabled ->
      o_simulate o = false -> o_continue o = true ->
      (In t_pip (map fst reqs) -> forall w, exists out w', freeze w = (Ok out, w')) ->
      (forall x, In x (items reqs) -> ~ In at_ (snd x)) ->
      (forall cmd w', In cmd (command_lines root (items reqs)) -> exists code w'', run cmd w' = (Ok code, w'')) ->
      exists l1 f1 l2 ctx errs w' log rest,
      db_update sha1 dumps version envs false cache_dir l fs0 = (l1, f1, Ok tt) /\
      db_load_from_cache sha1 loads true cache_dir l f1 = (l2, f1, Ok tt) /\
      context_for c w = Ok ctx /\
      install run ansi ctx o (resolve (fun key => db_lookup uni l2 key (cx_ic ctx)) dk ctx [] keys false) (w, [])
        = (Ok ([], errs), (w', log)) /\
      remaining lines (items reqs) rest /\ executed log = command_lines root rest /\ shown log = [].
    Proof.
      intros Ha Ho Hco Hf Hat Hrun. destruct full as (l1 & f1 & l2 & ctx & Eu & El & Ec & HW).
      destruct (C105_executed_partial uni env root program_installed freeze exists_ isdir makedirs f run ansi c w b v os Hc Hr Hos
                  _ dk keys reqs Hnd HW Hex lines Hfreeze Heq o Hre Ha Ho Hco Hf Hat Hrun)
        as (ctx' & errs & w' & log & rest & Ec' & E & R & S1 & S2).
      assert (ctx' = ctx) by congruence. subst ctx'.
      exists l1, f1, l2, ctx, errs, w', log, rest. auto 12.
    Qed.
  End Claims.
End Full.

(** Non-vacuity: two sources, the first one downloaded, the second one down but in the cache; the
    first has an apt rule for boost, the second only a pip rule for six. *)
Definition z_rules_a : rules_dict pyval :=
  [(u "boost", [(u "ubuntu", [(u "any_version", [(u "default_installer",
     VDict [(KStr (u "packages"), VList [VStr (u "libboost")])])])])])].
Definition z_rules_b : rules_dict pyval :=
  [(u "six", [(u "any_os", [(u "any_version", [(u "pip",
     VDict [(KStr (u "packages"), VList [VStr (u "six")])])])])]);
   (u "boost", [(u "any_os", [(u "any_version", [(u "pip",
     VDict [(KStr (u "packages"), VList [VStr (u "boost")])])])])])].

Lemma z_entry r key os ver id : In r [z_rules_a; z_rules_b] -> entry r key os ver id ->
  exists rule, id = [(u "default_installer", rule)] /\ r = z_rules_a /\ key = u "boost" /\ os = u "ubuntu" /\
               rule = VDict [(KStr (u "packages"), VList [VStr (u "libboost")])] /\ ver = u "any_version" \/
               id = [(u "pip", rule)] /\ r = z_rules_b /\ os = u "any_os" /\ ver = u "any_version" /\
               (key = u "six" /\ rule = VDict [(KStr (u "packages"), VList [VStr (u "six")])] \/
                key = u "boost" /\ rule = VDict [(KStr (u "packages"), VList [VStr (u "boost")])]).
Proof.
  intros [<-|[<-|[]]] (od & vd & H1 & H2 & H3).
  - destruct H1 as [H1|[]]; injection H1 as <- <-. destruct H2 as [H2|[]]; injection H2 as <- <-.
    destruct H3 as [H3|[]]; injection H3 as <- <-. eexists. left. repeat split; reflexivity.
  - destruct H1 as [H1|[H1|[]]]; injection H1 as <- <-; destruct H2 as [H2|[]]; injection H2 as <- <-;
      destruct H3 as [H3|[]]; injection H3 as <- <-; eexists; right; repeat (split; [reflexivity|]);
      [left|right]; split; reflexivity.
Qed.

Example C114_nonvacuous :
  (forall key, In key [u "boost"; u "six"] -> unambiguous_rules [z_rules_a; z_rules_b] (u "ubuntu") (u "trusty") key) /\
  Forall2 (wanted [z_rules_a; z_rules_b] (u "ubuntu") (u "trusty")) [u "boost"; u "six"]
    [(t_apt, [u "libboost"]); (t_pip, [u "six"])].
Proof.
  assert (N : native (u "ubuntu") t_apt) by (constructor; right; left; reflexivity).
  split.
  - intros key _ r t id Hr _ Hc n En Hn Hin Hin'.
    assert (X : exists os ver, entry r key os ver id) by (destruct Hc as [H|[H|H]]; eauto).
    destruct X as (os & ver & He). destruct (z_entry _ _ _ _ _ Hr He) as (rule & [(-> & _)|(-> & _)]).
    + destruct Hin' as [D|[]]. apply Hn. exact (eq_sym D).
    + destruct Hin as [D|[]]. discriminate D.
  - constructor; [|constructor; [|constructor]].
    + eapply wanted_native; [exact N| |].
      * exists [], z_rules_a, [z_rules_b]. split; [reflexivity|]. split; [|intros ? ? []].
        apply eff_any_version.
        -- intros rule (id & He & _). destruct (z_entry _ _ _ _ _ (or_introl eq_refl) He) as (r' & [(_ & _ & _ & _ & _ & D)|(_ & D & _)]);
             discriminate D.
        -- eexists. split; [do 2 eexists; split; [left; reflexivity|]; split; [left; reflexivity|left; reflexivity]|].
           right. split; [left; reflexivity|]. split; [reflexivity|discriminate].
      * eexists _, []. split; [reflexivity|]. split; [reflexivity|left; reflexivity].
    + eapply wanted_pip; [exact N| | |].
      * intros r rule Hr He.
        assert (X : exists os ver, rule_at r (Some (t_name t_apt)) (u "six") os ver (t_name t_apt) rule) by (destruct He; eauto).
        destruct X as (os & ver & id & He' & Hn). destruct (z_entry _ _ _ _ _ Hr He') as (r' & [(_ & _ & D & _)|(-> & _)]);
          [discriminate D|].
        destruct Hn as [(_ & [D|[]])|([D|[]] & _)]; discriminate D.
      * exists [z_rules_a], z_rules_b, []. split; [reflexivity|]. split.
        -- apply eff_any_os.
           ++ intros rule (id & He & _). destruct (z_entry _ _ _ _ _ (or_intror (or_introl eq_refl)) He)
                as (r' & [(_ & D & _)|(_ & _ & D & _)]); discriminate D.
           ++ intros rule (id & He & _). destruct (z_entry _ _ _ _ _ (or_intror (or_introl eq_refl)) He)
                as (r' & [(_ & D & _)|(_ & _ & D & _)]); discriminate D.
           ++ eexists. split; [do 2 eexists; split; [left; reflexivity|]; split; [left; reflexivity|left; reflexivity]|].
              left. split; [discriminate|left; reflexivity].
        -- intros r' rule' [<-|[]] He.
           assert (X : exists os ver, rule_at z_rules_a (Some (t_name t_apt)) (u "six") os ver (u "pip") rule') by (destruct He; eauto).
           destruct X as (os & ver & id & He' & _). destruct (z_entry _ _ _ _ _ (or_introl eq_refl) He') as (r' & [(_ & _ & D & _)|(_ & D & _)]);
             discriminate D.
      * eexists _, []. split; [reflexivity|]. split; [reflexivity|left; reflexivity].
Qed.

(** All hypotheses at once, with the sources of [C80_nonvacuous] (the second one is down, but in the
    cache), on a machine with Ubuntu: `xylem install --simulate boost` shows one command. *)
Definition z_old : rules_dict pyval :=
  [(u "boost", [(u "any_os", [(u "any_version", [(u "pip", VDict [(KStr (u "packages"), VList [VStr (u "boost")])])])])])].
Definition z_machine : machine :=
  {| m_lsb := Some (u "Ubuntu", u "16.04", u "xenial"); m_sw_vers := None; m_strict_version := fun _ => None |}.
Example C114_instance : let env := {| home := fun _ => None; cwd := u "/" |} in
  let l := [x_source "http://a"; x_source "http://b"] in
  exists c l1 f1 l2 ctx log,
    load_dict env [] = Ok c /\
    db_update x_sha1 Codec.enc VNone x_envs false (u "/c") l y_fs = (l1, f1, Ok tt) /\
    db_load_from_cache x_sha1 Codec.dec_all true (u "/c") l f1 = (l2, f1, Ok tt) /\
    make_context env c (bundled_os_eps x_uni (fun w => w)) (bundled_inst_eps x_uni
      (bundled_installers env false (fun _ w => (Ok true, w)) ex_freeze (fun _ _ => false) (fun _ _ => false) (fun _ w => (Ok tt, w))))
      z_machine = Ok ctx /\
    install (fun _ w => (Ok 1%Z, w)) ansi_disabled ctx
      {| o_interactive := false; o_reinstall := false; o_simulate := true; o_continue := false; o_fix := false |}
      (resolve (fun key => db_lookup x_uni l2 key (cx_ic ctx)) (Ok []) ctx [] [u "boost"] false) (z_machine, [])
      = (Ok ([], []), (z_machine, log)) /\
    shown log = [[u "sudo"; u "apt-get"; u "install"; u "libboost"]].
Proof.
  intros env l. pose proof C80_nonvacuous as N. cbv zeta in N. destruct N as (N1 & N2 & N3 & N4 & _).
  assert (C : exists c, load_dict env [] = Ok c /\ plain_config c []).
  { eexists. split; [vm_compute; reflexivity|]. unfold plain_config; repeat (split; [reflexivity|]); reflexivity. }
  destruct C as (c & C1 & C2).
  assert (Nat : native (u "ubuntu") t_apt) by (constructor; right; left; reflexivity).
  destruct (C114_simulated x_uni x_yaml x_sha1 Codec.enc Codec.dec_all VNone env false (fun _ w => (Ok true, w)) ex_freeze
    (fun _ _ => false) (fun _ _ => false) (fun _ w => (Ok tt, w)) (fun w => w) (fun _ w => (Ok 1%Z, w)) ansi_disabled
    (u "/s") x_dir [] l (u "/c") x_envs y_fs [z_rules_a; z_old] N1 N2 N3) with
    (c := c) (w := z_machine) (b := ubuntu) (v := u "xenial") (os := u "ubuntu") (dk := Ok (@nil text)) (keys := [u "boost"])
    (reqs := [(t_apt, [u "libboost"])]) (lines := @nil text)
    (o := {| o_interactive := false; o_reinstall := false; o_simulate := true; o_continue := false; o_fix := false |})
    as (l1 & f1 & l2 & ctx & log & rest & E1 & E2 & E3 & E4 & E5 & E6 & _).
  - split; [reflexivity|]. intros j s r Hs Hr. apply (N4 j s (inj_rules r) Hs).
    destruct j as [|[|j]]; cbn [nth_error] in Hr |- *; [injection Hr as <-; reflexivity|injection Hr as <-; reflexivity|].
    destruct j; discriminate Hr.
  - exact C2.
  - apply runs_ubuntu with (u "16.04"); reflexivity.
  - reflexivity.
  - constructor; [intros []|constructor].
  - intros key _ r t id Hr Ht Hc n En Hn Hin Hin'.
    assert (X : exists os ver, entry r key os ver id) by (destruct Hc as [H|[H|H]]; eauto).
    destruct X as (os & ver & od & vd & H1 & H2 & H3).
    destruct Hr as [<-|[<-|[]]]; destruct H1 as [H1|[]]; injection H1 as _ <-; destruct H2 as [H2|[]]; injection H2 as _ <-;
      (destruct H3 as [H3|[]]; injection H3 as _ <-).
    + destruct Hin' as [D|[]]. apply Hn. exact (eq_sym D).
    + destruct Hin as [D|[]]. discriminate D.
  - constructor; [|constructor]. eapply wanted_native; [exact Nat| |].
    + exists [], z_rules_a, [z_old]. split; [reflexivity|]. split; [|intros ? ? []]. apply eff_any_version.
      * intros rule (id & He & _). destruct (z_entry _ _ _ _ _ (or_introl eq_refl) He) as (r' & [(_ & _ & _ & _ & _ & D)|(_ & D & _)]);
          discriminate D.
      * eexists. split; [do 2 eexists; split; [left; reflexivity|]; split; [left; reflexivity|left; reflexivity]|].
        right. split; [left; reflexivity|]. split; [reflexivity|discriminate].
    + eexists _, []. split; [reflexivity|]. split; [reflexivity|left; reflexivity].
  - reflexivity.
  - intros [D|[]]. discriminate (f_equal t_name D).
  - intros p [D|[]]. discriminate (f_equal (fun x => t_name (fst x)) D).
  - reflexivity.
  - reflexivity.
  - exists c, l1, f1, l2, ctx, log. repeat (split; [assumption|]). rewrite E6.
    assert (R : remaining [] (items [(t_apt, [u "libboost"])]) [(t_apt, u "libboost")]).
    { apply rem_keep; [|constructor]. intros (D & _). discriminate D. }
    rewrite (remaining_unique _ _ _ _ E5 R). reflexivity.
Qed.

Print Assumptions C114_simulated.
Print Assumptions C114_executed_partial.
