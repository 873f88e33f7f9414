(** C117: arguments of the API functions. *)
From Verif Require Import Base Dict PyVal RulesDict Verify Sources Util Paths Config XylemConfig PropConfig Directories
  Plugins Installer Installers Resolve Terminal Install OsSupport Context PropContext Commands PropCommands Api PropDisabled PropSources PropPipeline.
From Verif Require Codec.

Section Api.
  Context {W : Type}.
  Variable env : penv.
  Variable d : desc.
  Variable g : pydict.
  Variable uni : N -> bool.
  Variable yaml : text -> res pyval.
  Variable sha1 : text -> list N.
  Variable dumps : pyval -> text.
  Variable loads : text -> res pyval.
  Variable version : pyval.
  Variable spec_eps : list (res (definition spec)).
  Variable os_eps : list (res (definition (os_plugin W))).
  Variable inst_eps : list (res (definition (inst_plugin W pydict))).
  Variable dirs : text -> dir_state.
  Variable defaults : list (text * text).
  Variable run : cmd -> act W Z.
  Variable ansi : dict text text.
  Notation update := (api_update g yaml sha1 dumps version spec_eps dirs defaults).
  Notation lookup := (api_lookup env g uni yaml sha1 loads spec_eps os_eps inst_eps dirs defaults).
  Notation resolve := (api_resolve env d g uni yaml sha1 loads spec_eps os_eps inst_eps dirs defaults).
  Notation install := (api_install env d g uni yaml sha1 loads spec_eps os_eps inst_eps dirs defaults run ansi).
  Notation sources_of c := (make_sources_context spec_eps [] c).
  Notation context_of c w := (make_context env c os_eps inst_eps w).

  (** Without a configuration the global one is used. *)
  Theorem C117_none_is_global :
    (forall dry sctx ensure envs f, update dry CfgNone sctx ensure envs f = update dry (CfgConfig g) sctx ensure envs f) /\
    (forall key compact sctx ictx f w, lookup key compact CfgNone sctx ictx f w = lookup key compact (CfgConfig g) sctx ictx f w) /\
    (forall keys all db sctx ictx f w, resolve keys all CfgNone db sctx ictx f w = resolve keys all (CfgConfig g) db sctx ictx f w) /\
    (forall keys all o db sctx ictx f w, install keys all o CfgNone db sctx ictx f w = install keys all o (CfgConfig g) db sctx ictx f w).
  Proof. repeat split; reflexivity. Qed.

  (** Without a context one is made from the configuration: the same as passing it. *)
  Theorem C117_contexts_from_config c sc w ic :
    sources_of c = Ok sc -> context_of c w = Ok ic ->
    (forall dry ensure envs f, update dry (CfgConfig c) CtxNone ensure envs f = update dry (CfgConfig c) (CtxGiven sc) ensure envs f) /\
    (forall key compact f, lookup key compact (CfgConfig c) CtxNone CtxNone f w =
                           lookup key compact (CfgConfig c) (CtxGiven sc) (CtxGiven ic) f w) /\
    (forall keys all f, resolve keys all (CfgConfig c) None CtxNone CtxNone f w =
                        resolve keys all (CfgConfig c) None (CtxGiven sc) (CtxGiven ic) f w) /\
    (forall keys all o f, install keys all o (CfgConfig c) None CtxNone CtxNone f w =
                          install keys all o (CfgConfig c) None (CtxGiven sc) (CtxGiven ic) f w).
  Proof.
    intros Es Ei. split; [|split; [|split]]; intros.
    - unfold api_update, or_context, sources_context_of. cbn [config_attributes bind]. rewrite Es. reflexivity.
    - unfold api_lookup, or_context, sources_context_of. cbn [config_attributes bind]. rewrite Es, Ei. reflexivity.
    - unfold api_resolve, ensure_context, sources_context_of. cbn [ensure_config bind]. rewrite Es, Ei. reflexivity.
    - unfold api_install, api_resolve, ensure_context, sources_context_of. cbn [ensure_config bind]. rewrite Ei. cbn [bind]. rewrite Es. reflexivity.
  Qed.

  (** Contexts that are passed are used, whatever the configuration: it does not matter at all
      for updates and lookups, and for resolution and installation only its install_from. *)
  Theorem C117_given_contexts sc ic :
    (forall dry a b ensure envs f, update dry a (CtxGiven sc) ensure envs f = update dry b (CtxGiven sc) ensure envs f) /\
    (forall key compact a b f w, lookup key compact a (CtxGiven sc) (CtxGiven ic) f w = lookup key compact b (CtxGiven sc) (CtxGiven ic) f w) /\
    (forall keys all a b db f w, get (KStr (u "install_from")) a = get (KStr (u "install_from")) b ->
       resolve keys all (CfgConfig a) db (CtxGiven sc) (CtxGiven ic) f w = resolve keys all (CfgConfig b) db (CtxGiven sc) (CtxGiven ic) f w) /\
    (forall keys all o a b db f w, get (KStr (u "install_from")) a = get (KStr (u "install_from")) b ->
       install keys all o (CfgConfig a) db (CtxGiven sc) (CtxGiven ic) f w = install keys all o (CfgConfig b) db (CtxGiven sc) (CtxGiven ic) f w).
  Proof.
    split; [reflexivity|]. split; [reflexivity|]. split; intros.
    - unfold api_resolve, install_from_of, attr. cbn [ensure_config bind]. rewrite H. reflexivity.
    - unfold api_install, api_resolve, install_from_of, attr. cbn [ensure_config ensure_context bind]. rewrite H. reflexivity.
  Qed.

  (** A database that is passed is used: neither the sources nor the cache matter. *)
  Theorem C117_given_database keys all a l sctx sctx' ictx f f' w :
    resolve keys all a (Some l) sctx ictx f w = resolve keys all a (Some l) sctx' ictx f' w /\
    forall o, install keys all o a (Some l) sctx ictx f w = install keys all o a (Some l) sctx' ictx f' w.
  Proof. split; reflexivity. Qed.

  (** A lookup answers from the sources and the cache of the sources context, for the os of the
      installer context: if these can not be read it fails; otherwise the answer is the
      database's, in the compact presentation for the default installer, and an exception of the
      database comes out.  Without compact presentation no answer comes out at all (C58). *)
  Theorem C117_lookup_answers key a sc ic f w :
    (forall e, make_database yaml sha1 dirs defaults sc = Err e ->
       forall compact, lookup key compact a (CtxGiven sc) (CtxGiven ic) f w = Err e) /\
    (forall l, make_database yaml sha1 dirs defaults sc = Ok l ->
       (forall l' f' e, db_load_from_cache sha1 loads true (sc_cache sc) l f = (l', f', Err e) ->
          forall compact, lookup key compact a (CtxGiven sc) (CtxGiven ic) f w = Err e) /\
       (forall l' f', db_load_from_cache sha1 loads true (sc_cache sc) l f = (l', f', Ok tt) ->
          (forall e, db_lookup uni l' key (cx_ic ic) = Err e ->
             forall compact, lookup key compact a (CtxGiven sc) (CtxGiven ic) f w = Err e) /\
          (forall answer, db_lookup uni l' key (cx_ic ic) = Ok answer ->
             (exists v, lookup key true a (CtxGiven sc) (CtxGiven ic) f w = Ok v /\ shows (ic_default (cx_ic ic)) v answer) /\
             lookup key false a (CtxGiven sc) (CtxGiven ic) f w = Err UnboundLocalError))).
  Proof.
    split; [|intros l El; split; [|intros l' f' Ed; split]].
    - intros e E compact. unfold api_lookup. cbn [or_context usable_context bind]. rewrite E. reflexivity.
    - intros l' f' e Ed compact. unfold api_lookup. cbn [or_context usable_context bind]. rewrite El. cbn [bind].
      rewrite Ed. reflexivity.
    - intros e E compact. unfold api_lookup. cbn [or_context usable_context bind]. rewrite El. cbn [bind].
      rewrite Ed. cbn [bind]. rewrite E. reflexivity.
    - intros answer E. unfold api_lookup. cbn [or_context usable_context bind]. rewrite El. cbn [bind].
      rewrite Ed. cbn [bind]. rewrite E. cbn [bind]. split; [|reflexivity].
      apply compact_shows with uni. eapply db_lookup_items. exact E.
  Qed.

  (** Resolution with a database resolves from the answers and the keys of this very database,
      with the [install_from] of the configuration; without one it is made of the sources and
      the cache of the sources context. *)
  Theorem C117_resolve_database keys all c m sctx ic f w :
    get (KStr (u "install_from")) c = Some (VDict (map (fun p => (KStr (fst p), VList (map VStr (snd p)))) m)) ->
    (forall l, resolve keys all (CfgConfig c) (Some l) sctx (CtxGiven ic) f w =
       Resolve.resolve (fun key => db_lookup uni l key (cx_ic ic)) (text_keys (db_keys l (cx_ic ic))) ic m keys all) /\
    (forall sc l l' f', make_database yaml sha1 dirs defaults sc = Ok l ->
       db_load_from_cache sha1 loads true (sc_cache sc) l f = (l', f', Ok tt) ->
       resolve keys all (CfgConfig c) None (CtxGiven sc) (CtxGiven ic) f w =
       resolve keys all (CfgConfig c) (Some l') sctx (CtxGiven ic) f w) /\
    (forall sc e, make_database yaml sha1 dirs defaults sc = Err e \/
       (exists l l' f', make_database yaml sha1 dirs defaults sc = Ok l /\
          db_load_from_cache sha1 loads true (sc_cache sc) l f = (l', f', Err e)) ->
       resolve keys all (CfgConfig c) None (CtxGiven sc) (CtxGiven ic) f w = Err e).
  Proof.
    intros Hm.
    assert (Hi : install_from_of c = Ok m).
    { unfold install_from_of, attr. rewrite Hm. cbn [bind]. clear.
      assert (N : forall l, names_of (VList (map VStr l)) = Ok l).
      { intros l. unfold names_of. induction l as [|x l IH]; [reflexivity|]. cbn [map mapM]. rewrite IH. reflexivity. }
      induction m as [|[n ks] m IH]; [reflexivity|]. cbn [map mapM fst snd]. rewrite N. cbn [bind]. rewrite IH. reflexivity. }
    split; [|split].
    - intros l. unfold api_resolve. cbn [ensure_config ensure_context bind]. rewrite Hi. reflexivity.
    - intros sc l l' f' El Ed. unfold api_resolve. cbn [ensure_config ensure_context bind]. rewrite El. cbn [bind].
      rewrite Ed. reflexivity.
    - intros sc e H. unfold api_resolve. cbn [ensure_config ensure_context bind].
      destruct H as [E|(l & l' & f' & El & Ed)]; [rewrite E; reflexivity|]. rewrite El. cbn [bind]. rewrite Ed. reflexivity.
  Qed.

  (** A plain dict is validated and completed with the defaults, for resolution and
      installation; an invalid one is an error, before anything else.  Missing: update and lookup. *)
  Theorem C117_plain_dict_partial x :
    (forall c, ensure_config_dict env d x = Ok c ->
       (forall keys all db sctx ictx f w, resolve keys all (CfgDict x) db sctx ictx f w = resolve keys all (CfgConfig c) db sctx ictx f w) /\
       (forall keys all o db sctx ictx f w, install keys all o (CfgDict x) db sctx ictx f w = install keys all o (CfgConfig c) db sctx ictx f w)) /\
    (forall e, ensure_config_dict env d x = Err e ->
       (forall keys all db sctx ictx f w, resolve keys all (CfgDict x) db sctx ictx f w = Err e) /\
       (forall keys all o db sctx ictx f w, install keys all o (CfgDict x) db sctx ictx f w = (Err e, (w, [])))).
  Proof.
    split; intros r E; split; intros; unfold api_install, api_resolve; cbn [ensure_config]; rewrite E; reflexivity.
  Qed.

  (** Updates and lookups do not accept a plain dict, not even a complete one, unless all
      contexts are passed as well. *)
  Theorem C117_plain_dict_refuted x :
    (forall dry ensure envs f, update dry (CfgDict x) CtxNone ensure envs f = (f, Err AttributeError)) /\
    (forall key compact ictx f w, lookup key compact (CfgDict x) CtxNone ictx f w = Err AttributeError) /\
    (forall key compact sc f w, lookup key compact (CfgDict x) (CtxGiven sc) CtxNone f w = Err AttributeError).
  Proof. repeat split; reflexivity. Qed.

  (** What a given sources context decides: the cache directory that is created, and the directory of the source files; what
      is the case with other directories does not matter. *)
  Theorem C117_given_sources sc a dry ensure ensure' dirs' envs f :
    (forall e, ensure (sc_cache sc) = Err e -> update dry a (CtxGiven sc) ensure envs f = (f, Err e)) /\
    (ensure' (sc_cache sc) = ensure (sc_cache sc) -> dirs' (sc_dir sc) = dirs (sc_dir sc) ->
       api_update g yaml sha1 dumps version spec_eps dirs' defaults dry a (CtxGiven sc) ensure' envs f = update dry a (CtxGiven sc) ensure envs f /\
       make_database yaml sha1 dirs' defaults sc = make_database yaml sha1 dirs defaults sc).
  Proof.
    unfold api_update, make_database; cbn [or_context usable_context bind]; split.
    - intros e E; rewrite E; unfold Sources.update; reflexivity.
    - intros -> ->; split; reflexivity.
  Qed.

  (** An object that is no context, but true, has none of the attributes an update or a lookup needs; one that is false is
      as good as none. *)
  Theorem C117_other_contexts a :
    (forall dry ensure envs f, update dry a (CtxOther true) ensure envs f = (f, Err AttributeError) /\
                               update dry a (CtxOther false) ensure envs f = update dry a CtxNone ensure envs f) /\
    (forall key compact sc f w, lookup key compact a (CtxOther true) (CtxGiven sc) f w = Err AttributeError /\
                                lookup key compact a (CtxOther false) (CtxGiven sc) f w = lookup key compact a CtxNone (CtxGiven sc) f w).
  Proof. repeat split; reflexivity. Qed.

  (** Anything else is a ValueError in resolution and installation, and nothing happens. *)
  Theorem C117_invalid_arguments :
    (forall keys all db sctx ictx f w, resolve keys all CfgOther db sctx ictx f w = Err ValueError) /\
    (forall keys all o db sctx ictx f w, install keys all o CfgOther db sctx ictx f w = (Err ValueError, (w, []))) /\
    (forall keys all c db sctx t f w, resolve keys all (CfgConfig c) db sctx (CtxOther t) f w = Err ValueError) /\
    (forall keys all o c db sctx t f w, install keys all o (CfgConfig c) db sctx (CtxOther t) f w = (Err ValueError, (w, []))) /\
    (forall keys all c t ic f w, resolve keys all (CfgConfig c) None (CtxOther t) (CtxGiven ic) f w = Err ValueError) /\
    (forall keys all o c t ic f w, install keys all o (CfgConfig c) None (CtxOther t) (CtxGiven ic) f w = (Err ValueError, (w, []))).
  Proof. repeat split; reflexivity. Qed.

  (** Installation resolves as resolution does, for the same arguments: its exceptions come
      out before anything is done, and its errors are reported. *)
  Theorem C117_install_resolves keys all o a db sctx ictx f w :
    (forall e, resolve keys all a db sctx ictx f w = Err e -> install keys all o a db sctx ictx f w = (Err e, (w, []))) /\
    (forall results errors, resolve keys all a db sctx ictx f w = Ok (results, errors) -> errors <> [] ->
       o_continue o = false -> install keys all o a db sctx ictx f w = (Ok (errors, []), (w, []))) /\
    (forall results errors ic, resolve keys all a db sctx ictx f w = Ok (results, errors) ->
       (let* c := ensure_config env d g a in ensure_context (context_of c w) ictx) = Ok ic ->
       install keys all o a db sctx ictx f w = Install.install run ansi ic o (Ok (results, errors)) (w, [])).
  Proof.
    assert (K : (exists c ic, ensure_config env d g a = Ok c /\ ensure_context (context_of c w) ictx = Ok ic /\
        install keys all o a db sctx ictx f w = Install.install run ansi ic o (resolve keys all a db sctx ictx f w) (w, [])) \/
      (exists e, resolve keys all a db sctx ictx f w = Err e /\ install keys all o a db sctx ictx f w = (Err e, (w, [])) /\
         (let* c := ensure_config env d g a in ensure_context (context_of c w) ictx) = Err e)).
    { unfold api_install, api_resolve. destruct (ensure_config env d g a) as [c|e]; cbn [bind];
        [|right; exists e; repeat split].
      destruct (ensure_context (context_of c w) ictx) as [ic|e] eqn:Ei; cbn [bind];
        [|right; exists e; repeat split; exact Ei].
      left. exists c, ic. split; [reflexivity|]. split; [exact Ei|]. reflexivity. }
    split; [|split].
    - intros e E. destruct K as [(c & ic & _ & _ & K)|(e' & K1 & K2 & _)]; [|congruence]. rewrite K, E. reflexivity.
    - intros results errors E Hne Ho. destruct K as [(c & ic & _ & _ & K)|(e' & K1 & K2 & _)]; [|congruence].
      rewrite K, E. destruct errors as [|x errors]; [congruence|].
      unfold Install.install, then_, lift, catch. cbn [fst snd]. rewrite Ho. reflexivity.
    - intros results errors ic E Ei. destruct K as [(c & ic' & Ec & Ei' & K)|(e' & K1 & K2 & K3)]; [|congruence].
      rewrite K, E. rewrite Ec in Ei. cbn [bind] in Ei. rewrite Ei in Ei'. injection Ei' as <-. reflexivity.
  Qed.
End Api.

(** ** The global configuration *)
(** The event leaves this as the global configuration. *)
Definition provides (e : config_event) (c : pydict) : Prop := e = SetConfig c \/ e = HandleArguments (Ok c).
Definition fails (e : config_event) : Prop := exists x, e = HandleArguments (Err x).

(** Initially the defaults; then what was last set, or last came out of handling a command
    line; a command line that can not be handled changes nothing. *)
Theorem C117_global_config d g0 l : config_from_defaults d = Ok g0 ->
  (Forall fails l -> get_config d l = Ok g0) /\
  (forall before e c after, l = before ++ e :: after -> provides e c -> Forall fails after -> get_config d l = Ok c).
Proof.
  intros E. unfold get_config. rewrite E. cbn [bind].
  assert (F : forall l g, Forall fails l -> fold_left config_step l g = g).
  { induction l0 as [|e l0 IH]; intros g H; [reflexivity|]. inversion H as [|? ? [x ->] H']; subst. cbn [fold_left config_step]. apply IH, H'. }
  split.
  - intros H. rewrite F by exact H. reflexivity.
  - intros before e c after -> Hp Ha. rewrite fold_left_app. cbn [fold_left]. rewrite F by exact Ha.
    destruct Hp as [-> | ->]; reflexivity.
Qed.

(** ** Non-vacuity *)
Definition api_env : penv := {| home := fun _ => None; cwd := u "/c" |}.

Example C117_nonvacuous :
  (exists c sc, (let* d := build_config_description in ensure_config_dict api_env d [(KStr (u "cache_dir"), VStr (u "/tmp/x"))]) = Ok c /\
     make_sources_context (bundled_spec_eps (fun _ => false) (fun _ => Err ValueError)) [] c = Ok sc /\
     sc_cache sc = u "/tmp/x/sources" /\ sc_dir sc = u "/etc/xylem/sources.d" /\ map sp_name (sc_specs sc) = [u "rules"]) /\
  (let* d := build_config_description in ensure_config_dict api_env d [(KStr (u "user_sources"), VList [])]) = Err ConfigValueError /\
  (exists d g0, build_config_description = Ok d /\ config_from_defaults d = Ok g0 /\
     Forall fails [HandleArguments (Err (SystemExit 2))]).
Proof.
  split; [|split].
  - eexists _, _. split; [vm_compute; reflexivity|]. split; [vm_compute; reflexivity|]. vm_compute. repeat split.
  - vm_compute; reflexivity.
  - eexists _, _. split; [vm_compute; reflexivity|]. split; [vm_compute; reflexivity|]. constructor; [eexists; reflexivity|constructor].
Qed.

(** On a ubuntu machine both contexts can be made from the default configuration, as the
    theorem about contexts assumes. *)
Example C117_contexts_nonvacuous (uni : N -> bool) (root : bool) (program_installed : text -> act machine bool) (freeze : act machine text)
    (exists_ isdir : text -> machine -> bool) (makedirs : text -> act machine unit) :
  exists c sc ic, load_dict api_env [] = Ok c /\
    make_sources_context (bundled_spec_eps uni (fun _ => Err ValueError)) [] c = Ok sc /\
    make_context api_env c (bundled_os_eps uni (fun m => m))
      (bundled_inst_eps uni (bundled_installers api_env root program_installed freeze exists_ isdir makedirs)) ubuntu_machine = Ok ic.
Proof.
  destruct (default_config_plain api_env) as (c & Ec & Hc).
  destruct (C76_default_context uni api_env root program_installed freeze exists_ isdir makedirs (fun m => m) c ubuntu_machine
              ubuntu (u "trusty") Hc) as (ic & Ei & _); [apply runs_ubuntu with (u "14.04"); reflexivity|].
  assert (Es : exists sc, make_sources_context (bundled_spec_eps uni (fun _ => Err ValueError)) [] c = Ok sc).
  { assert (P : exists p, setup_paths c = Ok p).
    { assert (c = match load_dict api_env [] with Ok c => c | _ => [] end) as -> by (rewrite Ec; reflexivity).
      eexists; vm_compute; reflexivity. }
    destruct P as (p & P). unfold make_sources_context. rewrite P. cbn [bind].
    destruct Hc as (_ & _ & _ & _ & _ & Hd). unfold attr2, attr. rewrite Hd. eexists; reflexivity. }
  destruct Es as (sc & Es). exists c, sc, ic. auto.
Qed.

(** The hypotheses of the theorems about lookups and databases: one source, listed in a file of
    the sources directory and downloaded by an update. *)
Example C117_database_nonvacuous :
  let sc := {| sc_dir := u "/s"; sc_cache := u "/c"; sc_specs := [x_spec] |} in
  let l := [x_source "http://a"; x_source "http://b"] in
  make_database x_yaml x_sha1 (fun _ => x_dir) [] sc = Ok l /\
  exists f l',
    snd (fst (db_update x_sha1 Codec.enc VNone x_envs false (u "/c") l y_fs)) = f /\
    db_load_from_cache x_sha1 Codec.dec_all true (sc_cache sc) l f = (l', f, Ok tt) /\
    db_lookup x_uni l' (u "boost") {| ic_os := u "ubuntu"; ic_version := u "xenial"; ic_default := Some (u "apt") |} =
      Ok [(KStr (u "pip"), VDict [(KStr (u "packages"), VList [VStr (u "boost")])]);
          (KStr (u "apt"), VDict [(KStr (u "packages"), VList [VStr (u "libboost")])])].
Proof.
  cbv zeta. pose proof C80_nonvacuous as N. cbv zeta in N.
  destruct N as (_ & N2 & _ & _ & _ & l1 & f1 & l2 & E1 & E2 & E3).
  split; [exact N2|]. exists f1, l2. rewrite E1. auto.
Qed.

Print Assumptions C117_none_is_global.
Print Assumptions C117_contexts_from_config.
Print Assumptions C117_given_sources.
Print Assumptions C117_other_contexts.
Print Assumptions C117_given_contexts.
Print Assumptions C117_given_database.
Print Assumptions C117_lookup_answers.
Print Assumptions C117_resolve_database.
Print Assumptions C117_plain_dict_partial.
Print Assumptions C117_plain_dict_refuted.
Print Assumptions C117_invalid_arguments.
Print Assumptions C117_install_resolves.
Print Assumptions C117_global_config.
