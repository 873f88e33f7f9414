(** C116: disabled plugins. *)
From Verif Require Import Base Dict PyVal RulesDict Verify Sources Plugins PropPlugins Config XylemConfig PropConfig CacheProofs
  OsSupport PropOs Installer Installers Paths Directories Context PropContext Commands Api PropDirectories.

(** ** Specification *)
(** The configuration lists these names as disabled plugins of a kind. *)
Definition disables (c : pydict) (kind : text) (names : list text) : Prop :=
  exists d, get (KStr (u "disabled_plugins")) c = Some (VDict d) /\
    get (KStr kind) d = Some (VList (map VStr names)).

(** The name that an entry point declares for its plugin. *)
Definition declared {P} (ep : res (definition P)) : option text :=
  match ep with Ok (DDict (Some (VStr n)) _ _) => Some n | _ => None end.

(** The entry points that declare none of these names. *)
Definition without {P} (names : list text) (eps : list (res (definition P))) : list (res (definition P)) :=
  filter (fun ep => match declared ep with Some n => negb (mem n names) | None => true end) eps.

(** The two configurations agree but for the lists of disabled plugins. *)
Definition same_otherwise (c c0 : pydict) : Prop :=
  forall k : pkey, k <> KStr (u "disabled_plugins") -> get k c = get k c0.

(** ** Proofs *)
Lemma load_without {P} (name_of : P -> res pkey) eps names :
  load_plugins name_of eps names = load_plugins name_of (without names eps) [].
Proof.
  unfold load_plugins. f_equal. generalize (@nil P, @nil pkey) as st.
  induction eps as [|ep eps IH]; intros st; [reflexivity|].
  cbn [foldM without filter].
  assert (S1 : match declared ep with Some n => mem n names = false | None => True end ->
    load_step name_of names st ep = load_step name_of [] st ep).
  { intros Hm. unfold load_step. destruct st as [pl ns]. destruct ep as [[n d c|e]|e]; [|destruct e; reflexivity|reflexivity].
    cbn [bind]. destruct (verify_plugin_definition (DDict n d c)) as [[m k]|e] eqn:E; [|reflexivity].
    assert (declared (Ok (DDict n d c)) = Some m) as D.
    { unfold verify_plugin_definition, check_definition in E.
      destruct n as [[]|]; cbn [item_of verify_plugin_text bind] in E; try discriminate E.
      destruct d as [[]|]; cbn [item_of verify_plugin_text bind] in E; try discriminate E.
      destruct c as [[|cl]|]; cbn [item_of verify_plugin_class bind] in E; try discriminate E.
      destruct (pc_derived cl); cbn [bind] in E; [|discriminate E]. injection E as -> _. reflexivity. }
    rewrite D in Hm. rewrite Hm. reflexivity. }
  destruct (declared ep) as [n|] eqn:D.
  - destruct (mem n names) eqn:Hm; cbn [negb].
    + assert (E : load_step name_of names st ep = Ok st).
      { destruct ep as [[[[]|] d c|e]|e]; try discriminate D. injection D as ->.
        apply rejected_step. apply rej_disabled, mem_In, Hm. }
      rewrite E. cbn [bind]. apply IH.
    + rewrite S1 by reflexivity. cbn [foldM]. destruct (load_step name_of [] st ep) as [st'|e]; [|reflexivity]. apply IH.
  - rewrite S1 by exact I. cbn [foldM]. destruct (load_step name_of [] st ep) as [st'|e]; [|reflexivity]. apply IH.
Qed.

Lemma disables_texts c kind names : disables c kind names ->
  (let* v := attr2 c (u "disabled_plugins") kind in texts_of v) = Ok names.
Proof.
  intros (d & E1 & E2). unfold attr2, attr. rewrite E1. cbn [bind]. rewrite E2. cbn [bind texts_of]. f_equal.
  clear E2. induction names as [|n l IH]; [reflexivity|]. cbn. f_equal. exact IH.
Qed.

(** ** Disabling is the same as not having installed it *)
Section General.
  Context {W R : Type}.
  Variable env : penv.

  Lemma setup_os_same c c0 (l : list (os_plugin W)) w : same_otherwise c c0 -> setup_os env c l w = setup_os env c0 l w.
  Proof. intros H. unfold setup_os, attr. rewrite !(H (KStr _)) by discriminate. reflexivity. Qed.

  Lemma setup_installers_same c c0 x oo (l : list (inst_plugin W R)) w : same_otherwise c c0 ->
    setup_installers c x oo l w = setup_installers c0 x oo l w.
  Proof.
    intros H. unfold setup_installers, configure_installers, core_names, attr.
    rewrite !(H (KStr _)) by discriminate. reflexivity.
  Qed.

  (** Whatever plugins there are and whatever the rest of the configuration is: with disabled
      plugins the outcome is that of a system on which these plugins are not installed. *)
  Theorem C116_as_if_not_installed c c0 dos di (os_eps : list (res (definition (os_plugin W))))
      (inst_eps : list (res (definition (inst_plugin W R)))) w :
    same_otherwise c c0 ->
    disables c (u "os") dos -> disables c (u "installer") di ->
    disables c0 (u "os") [] -> disables c0 (u "installer") [] ->
    make_context env c os_eps inst_eps w = make_context env c0 (without dos os_eps) (without di inst_eps) w.
  Proof.
    intros H D1 D2 D3 D4. apply disables_texts in D1, D2, D3, D4. unfold make_context.
    assert (B : forall A B C (r : res A) (g : A -> res B) (h : B -> res C) b, (let* v := r in g v) = Ok b ->
      (let* v := r in let* t := g v in h t) = h b).
    { intros A B C r g h b E. destruct r; cbn [bind] in *; [rewrite E; reflexivity|discriminate E]. }
    rewrite (B _ _ _ _ _ _ _ D1), (B _ _ _ _ _ _ _ D3).
    rewrite (load_without _ os_eps dos).
    destruct (load_plugins _ (without dos os_eps) []) as [oses|e]; [|reflexivity]. cbn [bind].
    rewrite (setup_os_same c c0 oses w H). destruct (setup_os env c0 oses w) as [[x oo]|e]; [|reflexivity]. cbn [bind fst snd].
    rewrite (B _ _ _ _ _ _ _ D2), (B _ _ _ _ _ _ _ D4).
    rewrite (load_without _ inst_eps di).
    destruct (load_plugins _ (without di inst_eps) []) as [l|e]; [|reflexivity]. cbn [bind].
    apply setup_installers_same, H.
  Qed.
End General.

(** The os in use is one of the loaded ones. *)
Lemma detect_member {W} w (l : list (os_plugin W)) r o : detect_loop r l w = Ok (Some o) -> r = Some o \/ In o l.
Proof.
  revert r. induction l as [|p l IH]; intros r E; cbn [detect_loop] in E.
  - left. congruence.
  - apply bind_Ok in E as (b & _ & E). destruct b.
    + destruct r as [r|].
      * destruct (mem (os_name p) (os_all_names r)).
        { apply IH in E as [E|E]; [left; exact E|right; right; exact E]. }
        destruct (mem (os_name r) (os_all_names p)); apply IH in E as [E|E];
          try (right; right; exact E); [right; left; congruence|left; exact E].
      * apply IH in E as [E|E]; [right; left; congruence|right; right; exact E].
    + apply IH in E as [E|E]; [left; exact E|right; right; exact E].
Qed.

Lemma setup_os_member {W} env c (l : list (os_plugin W)) w x o : setup_os env c l w = Ok (x, o) -> In (delegate x) l.
Proof.
  intros E. unfold setup_os in E. apply bind_Ok in E as (ov & _ & E). apply bind_Ok in E as (x' & Ex & E).
  apply bind_Ok in E as (oo & _ & E). apply bind_Ok in E as (o' & _ & E). injection E as -> _.
  assert (O : forall n v,
      (let (r, s) := override_os {| s_plugins := l; s_os := None |} (Some (n, v)) w in
         let* _ := r in let* x := fst (current_os s w) in let* _ := obj_tuple x w in Ok x) = Ok x -> In (delegate x) l).
  { intros n v. unfold override_os. cbn [s_plugins]. destruct (lookup_os l n) as [p|] eqn:El; [|discriminate].
    apply find_some in El as [Hp _]. unfold make_override. destruct v as [v|].
    - destruct (mem v (os_known p)); [|discriminate]. cbn. intros E'. injection E' as <-. exact Hp.
    - destruct (os_version p w) as [v|e]; cbn [bind]; [|discriminate]. cbn. intros E'. injection E' as <-. exact Hp. }
  assert (D : (let (r, s) := detect_os {| s_plugins := l; s_os := None |} w in
        let* _ := r in let* x := fst (current_os s w) in let* _ := obj_tuple x w in Ok x) = Ok x -> In (delegate x) l).
  { unfold detect_os. cbn [s_plugins]. destruct (detect_loop None l w) as [[p|]|e] eqn:Ed; [|discriminate|discriminate].
    cbn [bind with_os s_os current_os fst]. intros E'. apply bind_Ok in E' as (t & _ & E'). injection E' as <-.
    apply detect_member in Ed as [Ed|Ed]; [discriminate Ed|exact Ed]. }
  destruct ov; try (apply bind_Ok in Ex as ([n v] & _ & Ex); exact (O _ _ Ex)). exact (D Ex).
Qed.

Lemma map_filter_fst {A B} (P : A -> bool) (l : list (A * B)) :
  map fst (filter (fun p => P (fst p)) l) = filter P (map fst l).
Proof. induction l as [|[a b] l IH]; [reflexivity|]. cbn [filter map fst]. destruct (P a); cbn [map fst]; rewrite IH; reflexivity. Qed.

Lemma filter_comm {A} (P Q : A -> bool) l : filter P (filter Q l) = filter Q (filter P l).
Proof.
  induction l as [|a l IH]; [reflexivity|]. cbn [filter].
  destruct (Q a) eqn:EQ, (P a) eqn:EP; cbn [filter]; rewrite ?EP, ?EQ, IH; reflexivity.
Qed.

(** ** The bundled plugins *)
Section Bundled.
  Context {W : Type}.
  Variable uni : N -> bool.
  Variable env : penv.
  Variable root : bool.
  Variable program_installed : text -> act W bool.
  Variable freeze : act W text.
  Variables exists_ isdir : text -> W -> bool.
  Variable makedirs : text -> act W unit.
  Variable f : W -> machine.
  Notation plugins := (bundled_installers env root program_installed freeze exists_ isdir makedirs).
  Notation context c w := (make_context env c (bundled_os_eps uni f) (bundled_inst_eps uni plugins) w).
  Notation oses := (@bundled_oses W f).

  Lemma load_oses dos :
    load_plugins (fun o => Ok (KStr (os_name o))) (bundled_os_eps uni f) dos =
    Ok (filter (fun o => negb (mem (os_name o) dos)) oses).
  Proof.
    change (bundled_os_eps uni f) with
      (map (fun p => entry_point uni (fun p => Ok (KStr (os_name p))) (os_name p) p) oses).
    apply (load_enabled uni (@os_name W) oses dos).
    - intros p [<-|[<-|[<-|[<-|[]]]]]; reflexivity.
    - change (NoDup [u "debian"; u "ubuntu"; u "xubuntu"; u "osx"]).
      repeat (constructor; [cbn [In]; intros D; repeat destruct D as [D|D]; try discriminate D; exact D|]). constructor.
  Qed.

  Lemma load_installers di :
    load_plugins (fun o => Ok (KStr (ip_name o))) (bundled_inst_eps uni plugins) di =
    Ok (filter (fun p => negb (mem (ip_name p) di)) plugins).
  Proof.
    apply (load_enabled uni (@ip_name W pydict) plugins di).
    - intros p [<-|[<-|[<-|[<-|[<-|[]]]]]]; reflexivity.
    - change (NoDup [u "fake"; u "apt"; u "homebrew"; u "macports"; u "pip"]).
      repeat (constructor; [cbn [In]; intros D; repeat destruct D as [D|D]; try discriminate D; exact D|]). constructor.
  Qed.

  Lemma context_split c w dos di : disables c (u "os") dos -> disables c (u "installer") di ->
    context c w =
    let* xo := setup_os env c (filter (fun o => negb (mem (os_name o) dos)) oses) w in
    setup_installers c (fst xo) (snd xo) (filter (fun p => negb (mem (ip_name p) di)) plugins) w.
  Proof.
    intros D1 D2. apply disables_texts in D1, D2. unfold make_context.
    assert (B : forall A B C (r : res A) (g : A -> res B) (h : B -> res C) b, (let* v := r in g v) = Ok b ->
      (let* v := r in let* t := g v in h t) = h b).
    { intros A B C r g h b E. destruct r; cbn [bind] in *; [rewrite E; reflexivity|discriminate E]. }
    rewrite (B _ _ _ _ _ _ _ D1), load_oses. cbn [bind].
    destruct (setup_os env c _ w) as [[x oo]|e]; [|reflexivity]. cbn [bind fst snd].
    rewrite (B _ _ _ _ _ _ _ D2), load_installers. reflexivity.
  Qed.

  (** The loaded installers are those bundled that are not disabled, with their options. *)
  Theorem C116_installers c w dos di options ctx : disables c (u "os") dos -> disables c (u "installer") di ->
    get (KStr (u "installer_options")) c = Some (VDict options) ->
    context c w = Ok ctx ->
    Forall2 (fun p i => ip_set_options p (match get (KStr (ip_name p)) options with Some v => v | None => VDict [] end) = Ok i)
      (filter (fun p => negb (mem (ip_name p) di)) plugins) (cx_plugins ctx).
  Proof.
    intros D1 D2 Ho E. rewrite (context_split c w dos di D1 D2) in E.
    apply bind_Ok in E as ([x oo] & _ & E). cbn [fst snd] in E.
    destruct (C41_all_loaded _ _ _ _ _ _ E) as (_ & options' & Ho' & H). rewrite Ho in Ho'. injection Ho' as <-.
    exact (H options eq_refl).
  Qed.

  (** So an installer of a disabled name is not available, core or additional (unless the fake
      installer is given that name), and can not be looked up. *)
  Theorem C116_installer_gone c w dos di options ctx n : disables c (u "os") dos -> disables c (u "installer") di ->
    get (KStr (u "installer_options")) c = Some (VDict options) -> get (KStr (u "fake")) options = None ->
    context c w = Ok ctx -> In n di ->
    lookup_installer ctx n = None /\ ~ In n (map in_name (cx_core ctx)) /\ ~ In n (map in_name (cx_additional ctx)).
  Proof.
    intros D1 D2 Ho Hf E Hn. pose proof (C116_installers c w dos di options ctx D1 D2 Ho E) as F.
    assert (G : forall i, In i (cx_plugins ctx) -> in_name i <> n).
    { intros i Hi Hin. destruct (Forall2_In_r _ _ _ _ F Hi) as (p & Hp & Es).
      apply filter_In in Hp as [Hp Hm]. apply negb_true_iff in Hm. apply mem_not_In in Hm. apply Hm.
      assert (En : in_name i = ip_name p); [|rewrite <- En, Hin; exact Hn].
      destruct Hp as [<-|Hp].
      - cbn [ip_name fake_plugin] in Es. rewrite Hf in Es. rewrite default_fake in Es. injection Es as <-. reflexivity.
      - clear Hm. destruct Hp as [<-|[<-|[<-|[<-|[]]]]]; cbn [fixed_plugin ip_set_options ip_name] in Es |- *;
          apply bind_Ok in Es as (o & _ & Es); apply bind_Ok in Es as (r & _ & Es); injection Es as <-; reflexivity. }
    rewrite (context_split c w dos di D1 D2) in E. apply bind_Ok in E as ([x oo] & _ & E). cbn [fst snd] in E.
    destruct (C41_all_loaded _ _ _ _ _ _ E) as (H & _). rewrite Forall_forall in H.
    split.
    - destruct (C41_lookup_finds ctx n) as [(i & _ & Hi & Hin)|[L _]]; [|exact L]. destruct (G i Hi Hin).
    - split; intros Hi; apply in_map_iff in Hi as (i & Hin & Hi); apply (G i); [|exact Hin| |exact Hin];
        apply H, in_app_iff; [left|right]; exact Hi.
  Qed.

  (** The system is never one that is disabled, whether detected or asked for. *)
  Theorem C116_os_gone c w dos di ctx : disables c (u "os") dos -> disables c (u "installer") di ->
    context c w = Ok ctx -> ~ In (ic_os (cx_ic ctx)) dos.
  Proof.
    intros D1 D2 E. rewrite (context_split c w dos di D1 D2) in E. apply bind_Ok in E as ([x oo] & Ex & E). cbn [fst snd] in E.
    destruct (C41_os _ _ _ _ _ _ E) as (os & v & Et & -> & _).
    pose proof (setup_os_member env c _ w x oo Ex) as Hd. apply filter_In in Hd as [_ Hd]. apply negb_true_iff in Hd.
    apply mem_not_In in Hd. unfold obj_tuple in Et. apply bind_Ok in Et as (v' & _ & Et).
    injection Et as <- _. exact Hd.
  Qed.

  (** A machine on which only disabled systems are detected is not supported. *)
  Theorem C116_only_disabled c w dos di : disables c (u "os") dos -> disables c (u "installer") di ->
    get (KStr (u "os_override")) c = Some VNone ->
    (forall o, In o oses -> os_is o w = Ok true -> In (os_name o) dos) ->
    context c w = Err UnsupportedOSError.
  Proof.
    intros D1 D2 Ho H. rewrite (context_split c w dos di D1 D2). unfold setup_os, attr. rewrite Ho. cbn [bind].
    unfold detect_os. cbn [s_plugins].
    assert (E : detect_loop None (filter (fun o => negb (mem (os_name o) dos)) oses) w = Ok None).
    { assert (G : forall l, (forall o, In o l -> os_is o w = Ok false) -> detect_loop None l w = Ok None).
      { induction l as [|o l IH]; intros Hl; [reflexivity|]. cbn [detect_loop].
        rewrite (Hl o (or_introl eq_refl)). cbn [bind]. apply IH. intros o' Ho'. apply Hl. right; exact Ho'. }
      apply G. intros o Hin. apply filter_In in Hin as [Hin Hm]. apply negb_true_iff in Hm. apply mem_not_In in Hm.
      destruct (is_outcome f o w Hin) as ([|] & Eb); [|exact Eb]. destruct (Hm (H o Hin Eb)). }
    rewrite E. reflexivity.
  Qed.

  (** Nor can a disabled system be asked for. *)
  Theorem C116_override_disabled c w dos di n v : disables c (u "os") dos -> disables c (u "installer") di ->
    get (KStr (u "os_override")) c = Some (VList [VStr n; v]) -> (v = VNone \/ exists s, v = VStr s) -> In n dos ->
    context c w = Err UnsupportedOSError.
  Proof.
    intros D1 D2 Ho Hv Hn. rewrite (context_split c w dos di D1 D2). unfold setup_os, attr. rewrite Ho. cbn [bind].
    assert (E : forall v', override_os {| s_plugins := filter (fun o => negb (mem (os_name o) dos)) oses; s_os := None |}
                  (Some (n, v')) w =
                (Err UnsupportedOSError, {| s_plugins := filter (fun o => negb (mem (os_name o) dos)) oses; s_os := None |})).
    { intros v'. apply C43_unknown_os. cbn [s_plugins]. intros Hin. apply in_map_iff in Hin as (o & En & Hin).
      apply filter_In in Hin as [_ Hm]. apply negb_true_iff in Hm. apply mem_not_In in Hm. congruence. }
    destruct Hv as [->|(s & ->)]; cbn [override_tuple bind]; rewrite E; reflexivity.
  Qed.

  (** The default configuration but for disabled installers, on a supported machine: those
      of C76 without the disabled ones. *)
  Theorem C116_default_context c w b v di :
    get (KStr (u "os_override")) c = Some VNone ->
    get (KStr (u "os_options")) c = Some (VDict [(KStr (u "features"), VNone)]) ->
    get (KStr (u "core_installers")) c = Some VNone ->
    get (KStr (u "use_additional_installers")) c = Some (VBool true) ->
    get (KStr (u "installer_options")) c = Some (VDict []) ->
    disables c (u "os") [] -> disables c (u "installer") di ->
    runs (f w) b v ->
    exists ctx, context c w = Ok ctx /\ Some (ic_os (cx_ic ctx)) = os_names b /\ ic_version (cx_ic ctx) = v /\
      map in_name (cx_plugins ctx) = filter (fun n => negb (mem n di)) [u "fake"; u "apt"; u "homebrew"; u "macports"; u "pip"] /\
      map in_name (cx_core ctx) = filter (fun n => negb (mem n di))
        (if eqb (ic_os (cx_ic ctx)) (u "osx") then [u "homebrew"; u "pip"] else [u "apt"]) /\
      map in_name (cx_additional ctx) = filter (fun n => negb (mem n di))
        (if eqb (ic_os (cx_ic ctx)) (u "osx") then [] else [u "pip"]).
  Proof.
    intros C1 C2 C3 C4 C5 D1 D2 Hr. destruct (runs_detected f w b v Hr) as (o & Ho & Hd & Ht).
    rewrite (context_split c w [] di D1 D2).
    change (filter (fun o => negb (mem (os_name o) [])) oses) with oses.
    assert (Es : setup_os env c oses w = Ok (Plugin (at_machine f o), [(KStr (u "features"), VList [])])).
    { unfold setup_os, attr. rewrite C1. cbn [bind]. unfold detect_os. cbn [s_plugins]. rewrite Hd.
      cbn [bind with_os s_os current_os fst s_plugins]. rewrite Ht. cbn [bind]. rewrite C2. cbn [bind delegate].
      assert (Eo : os_options_description (at_machine f o) = os_options_base).
      { unfold plugin_of in Ho. destruct (map fst (b_names b)); [discriminate|]. injection Ho as <-. reflexivity. }
      rewrite Eo, options_os. reflexivity. }
    rewrite Es. cbn [bind fst snd].
    assert (Ei : exists insts, configure_installers c (filter (fun p => negb (mem (ip_name p) di)) plugins) = Ok insts /\
      map (fun i => (in_name i, in_additional i)) insts =
      filter (fun p => negb (mem (fst p) di))
        [(u "fake", false); (u "apt", false); (u "homebrew", false); (u "macports", false); (u "pip", true)]).
    { unfold configure_installers, attr. rewrite C5. cbn [bind].
      assert (G : forall ps l, Forall2 (fun p q => exists i, ip_set_options p (VDict []) = Ok i /\
          in_name i = ip_name p /\ q = (ip_name p, in_additional i)) ps l ->
        exists insts, mapM (fun p => ip_set_options p
             match get (KStr (ip_name p)) [] with Some v => v | None => VDict [] end)
             (filter (fun p => negb (mem (ip_name p) di)) ps) = Ok insts /\
          map (fun i : installer W pydict => (in_name i, in_additional i)) insts = filter (fun p => negb (mem (fst p) di)) l).
      { induction 1 as [|p q ps l (i & E1 & E2 & ->) F (is & E3 & E4)]; [exists []; split; reflexivity|].
        cbn [filter fst]. destruct (negb (mem (ip_name p) di)); [|eauto].
        cbn [mapM]. rewrite get_nil, E1. cbn [bind]. rewrite E3. exists (i :: is). split; [reflexivity|].
        cbn [map]. rewrite E2, E4. reflexivity. }
      apply G. repeat constructor.
      - rewrite default_fake. eexists; split; [reflexivity|]. split; reflexivity.
      - cbn [fixed_plugin ip_set_options]. rewrite options_true. eexists; split; [reflexivity|]. split; reflexivity.
      - cbn [fixed_plugin ip_set_options]. rewrite options_false. eexists; split; [reflexivity|]. split; reflexivity.
      - cbn [fixed_plugin ip_set_options]. rewrite options_true. eexists; split; [reflexivity|]. split; reflexivity.
      - cbn [fixed_plugin ip_set_options]. rewrite options_true. eexists; split; [reflexivity|]. split; reflexivity. }
    destruct Ei as (insts & Ei & En).
    assert (Hctx : exists ctx, setup_installers c (Plugin (at_machine f o)) [(KStr (u "features"), VList [])]
        (filter (fun p => negb (mem (ip_name p) di)) plugins) w = Ok ctx /\ cx_plugins ctx = insts).
    { unfold setup_installers. rewrite Ht. cbn [bind]. rewrite Ei. cbn [bind]. unfold core_names, attr.
      rewrite C3. cbn [bind delegate]. rewrite C4. cbn [bind]. eexists; split; [reflexivity|reflexivity]. }
    destruct Hctx as (ctx & E & Ep). exists ctx. split; [exact E|].
    destruct (C41_os _ _ _ _ _ _ E) as (os & ver & Et & Eos & Ever & _). rewrite Ht in Et. injection Et as <- <-.
    assert (Hv : obj_version (Plugin (at_machine f o)) w = Ok v).
    { unfold obj_tuple in Ht. apply bind_Ok in Ht as (v' & Hv & Ht). congruence. }
    pose proof (C41_os_core _ _ _ _ _ _ E v C3 Hv) as Ec. rewrite Ep in Ec.
    assert (Nm : map in_name insts = filter (fun n => negb (mem n di)) [u "fake"; u "apt"; u "homebrew"; u "macports"; u "pip"]).
    { transitivity (map fst (map (fun i => (in_name i, in_additional i)) insts)); [rewrite map_map; reflexivity|].
      rewrite En. apply (map_filter_fst (fun n => negb (mem n di))). }
    assert (ND : NoDup (map in_name (cx_plugins ctx))).
    { rewrite Ep, Nm. apply NoDup_filter. apply (proj1 (CacheProofs.distinct_NoDup _)). vm_compute; reflexivity. }
    pose proof (C41_additional_enabled _ _ _ _ _ _ E C4 ND) as Ea. rewrite Ep in Ea.
    assert (Ea' : map in_name (cx_additional ctx) =
      map fst (filter (fun p => snd p && negb (mem (fst p) (map in_name (cx_core ctx))))
        (map (fun i => (in_name i, in_additional i)) insts))).
    { rewrite Ea. clear. generalize (map in_name (cx_core ctx)) as cs. intros cs.
      induction insts as [|i l IH]; [reflexivity|]. cbn [filter map fst snd].
      destruct (in_additional i && negb (mem (in_name i) cs)); cbn [map fst]; rewrite IH; reflexivity. }
    rewrite En, filter_comm in Ea'.
    assert (Hm : forall n l, In n l -> mem n (filter (fun n => negb (mem n di)) l) = negb (mem n di)).
    { intros n l Hn. destruct (negb (mem n di)) eqn:Em.
      - apply mem_In, filter_In. auto.
      - apply mem_not_In. intros X. apply filter_In in X as [_ X]. congruence. }
    assert (K : (os_core (at_machine f o) v [(KStr (u "features"), VList [])] = [u "apt"] /\
                 eqb (obj_name (Plugin (at_machine f o))) (u "osx") = false) \/
                (os_core (at_machine f o) v [(KStr (u "features"), VList [])] = [u "homebrew"; u "pip"; u "gem"] /\
                 eqb (obj_name (Plugin (at_machine f o))) (u "osx") = true)).
    { destruct Hr; injection Ho as <-; [left|left|left|right]; split; reflexivity. }
    assert (Ec' : map in_name (cx_core ctx) = filter (fun n => negb (mem n di))
        (if eqb (obj_name (Plugin (at_machine f o))) (u "osx") then [u "homebrew"; u "pip"] else [u "apt"])).
    { rewrite Ec, Nm. cbn [delegate]. destruct K as [[-> ->]|[-> ->]].
      - apply filter_ext_in. intros n Hn. apply Hm. destruct Hn as [<-|[]]. unfold In; tauto.
      - change [u "homebrew"; u "pip"; u "gem"] with ([u "homebrew"; u "pip"] ++ [u "gem"]). rewrite filter_app.
        assert (Eg : forall l, ~ In (u "gem") l -> filter (fun n => mem n l) [u "gem"] = []).
        { intros l Hl. cbn [filter]. apply mem_not_In in Hl. rewrite Hl. reflexivity. }
        rewrite Eg, app_nil_r.
        + apply filter_ext_in. intros n Hn. apply Hm. destruct Hn as [<-|[<-|[]]]; unfold In; tauto.
        + intros X. apply filter_In in X as [X _]. repeat (destruct X as [X|X]; [discriminate X|]). exact X. }
    split; [rewrite Eos; destruct Hr; injection Ho as <-; reflexivity|]. split; [exact Ever|].
    split; [rewrite Ep; exact Nm|]. change (ic_os (cx_ic ctx) = obj_name (Plugin (at_machine f o))) in Eos. rewrite Eos.
    rewrite Ec' in Ea' |- *. clear - Ea' K. destruct K as [[_ K]|[_ K]]; rewrite K in Ea' |- *; clear K.
    - split; [reflexivity|]. rewrite Ea'. cbn [filter].
      destruct (negb (mem (u "apt") di)); cbn [filter snd fst andb];
        match goal with |- context [mem (u "pip") ?l] => change (mem (u "pip") l) with false end;
        cbn [negb filter fst]; destruct (mem (u "pip") di); reflexivity.
    - split; [reflexivity|]. rewrite Ea'. cbn [filter].
      destruct (mem (u "pip") di) eqn:Ed; cbn [negb];
      destruct (negb (mem (u "homebrew") di)); cbn [filter snd fst andb];
        match goal with |- context [mem (u "pip") (?a :: ?l)] => (change (mem (u "pip") (a :: l)) with false || change (mem (u "pip") (a :: l)) with true)
                      | |- context [mem (u "pip") []] => change (mem (u "pip") []) with false end;
        cbn [negb filter fst map]; rewrite ?Ed; reflexivity.
  Qed.
End Bundled.

(** ** Spec plugins *)
(** Disabled spec plugins: as if not installed. *)
Theorem C116_specs_as_if_not_installed c c0 names eps :
  same_otherwise c c0 -> disables c (u "spec") names -> disables c0 (u "spec") [] ->
  make_sources_context eps [] c = make_sources_context (without names eps) [] c0.
Proof.
  intros H D1 D2. apply disables_texts in D1, D2. unfold make_sources_context.
  assert (Ep : setup_paths c = setup_paths c0).
  { unfold setup_paths, attr. rewrite !(H (KStr _)) by discriminate. reflexivity. }
  rewrite Ep. destruct (setup_paths c0) as [p|e]; [|reflexivity]. cbn [bind].
  assert (B : forall A B C (r : res A) (g : A -> res B) (h : B -> res C) b, (let* v := r in g v) = Ok b ->
    (let* v := r in let* t := g v in h t) = h b).
  { intros A B C r g h b E. destruct r; cbn [bind] in *; [rewrite E; reflexivity|discriminate E]. }
  rewrite (B _ _ _ _ _ _ _ D1), (B _ _ _ _ _ _ _ D2), (load_without _ eps names). reflexivity.
Qed.

(** With the bundled plugins: no source of type rules can be used once that is disabled; otherwise
    the plugin is there. *)
Theorem C116_rules_spec uni yaml c names sc : disables c (u "spec") names ->
  make_sources_context (bundled_spec_eps uni yaml) [] c = Ok sc ->
  (In (u "rules") names ->
     sc_specs sc = [] /\ (forall n, get_spec (sc_specs sc) n = Err UnknownSpecError) /\
     forall sha1 st defaults, (exists l, init_from_sources yaml sha1 (sc_specs sc) (sc_dir sc) st defaults = Ok l) ->
       init_from_sources yaml sha1 (sc_specs sc) (sc_dir sc) st defaults = Ok []) /\
  (~ In (u "rules") names ->
     sc_specs sc = [rules_spec uni yaml] /\ get_spec (sc_specs sc) (u "rules") = Ok (rules_spec uni yaml) /\
     forall n, n <> u "rules" -> get_spec (sc_specs sc) n = Err UnknownSpecError).
Proof.
  intros D E. pose proof (disables_texts c _ names D) as D'. unfold make_sources_context in E.
  apply bind_Ok in E as (p & _ & E). apply bind_Ok in E as (specs & Es & E). injection E as <-. cbn [sc_specs sc_dir].
  assert (B : forall A B C (r : res A) (g : A -> res B) (h : B -> res C) b, (let* v := r in g v) = Ok b ->
    (let* v := r in let* t := g v in h t) = h b).
  { intros A B C r g h b E. destruct r; cbn [bind] in *; [rewrite E; reflexivity|discriminate E]. }
  rewrite (B _ _ _ _ _ _ _ D') in Es.
  change (bundled_spec_eps uni yaml) with
    (map (fun p => entry_point uni (fun p => Ok (KStr (sp_name p))) (sp_name p) p) [rules_spec uni yaml]) in Es.
  rewrite (load_enabled uni sp_name [rules_spec uni yaml] names) in Es;
    [|intros q [<-|[]]; reflexivity|repeat constructor; intros []].
  change (filter (fun q => negb (mem (sp_name q) names)) [rules_spec uni yaml]) with
    (if negb (mem (u "rules") names) then [rules_spec uni yaml] else []) in Es.
  assert (X : specs = if negb (mem (u "rules") names) then [rules_spec uni yaml] else []) by congruence.
  clear Es. subst specs.
  split; intros Hn.
  - apply mem_In in Hn. rewrite Hn. cbn [negb]. split; [reflexivity|]. split; [reflexivity|].
    intros sha1 st defaults (l & El). rewrite El. f_equal. unfold init_from_sources in El.
    apply bind_Ok in El as (g & _ & El). apply bind_Ok in El as (ll & El1 & El). apply bind_Ok in El as ([] & _ & El).
    injection El as <-. apply mapM_Ok in El1.
    assert (F : forall x, In x ll -> x = []).
    { intros x Hx. destruct (Forall2_In_r _ _ _ _ El1 Hx) as (file & _ & Ef). unfold init_file in Ef.
      apply bind_Ok in Ef as (data & _ & Ef). apply bind_Ok in Ef as (dd & _ & Ef). apply mapM_Ok in Ef.
      destruct x as [|s x]; [reflexivity|]. destruct (Forall2_In_r _ _ _ _ Ef (or_introl eq_refl)) as (y & _ & Ey).
      destruct y as [ | | | | | |[|[[name| | |] args] r] ]; cbn [init_source] in Ey; try discriminate Ey. }
    clear - F. induction ll as [|x ll IH]; [reflexivity|]. cbn [List.concat]. rewrite (F x (or_introl eq_refl)).
    apply IH. intros y Hy. apply F. right; exact Hy.
  - apply mem_not_In in Hn. rewrite Hn. cbn [negb]. split; [reflexivity|]. split; [reflexivity|].
    intros n Hne. unfold get_spec. cbn [find]. change (sp_name (rules_spec uni yaml)) with (u "rules").
    destruct (eqb_spec (u "rules") n); [congruence|reflexivity].
Qed.

(** ** Non-vacuity *)
(** A configuration as loaded from a file that disables plugins. *)
Definition disabling_config (env : penv) (os inst : list text) : res pydict :=
  load_dict env [(KStr (u "disabled_plugins"), VDict [(KStr (u "os"), VList (map VStr os));
                                                      (KStr (u "installer"), VList (map VStr inst))])].

Example C116_nonvacuous env : exists c c0,
  disabling_config env [u "xubuntu"] [u "pip"; u "fake"] = Ok c /\ load_dict env [] = Ok c0 /\
  same_otherwise c c0 /\ disables c (u "os") [u "xubuntu"] /\ disables c (u "installer") [u "pip"; u "fake"] /\
  disables c (u "spec") [] /\ disables c0 (u "os") [] /\ disables c0 (u "installer") [] /\
  get (KStr (u "os_override")) c = Some VNone /\
  (forall o : os_plugin machine, In o (bundled_oses (fun m => m)) -> os_is o xubuntu_machine = Ok true ->
     In (os_name o) [u "xubuntu"]) /\
  runs ubuntu_machine ubuntu (u "trusty").
Proof.
  eexists _, _. split; [vm_compute; reflexivity|]. split; [vm_compute; reflexivity|].
  split.
  { intros k Hk. rewrite !get_cons. cbn [fst snd].
    repeat match goal with |- context [eqb k ?x] => destruct (eqb_spec k x); [try reflexivity; subst k; exfalso; apply Hk; reflexivity|] end.
    reflexivity. }
  split; [eexists; split; vm_compute; reflexivity|]. split; [eexists; split; vm_compute; reflexivity|].
  split; [eexists; split; vm_compute; reflexivity|]. split; [eexists; split; vm_compute; reflexivity|].
  split; [eexists; split; vm_compute; reflexivity|]. split; [vm_compute; reflexivity|]. split.
  - intros o [<-|[<-|[<-|[<-|[]]]]] E; vm_compute in E; try discriminate E. left; reflexivity.
  - apply runs_ubuntu with (u "14.04"); reflexivity.
Qed.

Print Assumptions C116_as_if_not_installed.
Print Assumptions C116_installers.
Print Assumptions C116_installer_gone.
Print Assumptions C116_os_gone.
Print Assumptions C116_only_disabled.
Print Assumptions C116_override_disabled.
Print Assumptions C116_default_context.
Print Assumptions C116_specs_as_if_not_installed.
Print Assumptions C116_rules_spec.
