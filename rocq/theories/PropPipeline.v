(** Properties across several steps: C80 (what a lookup answers after an update),
    and the raw form of C03 (order of the loaded file). *)
From Verif Require Import Base Dict PyVal RulesDict RulesSpec Verify VerifySpec VerifyProofs VerifiedLookup
  Expand ExpandProofs CompactSpec CompactProofs Sources SourcesSpec SourcesProofs CacheProofs Order PropSources.

(** *** C03, for files: the same file with dicts in another order (e.g. another hash
    seed, or after pickling) is expanded, verified and looked up with the same
    outcome. *)
Theorem C03_file_order_independent :
  forall uni v v' w key os version def,
    wfval v -> veq v v' ->
    expand_rules v = Ok w -> verify_rules_dict uni w true = Ok tt ->
    unamb_lookup w key os version def ->
    exists w', expand_rules v' = Ok w' /\ verify_rules_dict uni w' true = Ok tt /\ veq w w' /\
      same_outcome (raw_lookup w key os version def) (raw_lookup w' key os version def).
Proof.
  intros uni v v' w key os ver def Hw H E Hv Hu.
  pose proof (expand_rules_veq v v' Hw H) as R; rewrite E in R.
  destruct (expand_rules v') as [w'|] eqn:E'; [|contradiction]; cbn [req] in R.
  exists w'; split; [reflexivity|]; split; [exact (verify_rules_veq uni w w' true R Hv)|]; split; [exact R|].
  pose proof (wfval_expand_rules _ _ Hw E) as Ww.
  pose proof (raw_lookup_veq w w' key os ver def Ww R Hu) as L.
  destruct (raw_lookup w key os ver def) as [o|e] eqn:Eo, (raw_lookup w' key os ver def) as [o'|e'] eqn:Eo';
    cbn [req] in L; try contradiction; [|exact L].
  pose proof (raw_lookup_wfval _ _ _ _ _ _ Ww Eo) as Wo.
  assert (Do : exists d, o = VDict d).
  { unfold raw_lookup in Eo; repeat (apply bind_Ok in Eo; destruct Eo as (? & _ & Eo)); injection Eo as <-; eauto. }
  destruct Do as (d & ->); destruct (veq_dict_In _ _ L) as (d' & -> & _).
  pose proof (veq_wfval _ _ Wo L) as Wo'; apply (proj1 (wfval_dict _)) in Wo, Wo'; destruct Wo as [Wd Fd], Wo' as [Wd' _].
  apply (proj1 (veq_ext _ _ Wd Wd')) in L; cbn [same_outcome]; rewrite Forall_forall in Fd; split.
  - intros i a Ha; specialize (L i); rewrite Ha in L; destruct (get i d') as [b|]; [|contradiction].
    exists b; split; [reflexivity|]; right; apply veq_pyeq; [|exact L]; apply get_In in Ha; apply (Fd _ Ha).
  - intros i b Hb; specialize (L i); rewrite Hb in L; destruct (get i d) as [a|] eqn:Ha; [|contradiction].
    exists a; split; [reflexivity|]; right; apply veq_pyeq; [|exact L]; apply get_In in Ha; apply (Fd _ Ha).
Qed.

(** Whether a file can be expanded at all does not depend on the order either. *)
Theorem C03_file_errors_order_independent :
  forall uni v v', wfval v -> veq v v' ->
    (forall e, expand_rules v = Err e <-> expand_rules v' = Err e) /\
    (forall w w', expand_rules v = Ok w -> expand_rules v' = Ok w' ->
       (verify_rules_dict uni w true = Ok tt <-> verify_rules_dict uni w' true = Ok tt)).
Proof.
  intros uni v v' Hw H; pose proof (expand_rules_veq v v' Hw H) as R; split.
  - intros e; destruct (expand_rules v), (expand_rules v'); cbn [req] in R; try contradiction; split; congruence.
  - intros w w' E E'; rewrite E, E' in R; cbn [req] in R; pose proof (wfval_expand_rules _ _ Hw E) as Ww.
    split; intros V; [exact (verify_rules_veq uni w w' true R V)|].
    exact (verify_rules_veq uni w' w true (veq_sym _ _ Ww R) V).
Qed.

(** *** C80: after an update, another process answers lookups from what the sources
    served. *)
Section C80.
  Variable uni : N -> bool.
  Variable yaml : text -> res pyval.
  Variable sha1 : text -> list N.
  Variable dumps : pyval -> text.
  Variable loads : text -> res pyval.
  Variable version : pyval.

  (** The cache content of a source that holds data [d]. *)
  Definition holds (s : source) (d : pyval) (bytes : text) : Prop :=
    exists version' origin time,
      bytes = dumps (cache_record version' {| s_spec := s_spec s; s_args := s_args s; s_origin := origin;
                                              s_data := d; s_time := time |}).

  (** What source number [j] contributes after the update of [f]: the freshly
      downloaded data if it could be loaded, verified and saved; otherwise what the
      cache held before (if the attempt did not get so far as to truncate the file). *)
  Definition served (envs : nat -> step_env) (cache_dir : text) (f : dict text text) (j : nat) (s : source) (d : pyval) : Prop :=
    wfval d /\ sp_verify_data (s_spec s) d (s_args s) = Ok tt /\
    ((sp_load_data (s_spec s) (e_net (envs j)) (s_args s) = Ok d /\ e_write (envs j) = WriteOk) \/
     (((forall d', sp_load_data (s_spec s) (e_net (envs j)) (s_args s) = Ok d' ->
          sp_verify_data (s_spec s) d' (s_args s) <> Ok tt) \/ (exists e, e_write (envs j) = OpenFails e)) /\
      exists p bytes, source_path sha1 cache_dir s = Ok p /\ get p f = Some bytes /\ holds s d bytes)).

  Lemma for_sources_load cd l f : (forall s, In s l -> exists s', load_from_cache sha1 loads cd f s = (s', Ok tt)) ->
    exists l2, db_load_from_cache sha1 loads true cd l f = (l2, f, Ok tt) /\
      Forall2 (fun s s' => load_from_cache sha1 loads cd f s = (s', Ok tt)) l l2.
  Proof.
    unfold db_load_from_cache; generalize 0; induction l as [|s l IH]; intros i H; cbn [for_sources].
    - exists []; split; [reflexivity|constructor].
    - destruct (H s (or_introl eq_refl)) as (s' & Es); rewrite Es.
      destruct (IH (Datatypes.S i)) as (l2 & E2 & F2); [intros t Ht; apply H; right; exact Ht|].
      rewrite E2; exists (s' :: l2); split; [reflexivity|constructor; assumption].
  Qed.

  Lemma Forall2_nth_error {A B} (P : A -> B -> Prop) l l' : List.length l = List.length l' ->
    (forall j x y, nth_error l j = Some x -> nth_error l' j = Some y -> P x y) -> Forall2 P l l'.
  Proof.
    revert l'; induction l as [|x l IH]; intros [|y l'] Hl H; try discriminate; constructor.
    - apply (H 0); reflexivity.
    - apply IH; [injection Hl as Hl; exact Hl|]; intros j a b Ha Hb; apply (H (Datatypes.S j)); assumption.
  Qed.

  Theorem C80_lookup_after_update :
    forall dir st defaults l cache_dir envs f ds,
      (* pickling restores what was saved, up to the order of dicts *)
      (forall v, exists v', loads (dumps v) = Ok v' /\ veq v v') ->
      init_from_sources yaml sha1 [rules_spec uni yaml] dir st defaults = Ok l ->
      (* no KeyboardInterrupt or SystemExit during the update *)
      (forall j s g e, nth_error l j = Some s ->
         snd (update_source sha1 dumps version envs cache_dir j s g) = Err e -> is_Exception e = true) ->
      List.length ds = List.length l ->
      (forall j s d, nth_error l j = Some s -> nth_error ds j = Some d -> served envs cache_dir f j s d) ->
      exists l1 f1 l2,
        db_update sha1 dumps version envs false cache_dir l f = (l1, f1, Ok tt) /\
        db_load_from_cache sha1 loads true cache_dir l f1 = (l2, f1, Ok tt) /\
        forall key ic n,
          ic_default ic = Some n -> legal_identifier uni n -> ~ In n reserved ->
          (forall d, In d ds -> unamb_lookup d key (ic_os ic) (ic_version ic) (Some n)) ->
          exists ans outs,
            db_lookup uni l2 key ic = Ok ans /\
            Forall2 (fun d o => raw_lookup d key (ic_os ic) (ic_version ic) (Some n) = Ok (VDict o)) ds outs /\
            forall i, opt_veq (first_some (map (get i) outs)) (get i ans).
  Proof.
    intros dir st defaults l cd envs f ds Hrt Hinit Hexc Hlen Hserved.
    destruct (C20_update_isolates yaml sha1 dumps version _ dir st defaults l cd envs f Hinit Hexc) as
      (l1 & f1 & Eu & _ & Hj & _).
    assert (Hspec : forall s, In s l -> s_spec s = rules_spec uni yaml /\ rules_verify_arguments (s_args s) = Ok tt).
    { intros s Hin; unfold init_from_sources in Hinit.
      apply bind_Ok in Hinit; destruct Hinit as (g & _ & E); apply bind_Ok in E; destruct E as (ll & E1 & E).
      apply bind_Ok in E; destruct E as ([] & _ & E); injection E as <-.
      apply in_concat in Hin; destruct Hin as (ss & Hss & Hin).
      apply mapM_Ok in E1; destruct (Forall2_In_r _ _ _ _ E1 Hss) as (file & _ & Ef).
      unfold init_file in Ef; apply bind_Ok in Ef; destruct Ef as (data & _ & Ef); apply bind_Ok in Ef.
      destruct Ef as (v & _ & Ef); apply mapM_Ok in Ef; destruct (Forall2_In_r _ _ _ _ Ef Hin) as (dsc & _ & Ed).
      destruct dsc as [ | | | | | |[|[[name| | |] args] r] ]; cbn [init_source] in Ed; try discriminate.
      apply bind_Ok in Ed; destruct Ed as (sp & Hg & Hn); unfold get_spec in Hg; cbn [find] in Hg.
      destruct (eqb (sp_name (rules_spec uni yaml)) name); [injection Hg as <-|discriminate].
      unfold new_source in Hn; apply bind_Ok in Hn; destruct Hn as ([] & Hv & Hn); injection Hn as <-.
      cbn [s_spec s_args]; split; [reflexivity|exact Hv]. }
    (* what the cache files hold afterwards *)
    assert (Hfile : forall j s d, nth_error l j = Some s -> nth_error ds j = Some d ->
      exists p bytes, source_path sha1 cd s = Ok p /\ get p f1 = Some bytes /\ holds s d bytes).
    { intros j s d Hs Hd; destruct (Hserved j s d Hs Hd) as (Wd & Vd & [(Ld & Wr)|(Why & p & bytes & Hp & Hb & Hh)]);
        destruct (Hj j s Hs) as (p' & Hp' & H1 & H2).
      - destruct (H1 d Ld Vd) as (_ & Hw & _); exists p'; eexists; split; [exact Hp'|]; split; [exact (Hw Wr)|].
        do 3 eexists; reflexivity.
      - assert (p' = p) by congruence; subst p'; exists p, bytes; split; [exact Hp|]; split; [|exact Hh]; rewrite <- Hb.
        destruct Why as [Hno|(e & He)]; [exact (proj2 (H2 Hno))|].
        destruct (sp_load_data (s_spec s) (e_net (envs j)) (s_args s)) as [d'|] eqn:El.
        + destruct (sp_verify_data (s_spec s) d' (s_args s)) as [[]|] eqn:Ev.
          * destruct (H1 d' eq_refl Ev) as (_ & _ & Ho); exact (Ho e He).
          * apply H2; congruence.
        + apply H2; congruence. }
    assert (Hload : forall j s d, nth_error l j = Some s -> nth_error ds j = Some d ->
      exists s', load_from_cache sha1 loads cd f1 s = (s', Ok tt) /\ s_spec s' = s_spec s /\ veq d (s_data s')).
    { intros j s d Hs Hd; destruct (Hfile j s d Hs Hd) as (p & bytes & Hp & Hb & v' & org & tm & ->).
      destruct (Hserved j s d Hs Hd) as (Wd & Vd & _).
      destruct (Hspec s (nth_error_In _ _ Hs)) as [Es Ea].
      match type of Hb with _ = Some (dumps (cache_record _ ?x)) => set (sv := x) in * end.
      destruct (Hrt (cache_record v' sv)) as (v & Hl & Hveq).
      destruct (round_trip sha1 dumps loads v' cd f1 sv s p (dumps (cache_record v' sv)) v) as (s' & E & E1 & _ & _ & E2 & _);
        try reflexivity; try assumption.
      - cbn [sv s_spec s_args]; rewrite Es; exact Ea.
      - intros x x' Hx Hv; cbn [sv s_spec s_args] in *; rewrite Es in *; eapply C17_rules_spec; eassumption.
      - exists s'; split; [exact E|]; split; [exact E1|exact E2]. }
    assert (Hdj : forall j s, nth_error l j = Some s -> exists d, nth_error ds j = Some d).
    { intros j s Hs; destruct (nth_error ds j) as [d|] eqn:E; [eauto|].
      apply nth_error_None in E; assert (j < List.length l) by (apply nth_error_Some; congruence); lia. }
    destruct (for_sources_load cd l f1) as (l2 & El & F2).
    { intros s Hin; apply In_nth_error in Hin; destruct Hin as (j & Hs); destruct (Hdj j s Hs) as (d & Hd).
      destruct (Hload j s d Hs Hd) as (s' & E & _); eauto. }
    exists l1, f1, l2; split; [exact Eu|]; split; [exact El|]; intros key ic n Hn Hleg Hres Hun.
    set (mk := fun d => {| s_spec := rules_spec uni yaml; s_args := VNone; s_origin := VNone; s_data := d; s_time := VNone |}).
    assert (HF : Forall2 (same_rules_source uni yaml key ic) (map mk ds) l2).
    { assert (Hl2 : List.length l2 = List.length l) by (clear - F2; induction F2; cbn; congruence).
      apply Forall2_nth_error; [rewrite map_length; congruence|].
      intros j x s' Hx Hs'; rewrite nth_error_map in Hx; destruct (nth_error ds j) as [d|] eqn:Hd; [|discriminate].
      injection Hx as <-; destruct (nth_error l j) as [s|] eqn:Hs.
      - destruct (Hload j s d Hs Hd) as (s2 & E & E1 & E2); destruct (Hserved j s d Hs Hd) as (Wd & _).
        assert (s2 = s').
        { destruct (Forall2_nth _ _ _ j s F2 Hs) as (s3 & H3 & H4); congruence. }
        subst s2; destruct (Hspec s (nth_error_In _ _ Hs)) as [Es _].
        split; [reflexivity|]; split; [rewrite E1; exact Es|]; split; [exact Wd|]; split; [exact E2|].
        rewrite Hn; apply Hun; eapply nth_error_In; exact Hd.
      - apply nth_error_None in Hs; assert (j < List.length ds) by (apply nth_error_Some; congruence); lia. }
    destruct (C08_rules_database uni yaml (map mk ds) key ic n) as (a & outs & Ea & HFo & Hg); try assumption.
    { apply Forall_forall; intros s Hin; apply in_map_iff in Hin; destruct Hin as (d & <- & Hin).
      split; [reflexivity|]; cbn [mk s_data]; apply In_nth_error in Hin; destruct Hin as (j & Hd).
      destruct (nth_error l j) as [s|] eqn:Hs.
      - destruct (Hserved j s d Hs Hd) as (_ & Vd & _); destruct (Hspec s (nth_error_In _ _ Hs)) as [Es _].
        rewrite Es in Vd; exact Vd.
      - apply nth_error_None in Hs; assert (j < List.length ds) by (apply nth_error_Some; congruence); lia. }
    pose proof (db_lookup_veq uni yaml _ _ key ic HF) as R; rewrite Ea in R.
    destruct (db_lookup uni l2 key ic) as [ans|] eqn:E2; [|contradiction]; destruct R as (P & _ & _).
    exists ans, outs; split; [reflexivity|]; split.
    - clear - HFo; remember (map mk ds) as ms eqn:E; revert ds E; induction HFo as [|s o ms outs Ho HF IH]; intros ds E.
      + destruct ds; [constructor|discriminate].
      + destruct ds as [|d ds]; [discriminate|]; injection E as -> ->; constructor; [exact Ho|apply IH; reflexivity].
    - intros i; rewrite <- Hg; apply P.
  Qed.
End C80.

(** *** Non-vacuity *)
Definition y_file (b : bool) : pyval :=
  let e1 := (KStr (u "ubuntu"), VDict [(KStr (u "xenial"), VDict [(KStr (u "apt"), VStr (u "libboost"));
                                                                    (KStr (u "pip"), VNone)])]) in
  let e2 := (KStr (u "any_os"), VDict [(KStr (u "any_version"), VDict [(KStr (u "pip"), VStr (u "boost"))])]) in
  VDict [(KStr (u "boost"), VDict (if b then [e1; e2] else [e2; e1]))].
Example C03_file_nonvacuous :
  wfval (y_file true) /\ veq (y_file true) (y_file false) /\ y_file true <> y_file false /\
  exists w, expand_rules (y_file true) = Ok w /\ verify_rules_dict x_uni w true = Ok tt /\
    unamb_lookup w (u "boost") (u "ubuntu") (u "xenial") (Some (u "apt")) /\
    exists d, raw_lookup w (u "boost") (u "ubuntu") (u "xenial") (Some (u "apt")) = Ok (VDict d) /\
      List.length d = 2.
Proof.
  split; [|split; [|split; [discriminate|]]].
  - unfold y_file; repeat (apply (proj2 (wfval_dict _)); split;
      [repeat (constructor; [intros Hin; cbn in Hin; repeat destruct Hin as [Hin|Hin]; try discriminate; try contradiction|]); constructor|];
      repeat (apply Forall_cons || apply Forall_nil); cbn [snd]); exact I.
  - apply veq_dict with (e := match y_file true with VDict d => d | _ => [] end); [reflexivity|].
    constructor; [|constructor]; split; [reflexivity|]; cbn [snd].
    eapply veq_dict; [apply perm_swap|]; repeat (constructor; [split; [reflexivity|apply veq_refl]|]); constructor.
  - eexists; split; [vm_compute; reflexivity|]; split; [vm_compute; reflexivity|]; split.
    + intros d H n Hn _ Hd; exfalso.
      destruct H as [(r & od & vd & E & H1 & H2 & H3)|[(r & od & vd & E & H1 & H2 & H3)|(r & od & vd & E & H1 & H2 & H3)]];
        injection E as <-; cbn in H1; destruct H1 as [H1|[]]; injection H1 as <-; cbn in H2;
        destruct H2 as [H2|[H2|[]]]; try discriminate; injection H2 as <-; cbn in H3; destruct H3 as [H3|[]];
        try discriminate; injection H3 as <-; cbn in Hd; repeat destruct Hd as [Hd|Hd]; try discriminate; contradiction.
    + eexists; split; vm_compute; reflexivity.
Qed.

(** Source a is downloaded, source b fails but has an older cache. *)
Definition y_old : pyval :=
  VDict [(KStr (u "boost"), VDict [(KStr (u "any_os"), VDict [(KStr (u "any_version"),
    VDict [(KStr (u "pip"), VDict [(KStr (u "packages"), VList [VStr (u "boost")])])])])])].
Definition y_fs : dict text text :=
  [(u "/c/687474703a2f2f62.pickle", Codec.enc (cache_record (VInt 3) {| s_spec := x_spec; s_args := VStr (u "http://b");
      s_origin := VNone; s_data := y_old; s_time := VOther (u "yesterday") |}))].
Example C80_nonvacuous :
  let l := [x_source "http://a"; x_source "http://b"] in
  (forall v, exists v', Codec.dec_all (Codec.enc v) = Ok v' /\ veq v v') /\
  init_from_sources x_yaml x_sha1 [x_spec] (u "/s") x_dir [] = Ok l /\
  (forall j s g e, nth_error l j = Some s ->
     snd (update_source x_sha1 Codec.enc VNone x_envs (u "/c") j s g) = Err e -> is_Exception e = true) /\
  (forall j s d, nth_error l j = Some s -> nth_error [x_data; y_old] j = Some d ->
     served x_sha1 Codec.enc x_envs (u "/c") y_fs j s d) /\
  (forall d, In d [x_data; y_old] -> unamb_lookup d (u "boost") (u "ubuntu") (u "xenial") (Some (u "apt"))) /\
  exists l1 f1 l2,
    db_update x_sha1 Codec.enc VNone x_envs false (u "/c") l y_fs = (l1, f1, Ok tt) /\
    db_load_from_cache x_sha1 Codec.dec_all true (u "/c") l f1 = (l2, f1, Ok tt) /\
    db_lookup x_uni l2 (u "boost") {| ic_os := u "ubuntu"; ic_version := u "xenial"; ic_default := Some (u "apt") |} =
      Ok [(KStr (u "pip"), VDict [(KStr (u "packages"), VList [VStr (u "boost")])]);
          (KStr (u "apt"), VDict [(KStr (u "packages"), VList [VStr (u "libboost")])])].
Proof.
  cbv zeta; split; [intros v; exists v; split; [apply Codec.dec_all_enc|apply veq_refl]|].
  split; [reflexivity|]; split; [apply C20_nonvacuous|]; split; [|split].
  - assert (W : wfval x_data /\ wfval y_old).
    { split; unfold x_data, y_old; repeat (apply (proj2 (wfval_dict _)); split;
        [repeat (constructor; [intros Hin; cbn in Hin; contradiction|]); constructor|];
        apply Forall_cons; [|apply Forall_nil]; cbn [snd]); apply (proj2 (wfval_list _));
        apply Forall_cons; [exact I|apply Forall_nil|exact I|apply Forall_nil]. }
    intros [|[|j]] s d E E'; [injection E as <-; injection E' as <-|injection E as <-; injection E' as <-|destruct j; discriminate].
    + split; [apply W|]; split; [vm_compute; reflexivity|]; left; split; vm_compute; reflexivity.
    + split; [apply W|]; split; [vm_compute; reflexivity|]; right; split.
      * left; intros d' E; vm_compute in E; discriminate.
      * exists (u "/c/687474703a2f2f62.pickle"); eexists; split; [vm_compute; reflexivity|].
        split; [unfold y_fs; rewrite get_cons, eqb_refl; reflexivity|].
        exists (VInt 3), VNone, (VOther (u "yesterday")); reflexivity.
  - intros d Hin d' H n Hn _ _ Hd.
    destruct Hin as [<-|[<-|[]]];
      destruct H as [(r & od & vd & E & H1 & H2 & H3)|[(r & od & vd & E & H1 & H2 & H3)|(r & od & vd & E & H1 & H2 & H3)]];
        injection E as <-; cbn in H1; destruct H1 as [H1|[]]; injection H1 as <-; cbn in H2;
        destruct H2 as [H2|[]]; try discriminate; injection H2 as <-; cbn in H3; destruct H3 as [H3|[]];
        try discriminate; injection H3 as <-; injection Hn as <-; cbn in Hd;
        repeat destruct Hd as [Hd|Hd]; try discriminate; contradiction.
  - exists (fst (fst (db_update x_sha1 Codec.enc VNone x_envs false (u "/c") [x_source "http://a"; x_source "http://b"] y_fs))),
      (snd (fst (db_update x_sha1 Codec.enc VNone x_envs false (u "/c") [x_source "http://a"; x_source "http://b"] y_fs))),
      (fst (fst (db_load_from_cache x_sha1 Codec.dec_all true (u "/c") [x_source "http://a"; x_source "http://b"]
         (snd (fst (db_update x_sha1 Codec.enc VNone x_envs false (u "/c") [x_source "http://a"; x_source "http://b"] y_fs)))))).
    assert (T : forall (A B C : Type) (x : A * B * C) b c, snd (fst x) = b -> snd x = c -> x = (fst (fst x), b, c))
      by (intros A B C [[? ?] ?] ? ? <- <-; reflexivity).
    split; [apply T; [reflexivity|vm_compute; reflexivity]|].
    split; [apply T; vm_compute; reflexivity|vm_compute; reflexivity].
Qed.

Print Assumptions C03_file_order_independent.
Print Assumptions C03_file_errors_order_independent.
Print Assumptions C80_lookup_after_update.
