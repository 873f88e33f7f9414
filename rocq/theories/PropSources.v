(** Properties C08, C09, C17-C24, C56, C57: sources, database, cache, update. *)
From Verif Require Import Base Dict PyVal RulesDict RulesSpec RulesLookupProofs Verify VerifySpec VerifyProofs
  VerifiedLookup Expand Codec Sources SourcesSpec Crash SourcesProofs CacheProofs.

(** *** C08: database lookup *)

(** For each installer the rule of the first source (in source order) whose own
    lookup offers it; the hypothesis says that sources return Python dicts. *)
Theorem C08_first_source_wins :
  forall uni l key ic d,
    (forall s o, In s l -> source_lookup uni s key ic = Ok (VDict o) -> NoDup (map fst o)) ->
    db_lookup uni l key ic = Ok d ->
    exists outs,
      Forall2 (fun s o => source_lookup uni s key ic = Ok (VDict o)) l outs /\
      forall i, get i d = first_some (map (get i) outs).
Proof.
  intros uni l key ic d Hw E.
  destruct (db_lookup_fold uni l key ic [] d Hw E) as (outs & HF & Hg).
  exists outs; split; [exact HF|]; intros i; rewrite Hg; rewrite get_nil; apply orelse_None_r.
Qed.

(** It fails iff some source's (verified) lookup fails, with the error of the last
    such source. *)
Theorem C08_failure :
  forall uni l key ic,
    ((exists d, db_lookup uni l key ic = Ok d) <->
     forall s, In s l -> exists v, source_lookup uni s key ic = Ok v) /\
    (forall e, db_lookup uni l key ic = Err e ->
       exists l1 s l2, l = l1 ++ s :: l2 /\ source_lookup uni s key ic = Err e /\
         forall s', In s' l2 -> exists v, source_lookup uni s' key ic = Ok v).
Proof.
  intros uni l key ic; split; [split|].
  - intros [d E] s Hs; destruct (source_lookup uni s key ic) as [v|e] eqn:Es; [eauto|exfalso].
    unfold db_lookup in E; revert d E; generalize (@nil (pkey * pyval)).
    induction l as [|s' l IH]; [destruct Hs|]; intros acc d E; simpl in E; rewrite foldM_app in E.
    apply bind_Ok in E; destruct E as (d1 & E1 & E2); destruct Hs as [->|Hs]; [|eapply IH; eassumption].
    simpl in E2; rewrite Es in E2; discriminate.
  - intros Ha; apply db_lookup_total; exact Ha.
  - apply db_lookup_Err.
Qed.

Lemma raw_merge_wf new c def c' : wf c -> raw_merge new c def = Ok c' -> wf c'.
Proof.
  destruct new as [| | | | | |d]; try discriminate; simpl.
  revert c; induction d as [|[k x] d IH]; intros c Hc E; simpl in E; [congruence|].
  apply bind_Ok in E; destruct E as (c1 & E1 & E2); apply bind_Ok in E1; destruct E1 as (n & _ & E1).
  injection E1 as <-; eapply IH; [|exact E2]; apply wf_set; exact Hc.
Qed.

Lemma raw_lookup_wf v key os ver def o : raw_lookup v key os ver def = Ok (VDict o) -> wf o.
Proof.
  unfold raw_lookup; intros E.
  repeat (apply bind_Ok in E; let x := fresh "x" in let H := fresh "H" in destruct E as (x & H & E)).
  injection E as <-; eauto using raw_merge_wf, wf_nil.
Qed.

(** For sources of the 'rules' spec holding verified data, with a legal default
    installer, lookup always succeeds, and the first source wins. *)
Theorem C08_rules_database :
  forall uni yaml l key ic n,
    Forall (fun s => s_spec s = rules_spec uni yaml /\ verify_rules_dict uni (s_data s) true = Ok tt) l ->
    ic_default ic = Some n -> legal_identifier uni n -> ~ In n reserved ->
    exists d outs, db_lookup uni l key ic = Ok d /\
      Forall2 (fun s o => raw_lookup (s_data s) key (ic_os ic) (ic_version ic) (Some n) = Ok (VDict o)) l outs /\
      forall i, get i d = first_some (map (get i) outs).
Proof.
  intros uni yaml l key ic n Hl Hd Hn Hr; rewrite Forall_forall in Hl.
  assert (Hs : forall s, In s l -> exists o, raw_lookup (s_data s) key (ic_os ic) (ic_version ic) (Some n) = Ok (VDict o) /\
               source_lookup uni s key ic = Ok (VDict o)).
  { intros s Hin; destruct (Hl s Hin) as [Es Hv].
    destruct (verified_lookup uni (s_data s) key (ic_os ic) (ic_version ic) n true Hv (or_introl Hn) Hr) as (v & E1 & E2).
    destruct v as [| | | | | |o]; try discriminate; exists o; split; [exact E1|].
    unfold source_lookup; rewrite Es; simpl; rewrite Hd, E1; cbn [bind]; rewrite E2; reflexivity. }
  destruct (proj2 (proj1 (C08_failure uni l key ic))) as [d E].
  { intros s Hin; destruct (Hs s Hin) as (o & _ & Eo); eauto. }
  destruct (C08_first_source_wins uni l key ic d) as (outs & HF & Hg); [|exact E|].
  { intros s o Hin Eo; destruct (Hs s Hin) as (o' & E1 & E2); assert (o = o') by congruence; subst o'.
    eapply raw_lookup_wf; exact E1. }
  exists d, outs; split; [exact E|]; split; [|exact Hg].
  clear - HF Hs; induction HF as [|s o l outs Ho HF IH]; constructor.
  - destruct (Hs s (or_introl eq_refl)) as (o' & E1 & E2); rewrite Ho in E2; injection E2 as ->; exact E1.
  - apply IH; intros s' Hin; apply Hs; right; exact Hin.
Qed.

(** *** C09: database keys *)
Theorem C09_keys_union :
  forall l ic,
    (forall ks, db_keys l ic = Ok ks ->
       NoDup ks /\
       forall k, In k ks <-> exists s ks', In s l /\ source_keys s ic = Ok ks' /\ In k ks') /\
    ((exists ks, db_keys l ic = Ok ks) <-> forall s, In s l -> exists ks', source_keys s ic = Ok ks').
Proof.
  intros l ic; split; [|split].
  - intros ks E; destruct (db_keys_Ok _ _ _ E) as (H1 & _ & H3); auto.
  - intros [ks E]; destruct (db_keys_Ok _ _ _ E) as (_ & H2 & _); exact H2.
  - apply db_keys_total.
Qed.

(** Every key that resolves to some rule is reported. *)
Theorem C09_keys_complete :
  forall uni yaml l ic n,
    Forall (fun s => s_spec s = rules_spec uni yaml /\ wfval (s_data s) /\
                     verify_rules_dict uni (s_data s) true = Ok tt) l ->
    ic_default ic = Some n -> legal_identifier uni n -> ~ In n reserved ->
    exists ks, db_keys l ic = Ok ks /\
      forall key d, db_lookup uni l key ic = Ok d -> d <> [] -> In (KStr key) ks.
Proof.
  intros uni yaml l ic n Hl Hd Hn Hr.
  assert (Ht : forall s, In s l -> exists r, s_data s = inj_rules r).
  { rewrite Forall_forall in Hl; intros s Hin; destruct (Hl s Hin) as (_ & Hw & Hv).
    destruct (verified_typed uni _ true Hw Hv) as (r & E & _); eauto. }
  assert (Hsp : forall s, In s l -> s_spec s = rules_spec uni yaml).
  { rewrite Forall_forall in Hl; intros s Hin; apply Hl; exact Hin. }
  destruct (db_keys_total l ic) as [ks Ek].
  { intros s Hin; destruct (Ht s Hin) as (r & E); unfold source_keys; rewrite (Hsp s Hin), E; cbn [sp_keys rules_spec].
    rewrite raw_keys_inj; eauto. }
  exists ks; split; [exact Ek|]; intros key d E Hne.
  destruct (C08_rules_database uni yaml l key ic n) as (d' & outs & E' & HF & Hg); try assumption.
  { eapply Forall_impl; [|exact Hl]; cbn beta; tauto. }
  rewrite E in E'; injection E' as <-.
  destruct d as [|[i x] d]; [congruence|].
  specialize (Hg i); rewrite get_cons, eqb_refl in Hg.
  assert (Hex : exists s o, In s l /\
            raw_lookup (s_data s) key (ic_os ic) (ic_version ic) (Some n) = Ok (VDict o) /\ get i o = Some x).
  { clear - HF Hg; induction HF as [|s o l outs Ho HF IH]; simpl in Hg; [discriminate|].
    destruct (get i o) as [y|] eqn:Eo.
    - exists s, o; split; [left; reflexivity|]; split; [exact Ho|congruence].
    - destruct (IH Hg) as (s' & o' & H1 & H2); exists s', o'; split; [right; exact H1|exact H2]. }
  destruct Hex as (s & o & Hin & Ho & Hi); destruct (Ht s Hin) as (r & Er).
  rewrite Er, raw_lookup_inj in Ho.
  destruct (lookup_rules r key (ic_os ic) (ic_version ic) (Some n)) as [c|] eqn:El; [|discriminate].
  destruct (db_keys_Ok _ _ _ Ek) as (_ & _ & H3); apply H3; exists s.
  eexists; split; [exact Hin|]; split.
  - unfold source_keys; rewrite (Hsp s Hin), Er; cbn [sp_keys rules_spec]; apply raw_keys_inj.
  - apply in_map; eapply keys_complete; [exact El|].
    intros ->; simpl in Ho; injection Ho as <-; discriminate.
Qed.

(** *** C17: cache round trip *)

(** Hypotheses: pickle restores the saved value (up to dict order), and the spec's
    verification does not depend on dict order (true for the 'rules' spec, below). *)
Theorem C17_cache_round_trip :
  forall sha1 dumps loads version e cache_dir f f' s s0,
    (forall v, exists v', loads (dumps v) = Ok v' /\ veq v v') ->
    (forall d d', veq d d' -> sp_verify_data (s_spec s) d (s_args s) = Ok tt ->
                  sp_verify_data (s_spec s) d' (s_args s) = Ok tt) ->
    sp_verify_arguments (s_spec s) (s_args s) = Ok tt ->
    sp_verify_data (s_spec s) (s_data s) (s_args s) = Ok tt ->
    s_spec s0 = s_spec s -> s_args s0 = s_args s ->
    save_to_cache sha1 dumps version e cache_dir s f = (f', Ok tt) ->
    exists s', load_from_cache sha1 loads cache_dir f' s0 = (s', Ok tt) /\
      s_spec s' = s_spec s /\ veq (s_args s) (s_args s') /\ veq (s_origin s) (s_origin s') /\
      veq (s_data s) (s_data s') /\ veq (s_time s) (s_time s').
Proof.
  intros sha1 dumps loads version e cd f f' s s0 Hrt Hc Ha Hv Es Ea E.
  unfold save_to_cache in E; destruct (source_path sha1 cd s) as [p|] eqn:Ep; [|discriminate].
  unfold write_cache in E; destruct (e_write e); try discriminate; injection E as <-.
  destruct (Hrt (cache_record version s)) as (v & Hl & Hveq).
  eapply round_trip; try eassumption; apply get_set_same.
Qed.

Theorem C17_rules_spec :
  forall uni yaml d d' a, veq d d' ->
    sp_verify_data (rules_spec uni yaml) d a = Ok tt -> sp_verify_data (rules_spec uni yaml) d' a = Ok tt.
Proof. intros uni yaml d d' a Hv H; simpl in *; eapply verify_rules_veq; eassumption. Qed.

(** *** C18: only verified data *)
Inductive source_op :=
| OpLoadSource (e : step_env)
| OpLoadCache (cache_dir : text) (f : fs)    (* whatever is in the cache at that time *)
| OpSave (e : step_env) (cache_dir : text) (f : fs).

Definition run_source_op sha1 dumps loads version (s : source) (o : source_op) : source * res unit :=
  match o with
  | OpLoadSource e => load_from_source e s
  | OpLoadCache cd f => load_from_cache sha1 loads cd f s
  | OpSave e cd f => (s, snd (save_to_cache sha1 dumps version e cd s f))
  end.

Definition run_source_ops sha1 dumps loads version (s : source) (ops : list source_op) : source :=
  fold_left (fun s o => fst (run_source_op sha1 dumps loads version s o)) ops s.

Theorem C18_only_verified_data :
  forall sha1 dumps loads version sp args origin s ops,
    new_source sp args origin = Ok s ->
    let s' := run_source_ops sha1 dumps loads version s ops in
    s_spec s' = sp /\
    (s_data s' = VNone \/ exists a, sp_verify_data sp (s_data s') a = Ok tt).
Proof.
  intros sha1 dumps loads version sp args origin s ops Hn.
  unfold new_source in Hn; apply bind_Ok in Hn; destruct Hn as ([] & _ & E); injection E as <-.
  set (s := {| s_spec := sp |}) in *.
  assert (H0 : s_spec s = sp /\ (s_data s = VNone \/ exists a, sp_verify_data sp (s_data s) a = Ok tt)).
  { split; [reflexivity|left; reflexivity]. }
  clearbody s; cbv zeta; unfold run_source_ops; revert s H0; induction ops as [|o ops IH]; intros s H0; [exact H0|].
  simpl; apply IH; destruct H0 as [Hs Hd]; destruct o as [e|cd f|e cd f]; simpl.
  - destruct (load_from_source_cases e s) as [(d & _ & Hv & ->)|(x & _ & ->)]; simpl; [|auto].
    split; [exact Hs|right; rewrite <- Hs; eauto].
  - destruct (load_from_cache_cases sha1 loads cd f s) as
      [(p & b & r & d & a & o & t & _ & _ & _ & _ & _ & _ & _ & _ & _ & _ & Hv & ->)|(x & ->)]; simpl; [|auto].
    split; [exact Hs|right; rewrite <- Hs; eauto].
  - auto.
Qed.

(** For the 'rules' spec: absent or verified. *)
Theorem C18_rules_source :
  forall uni yaml sha1 dumps loads version args origin s ops,
    new_source (rules_spec uni yaml) args origin = Ok s ->
    let s' := run_source_ops sha1 dumps loads version s ops in
    s_data s' = VNone \/ verify_rules_dict uni (s_data s') true = Ok tt.
Proof.
  intros uni yaml sha1 dumps loads version args origin s ops Hn s'.
  destruct (C18_only_verified_data sha1 dumps loads version _ _ _ _ ops Hn) as [_ [H|[a H]]]; auto.
Qed.

(** A failed operation leaves the source as it was. *)
Theorem C18_failed_load_keeps_source :
  forall sha1 dumps loads version s o s' e,
    run_source_op sha1 dumps loads version s o = (s', Err e) -> s' = s.
Proof.
  intros sha1 dumps loads version s [e|cd f|e cd f] s' x; simpl.
  - destruct (load_from_source_cases e s) as [(d & _ & _ & ->)|(y & _ & ->)]; congruence.
  - destruct (load_from_cache_cases sha1 loads cd f s) as
      [(p & b & r & d & a & o & t & _ & _ & _ & _ & _ & _ & _ & _ & _ & _ & _ & ->)|(y & ->)]; congruence.
  - congruence.
Qed.

(** *** C19: distinct cache files *)
Lemma init_unique yaml sha1 specs dir st defaults l :
  init_from_sources yaml sha1 specs dir st defaults = Ok l -> verify_unique_ids sha1 l = Ok tt.
Proof.
  unfold init_from_sources; intros E; apply bind_Ok in E; destruct E as (g & _ & E).
  apply bind_Ok in E; destruct E as (ll & _ & E); apply bind_Ok in E; destruct E as ([] & H & E).
  injection E as <-; exact H.
Qed.

Theorem C19_distinct_cache_files :
  forall yaml sha1 specs dir st defaults l cache_dir,
    init_from_sources yaml sha1 specs dir st defaults = Ok l ->
    (forall s, In s l -> exists p, source_path sha1 cache_dir s = Ok p) /\
    (forall j k s t p, nth_error l j = Some s -> nth_error l k = Some t ->
       source_path sha1 cache_dir s = Ok p -> source_path sha1 cache_dir t = Ok p -> j = k).
Proof.
  intros yaml sha1 specs dir st defaults l cd E; apply init_unique in E.
  destruct (verify_unique_ids_Ok sha1 l cd E) as [H1 H2]; split; [exact H2|exact H1].
Qed.

(** Saving one source (whatever the outcome) never changes what another one loads. *)
Theorem C19_save_does_not_interfere :
  forall yaml sha1 dumps loads version specs dir st defaults l cache_dir j k s t e f,
    init_from_sources yaml sha1 specs dir st defaults = Ok l ->
    nth_error l j = Some s -> nth_error l k = Some t -> j <> k ->
    forall d tm,
    let s1 := {| s_spec := s_spec s; s_args := s_args s; s_origin := s_origin s; s_data := d; s_time := tm |} in
    load_from_cache sha1 loads cache_dir (fst (save_to_cache sha1 dumps version e cache_dir s1 f)) t =
    load_from_cache sha1 loads cache_dir f t.
Proof.
  intros yaml sha1 dumps loads version specs dir st defaults l cd j k s t e f E Hj Hk Hn d tm s1.
  apply load_from_cache_ext; intros p Hp.
  destruct (C19_distinct_cache_files yaml sha1 specs dir st defaults l cd E) as [Hok Hd].
  unfold save_to_cache; change (source_path sha1 cd s1) with (source_path sha1 cd s).
  destruct (source_path sha1 cd s) as [p'|] eqn:Ep'; [|reflexivity].
  assert (Hne : p <> p') by (intros ->; apply Hn; eapply Hd; eassumption).
  unfold write_cache; destruct (e_write e); simpl; rewrite ?get_set_other by exact Hne; reflexivity.
Qed.

(** *** C20: update isolates failing sources *)
Theorem C20_update_isolates :
  forall yaml sha1 dumps version specs dir st defaults l cache_dir envs f,
    init_from_sources yaml sha1 specs dir st defaults = Ok l ->
    (* no KeyboardInterrupt or SystemExit: *)
    (forall j s g e, nth_error l j = Some s ->
       snd (update_source sha1 dumps version envs cache_dir j s g) = Err e -> is_Exception e = true) ->
    exists l' f', db_update sha1 dumps version envs false cache_dir l f = (l', f', Ok tt) /\
      List.length l' = List.length l /\
      (forall j s, nth_error l j = Some s ->
         exists p, source_path sha1 cache_dir s = Ok p /\
         ((* download, expansion and verification succeed *)
          (forall d, sp_load_data (s_spec s) (e_net (envs j)) (s_args s) = Ok d ->
             sp_verify_data (s_spec s) d (s_args s) = Ok tt ->
             let s' := {| s_spec := s_spec s; s_args := s_args s; s_origin := s_origin s;
                          s_data := d; s_time := e_now (envs j) |} in
             nth_error l' j = Some s' /\
             (e_write (envs j) = WriteOk -> get p f' = Some (dumps (cache_record version s'))) /\
             (forall e, e_write (envs j) = OpenFails e -> get p f' = get p f)) /\
          (* one of them fails *)
          ((forall d, sp_load_data (s_spec s) (e_net (envs j)) (s_args s) = Ok d ->
             sp_verify_data (s_spec s) d (s_args s) <> Ok tt) ->
             nth_error l' j = Some s /\ get p f' = get p f))) /\
      (forall q, (forall s, In s l -> source_path sha1 cache_dir s <> Ok q) -> get q f' = get q f).
Proof.
  intros yaml sha1 dumps version specs dir st defaults l cd envs f E Hn.
  destruct (C19_distinct_cache_files yaml sha1 specs dir st defaults l cd E) as [Hok Hd].
  destruct (update_spec sha1 dumps version envs cd l 0 f Hok Hd) as (l' & f' & Er & Hlen & Hj & Hq).
  { intros j s g e Hs; simpl; eauto. }
  exists l', f'; split; [exact Er|]; split; [exact Hlen|]; split; [|exact Hq].
  intros j s Hs; destruct (Hok s (nth_error_In _ _ Hs)) as [p Hp]; exists p; split; [exact Hp|].
  destruct (Hj j s Hs) as [H1 H2]; specialize (H2 p Hp); simpl in H1, H2.
  unfold step_content in H2; split.
  - intros d Hd1 Hd2 s'.
    destruct (load_from_source_cases (envs j) s) as [(d' & E1 & E2 & E3)|(x & [E1|(d' & E1 & E2)] & E3)];
      try congruence.
    assert (d' = d) by congruence; subst d'; rewrite E3 in H1, H2; simpl in H1.
    split; [exact H1|]; split; [intros Ew|intros e Ew]; rewrite Ew in H2; exact H2.
  - intros Hno.
    destruct (load_from_source_cases (envs j) s) as [(d' & E1 & E2 & E3)|(x & _ & E3)].
    + elim (Hno d' E1 E2).
    + rewrite E3 in H1, H2; auto.
Qed.

(** What is not a failure of the source: the user interrupts the program, or it exits. *)
Inductive interruption : exn -> Prop :=
| int_ctrl_c : interruption KeyboardInterrupt
| int_exit n : interruption (SystemExit n).

(** An interruption while a source is downloaded ends the update with this exception: the
    sources before it are updated as if they were the only ones, this one and those after it
    (and their cache files) are left alone. *)
Theorem C20_interrupted :
  forall sha1 dumps version cache_dir envs f pre s post e pre' f',
    (* the sources before are not interrupted: *)
    (forall j t g x, nth_error pre j = Some t ->
       snd (update_source sha1 dumps version envs cache_dir j t g) = Err x -> ~ interruption x) ->
    db_update sha1 dumps version envs false cache_dir pre f = (pre', f', Ok tt) ->
    interruption e -> sp_load_data (s_spec s) (e_net (envs (List.length pre))) (s_args s) = Err e ->
    db_update sha1 dumps version envs false cache_dir (pre ++ s :: post) f = (pre' ++ s :: post, f', Err e).
Proof.
  intros sha1 dumps version cd envs f pre s post e pre' f' Hp Hu He Hl.
  assert (X : forall i, (forall j t g x, nth_error pre j = Some t ->
       snd (update_source sha1 dumps version envs cd (i + j) t g) = Err x -> ~ interruption x) ->
     forall f, for_sources (update_source sha1 dumps version envs cd) false i pre f = (pre', f', Ok tt) ->
     sp_load_data (s_spec s) (e_net (envs (i + List.length pre))) (s_args s) = Err e ->
     for_sources (update_source sha1 dumps version envs cd) false i (pre ++ s :: post) f = (pre' ++ s :: post, f', Err e)).
  { clear Hp Hu Hl f. revert pre'. induction pre as [|t pre IH]; intros pre' i Hp f Hu Hl; cbn [app for_sources] in *.
    - injection Hu as <- <-. cbn [List.length] in Hl. rewrite Nat.add_0_r in Hl.
      unfold update_source, load_from_source. rewrite Hl. cbn [bind].
      destruct He; reflexivity.
    - assert (Hp0 := Hp 0 t f). rewrite Nat.add_0_r in Hp0.
      destruct (update_source sha1 dumps version envs cd i t f) as [[t' f1] r]. cbn [snd] in Hp0.
      assert (Hr : forall x, r = Err x -> is_Exception x = true).
      { intros x ->. specialize (Hp0 x eq_refl eq_refl).
        destruct x; try reflexivity; exfalso; apply Hp0; constructor. }
      destruct (for_sources (update_source sha1 dumps version envs cd) false (S i) pre f1) as [[pre1 f2] r1] eqn:E.
      assert (Q : (t' :: pre1, f2, r1) = (pre', f', Ok tt)).
      { destruct r as [u|x]; [exact Hu|]. rewrite (Hr x eq_refl) in Hu. exact Hu. }
      injection Q as <- <- ->.
      rewrite (IH pre1 (S i)) with (f := f1).
      + destruct r as [u|x]; [reflexivity|]. rewrite (Hr x eq_refl). reflexivity.
      + intros j t0 g x Hj Hx. apply (Hp (S j) t0 g x Hj). rewrite Nat.add_succ_r. exact Hx.
      + exact E.
      + cbn [List.length] in Hl. rewrite Nat.add_succ_r in Hl. exact Hl. }
  apply (X 0 Hp f Hu Hl).
Qed.

(** *** C21: crashes *)

(** The operations of [Crash.v], run to the end, are the update. *)
Theorem C21_operations_are_update :
  forall sha1 dumps version envs cache_dir l f,
    run_ops (update_ops sha1 dumps version envs cache_dir 0 l) f =
    snd (fst (db_update sha1 dumps version envs false cache_dir l f)).
Proof. intros; apply run_update_ops. Qed.

(** At every crash point all files but at most one have their old content or that
    of the completed update. *)
Theorem C21_crash_damages_at_most_one_file :
  forall yaml sha1 dumps version specs dir st defaults l cache_dir envs f k,
    init_from_sources yaml sha1 specs dir st defaults = Ok l ->
    let crashed := run_ops (firstn k (update_ops sha1 dumps version envs cache_dir 0 l)) f in
    let complete := snd (fst (db_update sha1 dumps version envs false cache_dir l f)) in
    exists p, forall q, q <> p -> get q crashed = get q f \/ get q crashed = get q complete.
Proof.
  intros yaml sha1 dumps version specs dir st defaults l cd envs f k E; cbv zeta.
  rewrite <- C21_operations_are_update; apply crash_spec.
  exact (proj2 (C19_distinct_cache_files yaml sha1 specs dir st defaults l cd E)).
Qed.

(** Running update again repairs the cache: whatever state [f] a crash left behind,
    each source whose load and write succeed this time has its complete record. *)
Theorem C21_rerun_repairs :
  forall yaml sha1 dumps version specs dir st defaults l cache_dir envs f,
    init_from_sources yaml sha1 specs dir st defaults = Ok l ->
    (forall j s, nth_error l j = Some s ->
       exists d, sp_load_data (s_spec s) (e_net (envs j)) (s_args s) = Ok d /\
         sp_verify_data (s_spec s) d (s_args s) = Ok tt /\ e_write (envs j) = WriteOk) ->
    exists l' f', db_update sha1 dumps version envs false cache_dir l f = (l', f', Ok tt) /\
      forall j s, nth_error l j = Some s ->
        exists p s', source_path sha1 cache_dir s = Ok p /\ nth_error l' j = Some s' /\
          get p f' = Some (dumps (cache_record version s')).
Proof.
  intros yaml sha1 dumps version specs dir st defaults l cd envs f E Hall.
  destruct (C20_update_isolates yaml sha1 dumps version specs dir st defaults l cd envs f E) as
    (l' & f' & Er & _ & Hj & _).
  { intros j s g e Hs He; exfalso; destruct (Hall j s Hs) as (d & E1 & E2 & E3).
    unfold update_source in He.
    destruct (load_from_source_cases (envs j) s) as [(d' & F1 & F2 & F3)|(x & [F1|(d' & F1 & F2)] & F3)];
      try congruence.
    rewrite F3 in He; unfold save_to_cache in He.
    destruct (C19_distinct_cache_files yaml sha1 specs dir st defaults l cd E) as [Hok _].
    destruct (Hok s (nth_error_In _ _ Hs)) as [p Hp].
    match type of He with context [source_path sha1 cd ?x] => change (source_path sha1 cd x) with (source_path sha1 cd s) in He end.
    rewrite Hp, E3 in He; discriminate. }
  exists l', f'; split; [exact Er|]; intros j s Hs; destruct (Hj j s Hs) as (p & Hp & H1 & _).
  destruct (Hall j s Hs) as (d & E1 & E2 & E3); destruct (H1 d E1 E2) as (H2 & H3 & _).
  eexists p, _; split; [exact Hp|]; split; [exact H2|]; apply H3; exact E3.
Qed.

(** *** C22: corrupt or foreign cache files *)
Theorem C22_cache_load_exactly :
  forall sha1 loads cache_dir f s,
    (exists s', load_from_cache sha1 loads cache_dir f s = (s', Ok tt)) <->
    exists p bytes r d,
      source_path sha1 cache_dir s = Ok p /\ get p f = Some bytes /\ loads bytes = Ok (VDict r) /\
      (forall k, In k ["xylem_version"; "spec_name"; "spec_version"; "arguments"; "origin"; "data";
                       "time_data_loaded"]%string -> exists x, get (KStr (u k)) r = Some x) /\
      get (KStr (u "spec_name")) r = Some (VStr (sp_name (s_spec s))) /\
      sp_verify_arguments (s_spec s) (s_args s) = Ok tt /\
      get (KStr (u "data")) r = Some d /\ sp_verify_data (s_spec s) d (s_args s) = Ok tt.
Proof.
  intros sha1 loads cd f s; split.
  - intros [s' E]; destruct (load_from_cache_cases sha1 loads cd f s) as
      [(p & b & r & d & a & o & t & Hp & Hb & Hl & Hk & Hn & Ha & Hd & _ & _ & _ & Hv & _)|(x & Ex)]; [|congruence].
    exists p, b, r, d; split; [exact Hp|]; split; [exact Hb|]; split; [exact Hl|]; split; [|auto].
    intros k Hk'; apply Hk; change [k_xylem_version; k_spec_name; k_spec_version; k_arguments; k_origin; k_data; k_time]
      with (map (fun k => KStr (u k)) ["xylem_version"; "spec_name"; "spec_version"; "arguments"; "origin"; "data";
                       "time_data_loaded"]%string).
    apply in_map_iff; eauto.
  - intros (p & b & r & d & Hp & Hb & Hl & Hk & Hn & Ha & Hd & Hv).
    unfold load_from_cache; rewrite Hp; cbn [bind]; unfold read_cache; rewrite Hb, Hl; cbn [bind].
    assert (G : forall k, In k ["xylem_version"; "spec_name"; "spec_version"; "arguments"; "origin"; "data";
                       "time_data_loaded"]%string -> has (KStr (u k)) r = true).
    { intros k Hin; apply has_true; auto. }
    assert (Hs : verify_cache_structure (VDict r) = Ok tt).
    { cbn [verify_cache_structure forallb]; unfold k_xylem_version, k_spec_name, k_spec_version, k_arguments, k_origin, k_data, k_time.
      rewrite !G by (simpl; tauto); reflexivity. }
    rewrite Hs; cbn [bind]; unfold verify_cache_spec_name, item, getitem; unfold k_spec_name, k_data, k_arguments, k_origin, k_time.
    rewrite Hn; cbn [bind pyeq]; rewrite eqb_refl; cbn [bind]; rewrite Ha; cbn [bind]; rewrite Hd; cbn [bind].
    rewrite Hv; cbn [bind].
    destruct (Hk "arguments"%string) as [xa Ea]; [simpl; tauto|].
    destruct (Hk "origin"%string) as [xo Eo]; [simpl; tauto|].
    destruct (Hk "time_data_loaded"%string) as [xt Et]; [simpl; tauto|].
    rewrite Ea; cbn [bind]; rewrite Eo; cbn [bind]; rewrite Et; cbn [bind]; eauto.
Qed.

(** Otherwise the load raises and the source is unchanged. *)
Theorem C22_failed_cache_load :
  forall sha1 loads cache_dir f s s' r,
    load_from_cache sha1 loads cache_dir f s = (s', r) -> r <> Ok tt -> s' = s.
Proof.
  intros sha1 loads cd f s s' r E Hr.
  destruct (load_from_cache_cases sha1 loads cd f s) as
      [(p & b & r' & d & a & o & t & _ & _ & _ & _ & _ & _ & _ & _ & _ & _ & _ & Ex)|(x & Ex)]; congruence.
Qed.

(** A database load with raise_on_error stops at the first failing source; the
    sources behind it are untouched. *)
Theorem C22_database_load_stops :
  forall sha1 loads cache_dir l f l' f' e,
    db_load_from_cache sha1 loads true cache_dir l f = (l', f', Err e) ->
    f' = f /\
    exists l1 s l2 l1', l = l1 ++ s :: l2 /\ l' = l1' ++ s :: l2 /\
      Forall2 (fun a b => load_from_cache sha1 loads cache_dir f a = (b, Ok tt)) l1 l1' /\
      load_from_cache sha1 loads cache_dir f s = (s, Err e).
Proof.
  intros sha1 loads cd l f; unfold db_load_from_cache; generalize 0.
  induction l as [|s l IH]; intros i l' f' e E; simpl in E; [discriminate|].
  destruct (load_from_cache sha1 loads cd f s) as [s' [[]|x]] eqn:El.
  - destruct (for_sources _ true (S i) l f) as [[l'' f''] r] eqn:Ef; injection E as <- <- ->.
    destruct (IH _ _ _ _ Ef) as (-> & l1 & s1 & l2 & l1' & -> & -> & HF & He); split; [reflexivity|].
    exists (s :: l1), s1, l2, (s' :: l1'); auto 6.
  - simpl in E; injection E as <- <- ->.
    assert (s' = s) by (eapply C22_failed_cache_load; [exact El|discriminate]); subst s'.
    split; [reflexivity|]; exists [], s, l, []; auto 6.
Qed.

(** *** C23: validation of source lists *)
Definition one_entry_dict (v : pyval) : Prop := exists name args, v = VDict [(KStr name, args)].

Theorem C23_source_list_validation_partial :
  forall yaml data,
    (* invalid YAML: reported, treated as empty *)
    (yaml data = Err YAMLError -> parse_source_descriptions yaml data = Ok (VList [])) /\
    (* valid YAML *)
    (forall v, yaml data = Ok v ->
       ((exists l, v = VList l /\ Forall one_entry_dict l) \/ v = VDict [] \/ v = VStr [] ->
        parse_source_descriptions yaml data = Ok v) /\
       (~ ((exists l, v = VList l /\ Forall one_entry_dict l) \/ v = VDict [] \/ v = VStr []) ->
        parse_source_descriptions yaml data = Err ValueError)).
Proof.
  intros yaml data; unfold parse_source_descriptions; split; [intros ->; reflexivity|].
  intros v ->; cbn [bind].
  assert (G : forall x, (verify_source_description x = Ok tt /\ one_entry_dict x) \/
     ((verify_source_description x = Err ValueError \/ verify_source_description x = Err TypeError) /\ ~ one_entry_dict x)).
  { intros x; destruct x as [| | | | | |[|[k y] [|q d]]];
      try (right; split; [left; reflexivity|intros (n & a & E); discriminate]).
    all: destruct k; try (right; split; [right; reflexivity|intros (n & a & E); discriminate]);
      try (right; split; [left; reflexivity|intros (n & a & E); discriminate]).
    left; split; [reflexivity|exists t, y; reflexivity]. }
  assert (L : forall l, (forM_ verify_source_description l = Ok tt /\ Forall one_entry_dict l) \/
     ((forM_ verify_source_description l = Err ValueError \/ forM_ verify_source_description l = Err TypeError) /\
      ~ Forall one_entry_dict l)).
  { induction l as [|x l IH]; simpl; [left; auto|].
    destruct (G x) as [[-> Hx]|[[-> | ->] Hx]]; cbn [bind].
    - destruct IH as [[-> Hl]|[Hl Hf]]; [left; auto|right; split; [exact Hl|]].
      intros F; apply Hf; exact (Forall_inv_tail F).
    - right; split; [auto|]; intros F; apply Hx; exact (Forall_inv F).
    - right; split; [auto|]; intros F; apply Hx; exact (Forall_inv F). }
  assert (C : (verify_source_description_list v = Ok tt /\
               ((exists l, v = VList l /\ Forall one_entry_dict l) \/ v = VDict [] \/ v = VStr [])) \/
              (verify_source_description_list v = Err ValueError /\
               ~ ((exists l, v = VList l /\ Forall one_entry_dict l) \/ v = VDict [] \/ v = VStr []))).
  { destruct v as [|b|z|t|t|l|d];
      try (right; split; [reflexivity|intros [(l & E & _)|[E|E]]; discriminate]).
    - destruct t; [left; auto|right; split; [reflexivity|intros [(l & E & _)|[E|E]]; discriminate]].
    - unfold verify_source_description_list.
      destruct (L l) as [[-> Hl]|[[-> | ->] Hl]]; [left; eauto| |];
        (right; split; [reflexivity|]; intros [(l' & E & F)|[E|E]]; [injection E as ->; auto|discriminate..]).
    - destruct d; [left; auto|right; split; [reflexivity|intros [(l & E & _)|[E|E]]; discriminate]]. }
  destruct C as [[-> HC]|[-> HC]]; cbn [bind]; split; intros H; try reflexivity; contradiction.
Qed.

(** An empty mapping or an empty text is accepted although it is no list. *)
Theorem C23_non_list_accepted_refuted :
  exists yaml data v, yaml data = Ok v /\ parse_source_descriptions yaml data = Ok v /\ forall l, v <> VList l.
Proof.
  exists (fun _ => Ok (VDict [])), (u "{}"), (VDict []); split; [reflexivity|]; split; [reflexivity|discriminate].
Qed.

(** *** C24: selection of source list files *)
Definition hidden (name : text) : Prop := exists t, name = 46%N :: t.
Definition is_yaml (name : text) : Prop := exists t, name = t ++ u ".yaml".

Lemma ends_with_spec suffix t : ends_with suffix t = true <-> exists p, t = p ++ suffix.
Proof.
  assert (P : forall p t, is_prefix p t = true <-> exists q, t = p ++ q).
  { induction p as [|a p IH]; intros t'; simpl; [split; eauto|].
    destruct t' as [|b t']; [split; [discriminate|intros [q E]; discriminate]|].
    rewrite andb_true_iff, eqb_eq, IH; split.
    - intros [-> [q ->]]; eauto.
    - intros [q E]; injection E as -> ->; eauto. }
  unfold ends_with; rewrite P; split; intros [q E].
  - exists (rev q); rewrite <- (rev_involutive t), E, rev_app_distr, rev_involutive; reflexivity.
  - exists (rev q); rewrite E, rev_app_distr; reflexivity.
Qed.

(** What is read: the regular files whose path ends in .yaml, provided the path of
    the directory itself does not start with a dot.  Defaults are used iff the
    directory is missing. *)
Theorem C24_selection_partial :
  forall dir st,
    (get_source_files dir st = Ok None <-> st = Missing) /\
    (forall l files, st = Listing l -> get_source_files dir st = Ok (Some files) ->
     forall path content,
       In (path, content) files <->
       exists e, In e l /\ path = path_join dir (de_name e) /\ content = de_read e /\
                 de_isfile e = true /\ is_yaml path /\ ~ hidden path).
Proof.
  intros dir st; split.
  - destruct st; simpl; split; congruence.
  - intros l files -> E path content; simpl in E; injection E as <-.
    rewrite in_map_iff; split.
    + intros ([q e] & E & Hin); simpl in E; injection E as -> <-.
      apply filter_In in Hin; destruct Hin as [Hin Hs]; apply in_map_iff in Hin.
      destruct Hin as (e' & E & Hin); injection E as <- ->; exists e.
      unfold source_file_selected in Hs; cbn [fst snd] in Hs; rewrite !andb_true_iff, negb_true_iff, ends_with_spec in Hs.
      destruct Hs as [[Hh Hy] Hf]; split; [exact Hin|]; split; [reflexivity|]; split; [reflexivity|].
      split; [exact Hf|]; split; [exact Hy|]; intros [t Et]; rewrite Et in Hh; discriminate.
    + intros (e & Hin & -> & -> & Hf & Hy & Hh); exists (path_join dir (de_name e), e); split; [reflexivity|].
      apply filter_In; split; [apply in_map_iff; eauto|].
      unfold source_file_selected; cbn [fst snd]; rewrite Hf, (proj2 (ends_with_spec _ _) Hy).
      destruct (path_join dir (de_name e)) as [|c p]; [reflexivity|]; simpl.
      destruct (eqb_spec c 46%N) as [->|]; [elim Hh; exists p; reflexivity|reflexivity].
Qed.

(** Hidden files are read, and all files are ignored below a relative directory
    whose path starts with a dot. *)
Theorem C24_hidden_files_refuted :
  (exists dir e path, hidden (de_name e) /\
     get_source_files dir (Listing [e]) = Ok (Some [(path, de_read e)])) /\
  (exists dir e, ~ hidden (de_name e) /\ is_yaml (de_name e) /\ de_isfile e = true /\
     get_source_files dir (Listing [e]) = Ok (Some [])).
Proof.
  split.
  - exists (u "/etc/xylem/sources.d"), {| de_name := u ".old.yaml"; de_isfile := true; de_read := Ok [] |}.
    eexists; split; [exists (u "old.yaml"); reflexivity|reflexivity].
  - exists (u "./sources.d"), {| de_name := u "10-base.yaml"; de_isfile := true; de_read := Ok [] |}.
    split; [intros [t E]; discriminate|]; split; [exists (u "10-base"); reflexivity|split; reflexivity].
Qed.

(** *** A concrete configuration, for non-vacuity and refutations *)
Definition x_listing : text := u "- rules: http://a".
Definition x_rules : text := u "boost: {ubuntu: libboost}".
Definition x_yaml (t : text) : res pyval :=
  if eqb t x_listing then Ok (VList [VDict [(KStr (u "rules"), VStr (u "http://a"))];
                                     VDict [(KStr (u "rules"), VStr (u "http://b"))]])
  else if eqb t x_rules then Ok (VDict [(KStr (u "boost"), VDict [(KStr (u "ubuntu"), VStr (u "libboost"))])])
  else Err YAMLError.
Definition x_uni (_ : N) : bool := false.
Definition x_spec : spec := rules_spec x_uni x_yaml.
Definition x_dir : dir_state := Listing [{| de_name := u "10.yaml"; de_isfile := true; de_read := Ok x_listing |}].
(** Only source a can be downloaded. *)
Definition x_envs (_ : nat) : step_env := {|
  e_net := fun url => if eqb url (u "http://a") then Ok x_rules else Err DownloadFailure;
  e_now := VOther (u "now"); e_write := WriteOk |}.
Definition x_source (url : string) : source := {|
  s_spec := x_spec; s_args := VStr (u url); s_origin := VStr (u "/s/10.yaml"); s_data := VNone; s_time := VNone |}.
Definition x_data : pyval :=
  VDict [(KStr (u "boost"), VDict [(KStr (u "ubuntu"), VDict [(KStr (u "any_version"),
    VDict [(KStr (u "default_installer"), VDict [(KStr (u "packages"), VList [VStr (u "libboost")])])])])])].
Definition x_sha1 (t : text) : list N := t.
Definition x_source_loaded : source := {|
  s_spec := x_spec; s_args := VStr (u "http://a"); s_origin := VStr (u "/s/10.yaml");
  s_data := x_data; s_time := VOther (u "now") |}.

Example C19_nonvacuous :
  init_from_sources x_yaml x_sha1 [x_spec] (u "/s") x_dir [] = Ok [x_source "http://a"; x_source "http://b"].
Proof. reflexivity. Qed.

(** Two sources with the same arguments are refused. *)
Example C19_duplicate_refused :
  verify_unique_ids x_sha1 [x_source "http://a"; x_source "http://b"; x_source "http://a"] = Err RuntimeError.
Proof. vm_compute; reflexivity. Qed.

(** One source succeeds, one fails; hypotheses of C20 hold. *)
Example C20_nonvacuous :
  (forall j s g e, nth_error [x_source "http://a"; x_source "http://b"] j = Some s ->
     snd (update_source x_sha1 Codec.enc VNone x_envs (u "/c") j s g) = Err e -> is_Exception e = true) /\
  fst (fst (db_update x_sha1 Codec.enc VNone x_envs false (u "/c") [x_source "http://a"; x_source "http://b"] [])) =
    [x_source_loaded; x_source "http://b"] /\
  map fst (snd (fst (db_update x_sha1 Codec.enc VNone x_envs false (u "/c") [x_source "http://a"; x_source "http://b"] []))) =
    [u "/c/687474703a2f2f61.pickle"].
Proof.
  split; [|split; reflexivity].
  intros [|[|j]] s g e; simpl; intros E; try (injection E as <-); vm_compute; intros E';
    try (injection E' as <-; reflexivity); try discriminate.
  destruct j; discriminate.
Qed.

Example C08_nonvacuous :
  let s2 := {| s_spec := x_spec; s_args := VStr (u "http://b"); s_origin := VNone; s_time := VNone;
     s_data := VDict [(KStr (u "boost"), VDict [(KStr (u "ubuntu"), VDict [(KStr (u "any_version"),
       VDict [(KStr (u "apt"), VDict []); (KStr (u "pip"), VDict [])])])])] |} in
  let ic := {| ic_os := u "ubuntu"; ic_version := u "xenial"; ic_default := Some (u "apt") |} in
  db_lookup x_uni [x_source_loaded; s2] (u "boost") ic =
    Ok [(KStr (u "apt"), VDict [(KStr (u "packages"), VList [VStr (u "libboost")])]); (KStr (u "pip"), VDict [])] /\
  db_lookup x_uni [s2; x_source_loaded] (u "boost") ic =
    Ok [(KStr (u "apt"), VDict []); (KStr (u "pip"), VDict [])] /\
  db_keys [x_source_loaded; s2] ic = Ok [KStr (u "boost")] /\
  (* an unloaded source makes the lookup fail *)
  db_lookup x_uni [x_source "http://a"] (u "boost") ic = Err AttributeError.
Proof. repeat split; vm_compute; reflexivity. Qed.

Lemma veq_refl v : veq v v.
Proof.
  induction v as [|b|z|t|t|l IH|d IH] using pyval_ind'; try (apply veq_atom; exact I).
  - apply veq_list; induction IH; constructor; assumption.
  - apply veq_dict with (e := d); [reflexivity|]; induction IH; constructor; auto.
Qed.

(** The hypotheses of C17 are satisfiable: a decodable format, a verified source. *)
Example C17_nonvacuous :
  (forall v, exists v', Codec.dec_all (Codec.enc v) = Ok v' /\ veq v v') /\
  sp_verify_arguments x_spec (s_args x_source_loaded) = Ok tt /\
  sp_verify_data x_spec (s_data x_source_loaded) (s_args x_source_loaded) = Ok tt /\
  (let f := fst (save_to_cache x_sha1 Codec.enc VNone (x_envs 0) (u "/c") x_source_loaded []) in
   load_from_cache x_sha1 Codec.dec_all (u "/c") f (x_source "http://a") = (x_source_loaded, Ok tt)).
Proof.
  split; [intros v; exists v; split; [apply Codec.dec_all_enc|apply veq_refl]|].
  repeat split; vm_compute; reflexivity.
Qed.

Example C18_nonvacuous :
  new_source x_spec (VStr (u "http://a")) (VStr (u "/s/10.yaml")) = Ok (x_source "http://a") /\
  s_data (run_source_ops x_sha1 Codec.enc Codec.dec_all VNone (x_source "http://a")
    [OpLoadSource (x_envs 0);
     OpLoadCache (u "/c") [(u "/c/687474703a2f2f61.pickle", u "garbage")];
     OpSave (x_envs 0) (u "/c") []]) = x_data.
Proof. split; [reflexivity|vm_compute; reflexivity]. Qed.

(** The file being written is not replaced atomically: after a crash its content is
    neither the old nor the new one, and reading it fails. *)
Theorem C21_atomic_replacement_refuted :
  exists l f k p,
    init_from_sources x_yaml x_sha1 [x_spec] (u "/s") x_dir [] = Ok l /\
    let crashed := run_ops (firstn k (update_ops x_sha1 Codec.enc VNone x_envs (u "/c") 0 l)) f in
    let complete := snd (fst (db_update x_sha1 Codec.enc VNone x_envs false (u "/c") l f)) in
    get p crashed <> get p f /\ get p crashed <> get p complete /\
    snd (load_from_cache x_sha1 Codec.dec_all (u "/c") f (x_source "http://a")) = Ok tt /\
    snd (load_from_cache x_sha1 Codec.dec_all (u "/c") crashed (x_source "http://a")) <> Ok tt.
Proof.
  exists [x_source "http://a"; x_source "http://b"],
    (fst (save_to_cache x_sha1 Codec.enc (VInt 7) (x_envs 0) (u "/c") x_source_loaded [])), 5,
    (u "/c/687474703a2f2f61.pickle").
  split; [reflexivity|]; cbn zeta; split; [vm_compute; discriminate|].
  split; [vm_compute; discriminate|]; split; [vm_compute; reflexivity|vm_compute; discriminate].
Qed.

(** A cache record made for different arguments is accepted, and its arguments
    replace the source's own. *)
Theorem C22_foreign_arguments_refuted :
  exists f s', load_from_cache x_sha1 Codec.dec_all (u "/c") f (x_source "http://a") = (s', Ok tt) /\
    s_args s' = VStr (u "http://evil") /\ s_args (x_source "http://a") = VStr (u "http://a").
Proof.
  exists [(u "/c/687474703a2f2f61.pickle",
           Codec.enc (cache_record VNone {| s_spec := x_spec; s_args := VStr (u "http://evil");
             s_origin := VNone; s_data := x_data; s_time := VNone |}))].
  eexists; split; [reflexivity|]; split; vm_compute; reflexivity.
Qed.

(** *** C56: dry-run *)
Theorem C56_dry_run_refuted :
  (forall yaml sha1 dumps version ensure specs dir cd st defaults envs f,
     update yaml sha1 dumps version true ensure specs dir cd st defaults envs f =
     update yaml sha1 dumps version false ensure specs dir cd st defaults envs f) /\
  exists p, get p (fst (update x_yaml x_sha1 Codec.enc VNone true (Ok tt) [x_spec] (u "/s") (u "/c") x_dir [] x_envs []))
            <> get p [].
Proof.
  split; [reflexivity|]; exists (u "/c/687474703a2f2f61.pickle"); vm_compute; discriminate.
Qed.

(** *** C57: clearing the cache *)
Theorem C57_clear_cache_refuted :
  (forall cache_dir s f, clear_cache cache_dir s f = (f, Err TypeError)) /\
  (forall sha1 loads cache_dir f s p v,
     source_path sha1 cache_dir s = Ok p -> read_cache loads p f = Ok v ->
     is_cache_outdated sha1 loads cache_dir f s = Err TypeError).
Proof.
  split; [reflexivity|]; intros sha1 loads cd f s p v Hp Hr.
  unfold is_cache_outdated, is_cache_available; rewrite Hp; cbn [bind].
  assert (Hh : has p f = true).
  { unfold read_cache in Hr; destruct (get p f) eqn:E; [|discriminate]; apply has_true; eauto. }
  rewrite Hh; simpl; rewrite Hr; reflexivity.
Qed.

(** What remains: without a cache file the source is reported outdated. *)
Theorem C57_outdated_partial :
  forall sha1 loads cache_dir f s p,
    source_path sha1 cache_dir s = Ok p -> get p f = None ->
    is_cache_outdated sha1 loads cache_dir f s = Ok true.
Proof.
  intros sha1 loads cd f s p Hp Hg; unfold is_cache_outdated, is_cache_available; rewrite Hp; cbn [bind].
  apply has_false in Hg; rewrite Hg; reflexivity.
Qed.

Example C57_nonvacuous :
  let f := fst (save_to_cache x_sha1 Codec.enc VNone (x_envs 0) (u "/c") x_source_loaded []) in
  exists p v, source_path x_sha1 (u "/c") x_source_loaded = Ok p /\ read_cache Codec.dec_all p f = Ok v.
Proof. eexists _, _; vm_compute; split; reflexivity. Qed.

(** *** Priority of source list files *)

(** C61.  The order of the sources, hence their priority, follows the order in which
    the operating system lists the directory. *)
Theorem C61_source_order :
  forall yaml sha1 specs dir entries defaults l,
    init_from_sources yaml sha1 specs dir (Listing entries) defaults = Ok l ->
    exists groups,
      Forall2 (fun e g => match g with
                          | None => source_file_selected (path_join dir (de_name e)) e = false
                          | Some ss => source_file_selected (path_join dir (de_name e)) e = true /\
                                       Forall (fun s => s_origin s = VStr (path_join dir (de_name e))) ss
                          end) entries groups /\
      l = List.concat (map (fun g => match g with Some ss => ss | None => [] end) groups).
Proof.
  intros yaml sha1 specs dir entries defaults l E; unfold init_from_sources in E.
  cbn [get_source_files bind] in E; apply bind_Ok in E; destruct E as (ll & Hm & E).
  apply bind_Ok in E; destruct E as ([] & _ & E); injection E as <-.
  revert ll Hm; induction entries as [|e entries IH]; intros ll Hm; simpl in Hm.
  - injection Hm as <-; exists []; split; [constructor|reflexivity].
  - cbn [fst snd] in Hm; destruct (source_file_selected (path_join dir (de_name e)) e) eqn:Es.
    + simpl in Hm; apply bind_Ok in Hm; destruct Hm as (ss & Hss & Hm).
      apply bind_Ok in Hm; destruct Hm as (ll' & Hm & E); injection E as <-.
      destruct (IH _ Hm) as (groups & HF & Hl); exists (Some ss :: groups); split; [constructor; [|exact HF]|simpl; congruence].
      split; [exact Es|]; unfold init_file in Hss; cbn [fst snd] in Hss.
      apply bind_Ok in Hss; destruct Hss as (data & _ & Hss); apply bind_Ok in Hss; destruct Hss as (d & _ & Hss).
      apply mapM_Ok in Hss; clear - Hss; induction Hss as [|x s xs ss Hx F IH]; constructor; [|exact IH].
      unfold init_source in Hx; destruct x as [| | | | | |[|[[t| | |] a] ?]]; try discriminate.
      apply bind_Ok in Hx; destruct Hx as (sp & _ & Hx); unfold new_source in Hx.
      apply bind_Ok in Hx; destruct Hx as ([] & _ & Hx); injection Hx as <-; reflexivity.
    + destruct (IH _ Hm) as (groups & HF & Hl); exists (None :: groups); split; [constructor; assumption|exact Hl].
Qed.

(** Consequently the same directory listed in another order gives other priorities. *)
Theorem C61_priority_by_name_refuted :
  exists e1 e2 yaml l1 l2,
    init_from_sources yaml x_sha1 [x_spec] (u "/s") (Listing [e1; e2]) [] = Ok l1 /\
    init_from_sources yaml x_sha1 [x_spec] (u "/s") (Listing [e2; e1]) [] = Ok l2 /\ l1 <> l2.
Proof.
  set (yaml := fun t : text => Ok (VList [VDict [(KStr (u "rules"), VStr t)]]) : res pyval).
  exists {| de_name := u "10.yaml"; de_isfile := true; de_read := Ok (u "a") |},
    {| de_name := u "20.yaml"; de_isfile := true; de_read := Ok (u "b") |}, yaml.
  eexists _, _; split; [reflexivity|]; split; [reflexivity|].
  intros E; apply (f_equal (map s_args)) in E; vm_compute in E; discriminate.
Qed.

(** Ctrl-C during the download of the second source. *)
Example C20_interrupted_nonvacuous :
  let envs j := {| e_net := match j with 0 => e_net (x_envs 0) | _ => fun _ => Err KeyboardInterrupt end;
                   e_now := VOther (u "now"); e_write := WriteOk |} in
  let l := [x_source "http://a"; x_source "http://b"] in
  (forall j t g x, nth_error [x_source "http://a"] j = Some t ->
     snd (update_source x_sha1 Codec.enc VNone envs (u "/c") j t g) = Err x -> ~ interruption x) /\
  snd (db_update x_sha1 Codec.enc VNone envs false (u "/c") [x_source "http://a"] []) = Ok tt /\
  sp_load_data x_spec (e_net (envs 1)) (VStr (u "http://b")) = Err KeyboardInterrupt.
Proof.
  cbv zeta. split; [|split].
  - intros [|[|j]] t g x E; [|discriminate E|discriminate E]. injection E as <-. intros E. vm_compute in E. discriminate E.
  - vm_compute. reflexivity.
  - vm_compute. reflexivity.
Qed.

Print Assumptions C08_first_source_wins.
Print Assumptions C08_failure.
Print Assumptions C08_rules_database.
Print Assumptions C09_keys_union.
Print Assumptions C09_keys_complete.
Print Assumptions C17_cache_round_trip.
Print Assumptions C17_rules_spec.
Print Assumptions C18_only_verified_data.
Print Assumptions C18_rules_source.
Print Assumptions C18_failed_load_keeps_source.
Print Assumptions C19_distinct_cache_files.
Print Assumptions C19_save_does_not_interfere.
Print Assumptions C20_update_isolates.
Print Assumptions C20_interrupted.
Print Assumptions C21_operations_are_update.
Print Assumptions C21_crash_damages_at_most_one_file.
Print Assumptions C21_rerun_repairs.
Print Assumptions C21_atomic_replacement_refuted.
Print Assumptions C22_cache_load_exactly.
Print Assumptions C22_failed_cache_load.
Print Assumptions C22_database_load_stops.
Print Assumptions C22_foreign_arguments_refuted.
Print Assumptions C23_source_list_validation_partial.
Print Assumptions C23_non_list_accepted_refuted.
Print Assumptions C24_selection_partial.
Print Assumptions C24_hidden_files_refuted.
Print Assumptions C56_dry_run_refuted.
Print Assumptions C57_clear_cache_refuted.
Print Assumptions C57_outdated_partial.
Print Assumptions C61_source_order.
Print Assumptions C61_priority_by_name_refuted.
