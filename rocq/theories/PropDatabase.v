(** C115: [load_from_source], [save_to_cache] and [update] of the rules database. *)
From Verif Require Import Base Dict PyVal RulesDict RulesSpec Verify VerifySpec VerifyProofs VerifiedLookup
  Expand ExpandProofs Sources SourcesSpec SourcesProofs CacheProofs Order PropSources PropPipeline.
Notation S := Datatypes.S.

Section Database.
  Variable yaml : text -> res pyval.
  Variable sha1 : text -> list N.
  Variable dumps : pyval -> text.
  Variable loads : text -> res pyval.
  Variable version : pyval.

  (** Loading with [raise_on_error] off: no error, no file is touched, source number [j] is what it
      is after loading it alone. *)
  Theorem C115_load_all envs l f :
    (forall j s e, nth_error l j = Some s -> snd (load_from_source (envs j) s) = Err e -> is_Exception e = true) ->
    exists l', db_load_from_source envs false l f = (l', f, Ok tt) /\ List.length l' = List.length l /\
      forall j s, nth_error l j = Some s -> nth_error l' j = Some (fst (load_from_source (envs j) s)).
  Proof.
    unfold db_load_from_source. intros He.
    assert (X : forall i l, (forall j s e, nth_error l j = Some s -> snd (load_from_source (envs (i + j)) s) = Err e -> is_Exception e = true) ->
      exists l', for_sources (fun i s f => let '(s', r) := load_from_source (envs i) s in (s', f, r)) false i l f = (l', f, Ok tt) /\
        List.length l' = List.length l /\
        forall j s, nth_error l j = Some s -> nth_error l' j = Some (fst (load_from_source (envs (i + j)) s))); [|exact (X 0 l He)].
    clear l He. intros i l; revert i; induction l as [|s l IH]; intros i He; cbn [for_sources].
    - exists []. split; [reflexivity|]. split; [reflexivity|]. intros [|j] s E; discriminate E.
    - destruct (IH (S i)) as (l' & E & Hl & Hj).
      { intros j t e Ht. specialize (He (S j) t e Ht). rewrite Nat.add_succ_r in He. exact He. }
      specialize (He 0 s). rewrite Nat.add_0_r in He.
      destruct (load_from_source (envs i) s) as [s' r] eqn:El. rewrite E. exists (s' :: l'). split.
      { destruct r as [[]|e]; [reflexivity|]. rewrite (He e eq_refl eq_refl). reflexivity. }
      split; [cbn [List.length]; congruence|].
      intros [|j] t Ht.
      + injection Ht as <-. rewrite Nat.add_0_r, El. reflexivity.
      + cbn [nth_error] in Ht |- *. rewrite Nat.add_succ_r. apply (Hj j t Ht).
  Qed.

  (** With [raise_on_error] on, the exception is that of the first source that can not be loaded;
      the sources before it are loaded, it and those behind it are as before. *)
  Theorem C115_load_stops envs l f l' f' e :
    db_load_from_source envs true l f = (l', f', Err e) ->
    f' = f /\
    exists l1 s l2 l1', l = l1 ++ s :: l2 /\ l' = l1' ++ s :: l2 /\ List.length l1' = List.length l1 /\
      (forall j a b, nth_error l1 j = Some a -> nth_error l1' j = Some b -> load_from_source (envs j) a = (b, Ok tt)) /\
      load_from_source (envs (List.length l1)) s = (s, Err e).
  Proof.
    unfold db_load_from_source.
    assert (X : forall l i l', for_sources (fun i s f => let '(s', r) := load_from_source (envs i) s in (s', f, r)) true i l f = (l', f', Err e) ->
      f' = f /\ exists l1 s l2 l1', l = l1 ++ s :: l2 /\ l' = l1' ++ s :: l2 /\ List.length l1' = List.length l1 /\
      (forall j a b, nth_error l1 j = Some a -> nth_error l1' j = Some b -> load_from_source (envs (i + j)) a = (b, Ok tt)) /\
      load_from_source (envs (i + List.length l1)) s = (s, Err e)); [|exact (X l 0 l')].
    clear l l'. induction l as [|s l IH]; intros i l' E; cbn [for_sources] in E; [discriminate E|].
    destruct (load_from_source (envs i) s) as [s' [[]|x]] eqn:El.
    - destruct (for_sources _ true (S i) l f) as [[l'' f''] r] eqn:Ef. injection E as <- -> ->.
      destruct (IH _ _ Ef) as (-> & l1 & s1 & l2 & l1' & -> & -> & Hl & HF & He). split; [reflexivity|].
      exists (s :: l1), s1, l2, (s' :: l1'). split; [reflexivity|]. split; [reflexivity|].
      split; [cbn [List.length]; congruence|]. split.
      + intros [|j] a b Ha Hb.
        * injection Ha as <-. injection Hb as <-. rewrite Nat.add_0_r. exact El.
        * rewrite Nat.add_succ_r. apply (HF j a b Ha Hb).
      + cbn [List.length]. rewrite Nat.add_succ_r. exact He.
    - cbn [orb] in E. injection E as <- -> ->.
      assert (s' = s).
      { unfold load_from_source in El. destruct (let* d := _ in _) as [d|y]; congruence. }
      subst s'. split; [reflexivity|]. exists [], s, l, []. split; [reflexivity|]. split; [reflexivity|].
      split; [reflexivity|]. split; [intros [|j] a b D; discriminate D|]. cbn [List.length]. rewrite Nat.add_0_r. exact El.
  Qed.

  (** With [raise_on_error] on, loading everything and then saving everything succeeds exactly if
      update does, with the same sources and the same files. *)
  Theorem C115_load_save_update envs cache_dir l f l' f' :
    db_update sha1 dumps version envs true cache_dir l f = (l', f', Ok tt) <->
    db_load_from_source envs true l f = (l', f, Ok tt) /\
    db_save_to_cache sha1 dumps version envs true cache_dir l' f = (l', f', Ok tt).
  Proof.
    unfold db_update, db_load_from_source, db_save_to_cache.
    set (ld := fun i s f => let '(s', r) := load_from_source (envs i) s in (s', f, r)).
    set (sv := fun i s f => let '(f', r) := save_to_cache sha1 dumps version (envs i) cache_dir s f in (s, f', r)).
    assert (L : forall i l f l1 f1, for_sources ld true i l f = (l1, f1, Ok tt) ->
                forall g, for_sources ld true i l g = (l1, g, Ok tt)).
    { clear. intros i l; revert i; induction l as [|s l IH]; intros i f l1 f1 E g; cbn [for_sources] in *.
      - injection E as <- _. reflexivity.
      - unfold ld in E at 1. unfold ld at 1. destruct (load_from_source (envs i) s) as [s' [[]|x]]; [|discriminate E].
        destruct (for_sources ld true (S i) l f) as [[l'' f''] r] eqn:Ef. injection E as <- -> ->.
        rewrite (IH _ _ _ _ Ef g). reflexivity. }
    generalize 0 as i. revert f l' f'. induction l as [|s l IH]; intros f l' f' i; cbn [for_sources].
    - split.
      + intros E. injection E as <- <-. split; reflexivity.
      + intros [E1 E2]. injection E1 as <-. cbn [for_sources] in E2. injection E2 as <-. reflexivity.
    - unfold update_source at 1. unfold ld at 1. destruct (load_from_source (envs i) s) as [s' [[]|x]] eqn:El.
      2:{ cbn [orb]. split; [discriminate|intros [D _]; discriminate D]. }
      destruct (save_to_cache sha1 dumps version (envs i) cache_dir s' f) as [f1 r1] eqn:Es.
      split.
      + intros E. destruct r1 as [[]|x]; [|discriminate E].
        destruct (for_sources (update_source sha1 dumps version envs cache_dir) true (S i) l f1) as [[l2 f2] r2] eqn:Eu.
        injection E as <- <- ->. apply IH in Eu. destruct Eu as [E1 E2].
        rewrite (L _ _ _ _ _ E1 f). split; [reflexivity|].
        cbn [for_sources]. unfold sv at 1. rewrite Es, E2. reflexivity.
      + intros [E1 E2]. destruct (for_sources ld true (S i) l f) as [[l2 f2] r2] eqn:Ed.
        injection E1 as <- -> ->. cbn [for_sources] in E2. unfold sv in E2 at 1. rewrite Es in E2.
        destruct r1 as [[]|x]; [|discriminate E2].
        destruct (for_sources sv true (S i) l2 f1) as [[l3 f3] r3] eqn:E3. injection E2 as -> -> ->.
        assert (Eu : for_sources (update_source sha1 dumps version envs cache_dir) true (S i) l f1 = (l2, f', Ok tt)).
        { apply IH. split; [exact (L _ _ _ _ _ Ed f1)|exact E3]. }
        rewrite Eu. reflexivity.
  Qed.

  (** Saving with [raise_on_error] off: no error, the sources are as before, and each source's file
      is what saving it alone makes of it; no other file is touched. *)
  Definition saved (w : write_outcome) (before : option text) (bytes : text) : option text :=
    match w with WriteOk => Some bytes | OpenFails _ => before | WriteFails n _ => Some (firstn n bytes) end.

  Lemma save_all envs cd l : forall i f,
    (forall j s e, nth_error l j = Some s ->
       (e_write (envs (i + j)) = OpenFails e \/ exists n, e_write (envs (i + j)) = WriteFails n e) -> is_Exception e = true) ->
    (forall s, In s l -> exists p, source_path sha1 cd s = Ok p) ->
    (forall j k s t p, nth_error l j = Some s -> nth_error l k = Some t ->
       source_path sha1 cd s = Ok p -> source_path sha1 cd t = Ok p -> j = k) ->
    exists f', for_sources (fun i s f => let '(f', r) := save_to_cache sha1 dumps version (envs i) cd s f in (s, f', r)) false i l f
        = (l, f', Ok tt) /\
      (forall q, (forall s, In s l -> source_path sha1 cd s <> Ok q) -> get q f' = get q f) /\
      (forall j s p, nth_error l j = Some s -> source_path sha1 cd s = Ok p ->
        get p f' = saved (e_write (envs (i + j))) (get p f) (dumps (cache_record version s))).
  Proof.
    induction l as [|s l IH]; intros i f Hw Hp Hd; cbn [for_sources].
    - exists f. split; [reflexivity|]. split; [reflexivity|]. intros [|j] s p D; discriminate D.
    - destruct (Hp s (or_introl eq_refl)) as (p & Ep).
      pose proof (fun e => Hw 0 s e eq_refl) as W0. rewrite Nat.add_0_r in W0.
      assert (Step : exists f1 r, save_to_cache sha1 dumps version (envs i) cd s f = (f1, r) /\
                (forall e, r = Err e -> is_Exception e = true) /\
                forall q, get q f1 = if eqb q p then saved (e_write (envs i)) (get p f) (dumps (cache_record version s)) else get q f).
      { unfold save_to_cache. rewrite Ep. destruct (e_write (envs i)) as [|e|n e]; cbn [write_cache saved].
        - do 2 eexists. split; [reflexivity|]. split; [discriminate|]. intros q. rewrite get_set. reflexivity.
        - do 2 eexists. split; [reflexivity|]. split; [intros x X; injection X as <-; apply W0; auto|].
          intros q. destruct (eqb_spec q p) as [->|_]; reflexivity.
        - do 2 eexists. split; [reflexivity|]. split; [intros x X; injection X as <-; apply W0; eauto|].
          intros q. rewrite get_set. reflexivity. }
      destruct Step as (f1 & r & Es & Hr & G). rewrite Es.
      destruct (IH (S i) f1) as (f' & E & Hq & Hj).
      { intros j t e Ht. specialize (Hw (S j) t e Ht). rewrite Nat.add_succ_r in Hw. exact Hw. }
      { intros t Ht. apply Hp. right; exact Ht. }
      { intros j k a b q Ha Hb Qa Qb. assert (S j = S k) as X by (apply (Hd (S j) (S k) a b q); assumption). congruence. }
      exists f'. rewrite E. split.
      { destruct r as [[]|e]; [reflexivity|]. rewrite (Hr e eq_refl). reflexivity. }
      split.
      + intros q Hn. rewrite Hq by (intros t Ht; apply Hn; right; exact Ht).
        rewrite G. destruct (eqb_spec q p) as [->|_]; [|reflexivity].
        exfalso. apply (Hn s (or_introl eq_refl) Ep).
      + intros [|j] t q Ht Hq'.
        * injection Ht as <-. assert (q = p) by congruence. subst q. rewrite Nat.add_0_r.
          rewrite Hq; [rewrite G, eqb_refl; reflexivity|].
          intros t Ht D. apply In_nth_error in Ht as (k & Hk).
          assert (0 = S k) as X by (apply (Hd 0 (S k) s t p); auto). discriminate X.
        * rewrite Nat.add_succ_r. rewrite (Hj j t q Ht Hq'). rewrite G.
          destruct (eqb_spec q p) as [->|_]; [|reflexivity].
          assert (0 = S j) as X by (apply (Hd 0 (S j) s t p); auto). discriminate X.
  Qed.

  Theorem C115_save_all specs dir st defaults l cache_dir envs f :
    init_from_sources yaml sha1 specs dir st defaults = Ok l ->
    (forall j s e, nth_error l j = Some s ->
       (e_write (envs j) = OpenFails e \/ exists n, e_write (envs j) = WriteFails n e) -> is_Exception e = true) ->
    exists f', db_save_to_cache sha1 dumps version envs false cache_dir l f = (l, f', Ok tt) /\
      (forall q, (forall s, In s l -> source_path sha1 cache_dir s <> Ok q) -> get q f' = get q f) /\
      (forall j s, nth_error l j = Some s -> exists p, source_path sha1 cache_dir s = Ok p /\
        get p f' = saved (e_write (envs j)) (get p f) (dumps (cache_record version s))).
  Proof.
    intros Hi Hw. destruct (C19_distinct_cache_files yaml sha1 specs dir st defaults l cache_dir Hi) as [Hok Hd].
    destruct (save_all envs cache_dir l 0 f Hw Hok Hd) as (f' & E & Hq & Hj).
    exists f'. split; [exact E|]. split; [exact Hq|]. intros j s Hs.
    destruct (Hok s (nth_error_In _ _ Hs)) as (p & Hp). exists p. split; [exact Hp|]. exact (Hj j s p Hs Hp).
  Qed.

  (** A source that was never loaded: update leaves its cache file as it is if it can not be loaded
      (C20); loading everything and then saving everything, with [raise_on_error] off, replaces it
      by one without data, which can not be loaded any more. *)
  Lemma load_keeps_path e cd s : source_path sha1 cd (fst (load_from_source e s)) = source_path sha1 cd s.
  Proof. unfold load_from_source. destruct (let* d := _ in _); reflexivity. Qed.

  Theorem C115_failed_overwritten_refuted specs dir st defaults l cache_dir envs f j s p :
    (forall v, exists v', loads (dumps v) = Ok v' /\ veq v v') ->
    init_from_sources yaml sha1 specs dir st defaults = Ok l ->
    (forall j s e, nth_error l j = Some s -> snd (load_from_source (envs j) s) = Err e -> is_Exception e = true) ->
    (forall j, e_write (envs j) = WriteOk) ->
    nth_error l j = Some s -> source_path sha1 cache_dir s = Ok p ->
    (* source number j can not be loaded and has not been loaded before *)
    (exists e, snd (load_from_source (envs j) s) = Err e) -> s_data s = VNone ->
    exists l1 f1,
      db_load_from_source envs false l f = (l1, f, Ok tt) /\
      db_save_to_cache sha1 dumps version envs false cache_dir l1 f = (l1, f1, Ok tt) /\
      (* its cache file no longer has data, whatever it was *)
      get p f1 = Some (dumps (cache_record version s)) /\
      (sp_verify_data (s_spec s) VNone (s_args s) <> Ok tt ->
       exists e, snd (load_from_cache sha1 loads cache_dir f1 s) = Err e) /\
      (* update would have left it alone *)
      exists l2 f2, db_update sha1 dumps version envs false cache_dir l f = (l2, f2, Ok tt) /\ get p f2 = get p f.
  Proof.
    intros Hrt Hinit Hexc Hw Hj Hp (e & He) Hd.
    destruct (C19_distinct_cache_files yaml sha1 specs dir st defaults l cache_dir Hinit) as [Hok Hdist].
    destruct (C115_load_all envs l f Hexc) as (l1 & El & Hlen & Hl1).
    assert (Back : forall k t, nth_error l1 k = Some t -> exists t0, nth_error l k = Some t0 /\ t = fst (load_from_source (envs k) t0)).
    { intros k t Ht. destruct (nth_error l k) as [t0|] eqn:E.
      - exists t0. split; [reflexivity|]. rewrite (Hl1 k t0 E) in Ht. injection Ht as <-. reflexivity.
      - apply nth_error_None in E. assert (X : nth_error l1 k <> None) by congruence. apply nth_error_Some in X. lia. }
    destruct (save_all envs cache_dir l1 0 f) as (f1 & Es & _ & Hc).
    { intros k t x _ [D|(n & D)]; rewrite Hw in D; discriminate D. }
    { intros t Ht. apply In_nth_error in Ht as (k & Hk). destruct (Back k t Hk) as (t0 & H0 & ->).
      rewrite load_keeps_path. apply Hok. exact (nth_error_In _ _ H0). }
    { intros k m a b q Ha Hb Qa Qb. destruct (Back k a Ha) as (a0 & Ha0 & ->). destruct (Back m b Hb) as (b0 & Hb0 & ->).
      rewrite load_keeps_path in Qa, Qb. exact (Hdist k m a0 b0 q Ha0 Hb0 Qa Qb). }
    exists l1, f1. split; [exact El|]. split; [exact Es|].
    assert (Same : load_from_source (envs j) s = (s, Err e)).
    { destruct (load_from_source_cases (envs j) s) as [(d & _ & _ & E)|(x & _ & E)]; rewrite E in He |- *; [discriminate He|].
      injection He as <-. reflexivity. }
    assert (G : get p f1 = Some (dumps (cache_record version s))).
    { specialize (Hc j s p). rewrite (Hl1 j s Hj), Same in Hc. rewrite (Hc eq_refl Hp), Hw. reflexivity. }
    split; [exact G|]. split.
    - intros Hv. destruct (load_from_cache_cases sha1 loads cache_dir f1 s) as
        [(q & bytes & r & d & a & o & t & Q & B & L & _ & _ & _ & D & _ & _ & _ & V & _)|(x & E)]; [|rewrite E; cbn [snd]; eauto].
      exfalso. assert (q = p) by congruence. subst q. rewrite G in B. injection B as <-.
      destruct (Hrt (cache_record version s)) as (v' & Lv & Hveq). rewrite L in Lv. injection Lv as <-.
      unfold cache_record in Hveq.
      match type of Hveq with veq (VDict ?d0) _ => assert (Wd : wf d0) by
        (unfold wf, keys; cbn [map fst]; repeat constructor; cbn; intuition discriminate) end.
      destruct (veq_get _ _ k_data Wd Hveq) as (r' & Er & Hg). injection Er as <-.
      change (get k_data _) with (Some (s_data s)) in Hg at 1. cbn iota in Hg. destruct Hg as (x' & Gx & Hx).
      rewrite Hd in Hx. apply veq_cases in Hx. cbn in Hx. subst x'. assert (d = VNone) by congruence. subst d. contradiction.
    - destruct (C20_update_isolates yaml sha1 dumps version specs dir st defaults l cache_dir envs f Hinit) as (l2 & f2 & Eu & _ & Hu & _).
      { intros k t g x Ht Hx. unfold update_source in Hx.
        destruct (load_from_source (envs k) t) as [t' [[]|y]] eqn:Elt.
        - destruct (Hok t (nth_error_In _ _ Ht)) as (q & Hq).
          assert (Hq' : source_path sha1 cache_dir t' = Ok q) by (rewrite <- Hq, <- (load_keeps_path (envs k) cache_dir t), Elt; reflexivity).
          unfold save_to_cache in Hx. rewrite Hq', Hw in Hx. discriminate Hx.
        - cbn [snd] in Hx. injection Hx as <-. apply (Hexc k t y Ht). rewrite Elt. reflexivity. }
      exists l2, f2. split; [exact Eu|]. destruct (Hu j s Hj) as (q & Hq & _ & Hf). assert (q = p) by congruence. subst q.
      apply Hf. intros d Hd1 Hd2. unfold load_from_source in Same. rewrite Hd1 in Same. cbn [bind] in Same. rewrite Hd2 in Same.
      discriminate Same.
  Qed.
End Database.

(** Non-vacuity: source b is down, and its cache file is there. *)
Example C115_nonvacuous :
  let l := [x_source "http://a"; x_source "http://b"] in
  init_from_sources x_yaml x_sha1 [x_spec] (u "/s") x_dir [] = Ok l /\
  (forall j s e, nth_error l j = Some s -> snd (load_from_source (x_envs j) s) = Err e -> is_Exception e = true) /\
  (forall j, e_write (x_envs j) = WriteOk) /\
  source_path x_sha1 (u "/c") (x_source "http://b") = Ok (u "/c/687474703a2f2f62.pickle") /\
  (exists bytes, get (u "/c/687474703a2f2f62.pickle") y_fs = Some bytes) /\
  (exists s, load_from_cache x_sha1 Codec.dec_all (u "/c") y_fs (x_source "http://b") = (s, Ok tt)) /\
  (exists e, snd (load_from_source (x_envs 1) (x_source "http://b")) = Err e) /\
  s_data (x_source "http://b") = VNone /\
  sp_verify_data x_spec VNone (VStr (u "http://b")) <> Ok tt.
Proof.
  intros l. split; [reflexivity|]. split; [|split; [reflexivity|]].
  - intros [|[|j]] s e Hs He; [injection Hs as <-|injection Hs as <-|destruct j; discriminate Hs]; vm_compute in He;
      [discriminate He|injection He as <-; reflexivity].
  - split; [vm_compute; reflexivity|]. split; [eexists; unfold y_fs; rewrite get_cons, eqb_refl; reflexivity|].
    split.
    { assert (E : snd (load_from_cache x_sha1 Codec.dec_all (u "/c") y_fs (x_source "http://b")) = Ok tt) by (vm_compute; reflexivity).
      destruct (load_from_cache x_sha1 Codec.dec_all (u "/c") y_fs (x_source "http://b")) as [s r]. cbn [snd] in E. rewrite E. eauto. }
    split; [exists DownloadFailure; vm_compute; reflexivity|].
    split; [reflexivity|]. intros D. vm_compute in D. discriminate D.
Qed.

Print Assumptions C115_load_all.
Print Assumptions C115_load_stops.
Print Assumptions C115_load_save_update.
Print Assumptions C115_save_all.
Print Assumptions C115_failed_overwritten_refuted.
