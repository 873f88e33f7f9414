(** Proofs about cache files, updates and crashes. *)
From Verif Require Import Base Dict PyVal RulesDict RulesSpec RulesLookupProofs Verify VerifySpec VerifyProofs
  VerifiedLookup Expand Sources SourcesSpec Crash.

(** ** [veq] *)
Lemma veq_dict_inv d v : veq (VDict d) v ->
  exists e d', v = VDict d' /\ Permutation d e /\
    Forall2 (fun p q => fst p = fst q /\ veq (snd p) (snd q)) e d'.
Proof. intros H; inversion H; subst; [elim H0|]; eauto. Qed.

Lemma veq_list_inv l v : veq (VList l) v -> exists l', v = VList l' /\ Forall2 veq l l'.
Proof. intros H; inversion H; subst; [elim H0|]; eauto. Qed.

Lemma veq_str_inv t v : veq (VStr t) v -> v = VStr t.
Proof. intros H; inversion H; subst; reflexivity. Qed.

Lemma Forall2_In_r {A B} (P : A -> B -> Prop) l l' y :
  Forall2 P l l' -> In y l' -> exists x, In x l /\ P x y.
Proof.
  intros F; induction F as [|a b l l' Hab F IH]; simpl; [tauto|].
  intros [<-|Hy]; [eauto|]; destruct (IH Hy) as (x & Hx & Hp); eauto.
Qed.

Lemma Forall2_In_l {A B} (P : A -> B -> Prop) l l' x :
  Forall2 P l l' -> In x l -> exists y, In y l' /\ P x y.
Proof.
  intros F; induction F as [|a b l l' Hab F IH]; simpl; [tauto|].
  intros [<-|Hx]; [eauto|]; destruct (IH Hx) as (y & Hy & Hp); eauto.
Qed.

(** Entries of an equal dict come from entries of the original. *)
Lemma veq_dict_In d v : veq (VDict d) v ->
  exists d', v = VDict d' /\
    (forall k x', In (k, x') d' -> exists x, In (k, x) d /\ veq x x') /\
    (forall k x, In (k, x) d -> exists x', In (k, x') d' /\ veq x x') /\
    (wf d -> wf d').
Proof.
  intros H; apply veq_dict_inv in H; destruct H as (e & d' & -> & Hp & HF).
  exists d'; split; [reflexivity|]; split; [|split].
  - intros k x' Hin; destruct (Forall2_In_r _ _ _ _ HF Hin) as ([k0 x] & Hx & E & Hv); simpl in *; subst k0.
    exists x; split; [|exact Hv]; apply (Permutation_in _ (Permutation_sym Hp)); exact Hx.
  - intros k x Hin; apply (Permutation_in _ Hp) in Hin.
    destruct (Forall2_In_l _ _ _ _ HF Hin) as ([k0 x'] & Hx & E & Hv); simpl in *; subst k0; eauto.
  - unfold wf; intros Hw.
    assert (E : keys d' = keys e).
    { clear - HF; unfold keys; induction HF as [|p q l l' [E _] F IH]; simpl; congruence. }
    rewrite E; eapply Permutation_NoDup; [apply Permutation_map; exact Hp|exact Hw].
Qed.

Lemma veq_get d v k : wf d -> veq (VDict d) v ->
  exists d', v = VDict d' /\
    match get k d with
    | Some x => exists x', get k d' = Some x' /\ veq x x'
    | None => get k d' = None
    end.
Proof.
  intros Hw H; destruct (veq_dict_In _ _ H) as (d' & -> & H1 & H2 & H3); exists d'; split; [reflexivity|].
  destruct (get k d) as [x|] eqn:E.
  - apply get_In in E; destruct (H2 _ _ E) as (x' & Hx & Hv); exists x'; split; [|exact Hv].
    apply In_get; auto.
  - destruct (get k d') as [x'|] eqn:E'; [|reflexivity].
    apply get_In in E'; destruct (H1 _ _ E') as (x & Hx & _).
    apply In_get in Hx; [congruence|exact Hw].
Qed.

(** Verification does not depend on dict order. *)
Section VeqVerify.
  Variable ident : text -> Prop.

  Lemma rule_ok_veq v v' : veq v v' -> rule_ok ident v -> rule_ok ident v'.
  Proof.
    intros Hv (d & -> & H); destruct (veq_dict_In _ _ Hv) as (d' & -> & H1 & _).
    exists d'; split; [reflexivity|]; intros k x' Hin.
    destruct (H1 _ _ Hin) as (x & Hx & Hxv); destruct (H _ _ Hx) as (A & B & C).
    split; [exact A|]; split; intros Ek.
    - destruct (B Ek) as (l & ->); apply veq_list_inv in Hxv; destruct Hxv as (l' & -> & _); eauto.
    - destruct (C Ek) as (l & -> & Hl); apply veq_list_inv in Hxv; destruct Hxv as (l' & -> & HF).
      exists l'; split; [reflexivity|]; intros y Hy.
      destruct (Forall2_In_r _ _ _ _ HF Hy) as (x & Hx' & Hxy); destruct (Hl _ Hx') as (s & -> & Hs).
      apply veq_str_inv in Hxy; subst y; eauto.
  Qed.

  Lemma installer_dict_ok_veq b v v' : veq v v' -> installer_dict_ok ident b v -> installer_dict_ok ident b v'.
  Proof.
    intros Hv (d & -> & H); destruct (veq_dict_In _ _ Hv) as (d' & -> & H1 & _).
    exists d'; split; [reflexivity|]; intros k x' Hin.
    destruct (H1 _ _ Hin) as (x & Hx & Hxv); destruct (H _ _ Hx) as (A & B & C).
    split; [exact A|]; split; [exact B|]; eapply rule_ok_veq; eassumption.
  Qed.

  Lemma version_dict_ok_veq b v v' : veq v v' -> version_dict_ok ident b v -> version_dict_ok ident b v'.
  Proof.
    intros Hv (d & -> & H); destruct (veq_dict_In _ _ Hv) as (d' & -> & H1 & _).
    exists d'; split; [reflexivity|]; intros k x' Hin.
    destruct (H1 _ _ Hin) as (x & Hx & Hxv); destruct (H _ _ Hx) as (A & B).
    split; [exact A|]; eapply installer_dict_ok_veq; eassumption.
  Qed.

  Lemma os_dict_ok_veq b v v' : veq v v' -> os_dict_ok ident b v -> os_dict_ok ident b v'.
  Proof.
    intros Hv (d & -> & H); destruct (veq_dict_In _ _ Hv) as (d' & -> & H1 & _).
    exists d'; split; [reflexivity|]; intros k x' Hin.
    destruct (H1 _ _ Hin) as (x & Hx & Hxv); destruct (H _ _ Hx) as (A & b' & B & C).
    split; [exact A|]; exists b'; split; [|exact C]; eapply version_dict_ok_veq; eassumption.
  Qed.

  Lemma rules_file_ok_veq v v' : veq v v' -> rules_file_ok ident v -> rules_file_ok ident v'.
  Proof.
    intros Hv (d & -> & H); destruct (veq_dict_In _ _ Hv) as (d' & -> & H1 & _).
    exists d'; split; [reflexivity|]; intros k x' Hin.
    destruct (H1 _ _ Hin) as (x & Hx & Hxv); destruct (H _ _ Hx) as (A & B).
    split; [exact A|]; eapply os_dict_ok_veq; eassumption.
  Qed.
End VeqVerify.

Lemma verify_rules_veq uni v v' b :
  veq v v' -> verify_rules_dict uni v b = Ok tt -> verify_rules_dict uni v' b = Ok tt.
Proof.
  intros Hv H; apply verify_rules_dict_Ok in H; apply verify_rules_dict_Ok.
  eapply rules_file_ok_veq; eassumption.
Qed.

(** ** Paths *)
Lemma hexdigest_no_slash bs : ~ In slash (hexdigest bs).
Proof.
  assert (G : forall n, hex_digit n <> slash).
  { intros n; unfold hex_digit, slash; destruct (N.ltb n 10); lia. }
  unfold hexdigest; rewrite in_flat_map; intros (b & _ & [H|[H|[]]]); exact (G _ H).
Qed.

Lemma join_inj dir a b : ~ In slash a -> ~ In slash b -> a <> [] -> b <> [] ->
  path_join dir a = path_join dir b -> a = b.
Proof.
  intros Ha Hb Na Nb; destruct a as [|x a]; [congruence|]; destruct b as [|y b]; [congruence|]; simpl.
  destruct (eqb_spec x slash) as [->|_]; [elim Ha; left; reflexivity|].
  destruct (eqb_spec y slash) as [->|_]; [elim Hb; left; reflexivity|].
  destruct (match dir with [] => true | _ => _ end).
  - apply app_inv_head.
  - intros E; apply app_inv_head in E; congruence.
Qed.

Section Cache.
  Variable uni : N -> bool.
  Variable sha1 : text -> list N.
  Variable dumps : pyval -> text.
  Variable loads : text -> res pyval.
  Variable version : pyval.

  Notation spath := (source_path sha1).
  Notation crec := (cache_record version).
  Notation source_ops := (source_ops sha1 dumps version).
  Notation update_ops := (update_ops sha1 dumps version).

  Lemma spath_inj cd s t p : spath cd s = Ok p -> spath cd t = Ok p ->
    exists i, id_string sha1 (unique_id s) = Ok i /\ id_string sha1 (unique_id t) = Ok i.
  Proof.
    unfold source_path, cache_file_path; intros Hs Ht.
    apply bind_Ok in Hs; destruct Hs as (i & Hi & Es); apply bind_Ok in Ht; destruct Ht as (j & Hj & Et).
    assert (Hij : path_join cd (i ++ u ".pickle") = path_join cd (j ++ u ".pickle")) by congruence.
    assert (G : forall v k, id_string sha1 v = Ok k -> ~ In slash (k ++ u ".pickle") /\ k ++ u ".pickle" <> []).
    { intros v k Hk; unfold id_string in Hk; destruct v; try discriminate.
      destruct (forallb _ _); [injection Hk as <-|discriminate]; split.
      - rewrite in_app_iff; intros [H|H]; [apply hexdigest_no_slash in H; exact H|].
        cbn in H; repeat (destruct H as [H|H]; [discriminate|]); exact H.
      - destruct (hexdigest _); discriminate. }
    destruct (G _ _ Hi) as [Gi Ni]; destruct (G _ _ Hj) as [Gj Nj].
    pose proof (join_inj _ _ _ Gi Gj Ni Nj Hij) as E; apply app_inv_tail in E; subst j; eauto.
  Qed.

  Lemma distinct_NoDup l : distinct l = true <-> NoDup l.
  Proof.
    induction l as [|x l IH]; simpl; [split; [constructor|reflexivity]|].
    rewrite andb_true_iff, negb_true_iff, mem_not_In, IH, NoDup_cons_iff; reflexivity.
  Qed.

  Definition distinct_paths cd (l : list source) : Prop :=
    forall j k s t p, nth_error l j = Some s -> nth_error l k = Some t ->
      spath cd s = Ok p -> spath cd t = Ok p -> j = k.

  Lemma Forall2_nth {A B} (P : A -> B -> Prop) l l' j x :
    Forall2 P l l' -> nth_error l j = Some x -> exists y, nth_error l' j = Some y /\ P x y.
  Proof.
    intros F; revert j; induction F as [|a b l l' Hab F IH]; intros [|j]; simpl; try discriminate.
    - intros E; injection E as <-; eauto.
    - apply IH.
  Qed.

  Lemma verify_unique_ids_Ok l cd : verify_unique_ids sha1 l = Ok tt ->
    distinct_paths cd l /\ forall s, In s l -> exists p, spath cd s = Ok p.
  Proof.
    unfold verify_unique_ids; intros H; apply bind_Ok in H; destruct H as (ids & Hm & H).
    apply mapM_Ok in Hm; destruct (distinct ids) eqn:E; [|discriminate]; apply distinct_NoDup in E.
    split.
    - intros j k s t p Hj Hk Hs Ht; destruct (spath_inj _ _ _ _ Hs Ht) as (i & Hi & Hi').
      destruct (Forall2_nth _ _ _ _ _ Hm Hj) as (i1 & H1 & E1).
      destruct (Forall2_nth _ _ _ _ _ Hm Hk) as (i2 & H2 & E2).
      rewrite NoDup_nth_error in E; apply E; [apply nth_error_Some; congruence|congruence].
    - intros s Hs; destruct (Forall2_In_l _ _ _ _ Hm Hs) as (i & _ & Hi).
      unfold source_path, cache_file_path; rewrite Hi; simpl; eauto.
  Qed.

  (** ** Loading *)
  Lemma load_from_source_cases e s :
    (exists d, sp_load_data (s_spec s) (e_net e) (s_args s) = Ok d /\
       sp_verify_data (s_spec s) d (s_args s) = Ok tt /\
       load_from_source e s = ({| s_spec := s_spec s; s_args := s_args s; s_origin := s_origin s;
                                  s_data := d; s_time := e_now e |}, Ok tt)) \/
    (exists x, (sp_load_data (s_spec s) (e_net e) (s_args s) = Err x \/
                exists d, sp_load_data (s_spec s) (e_net e) (s_args s) = Ok d /\
                          sp_verify_data (s_spec s) d (s_args s) = Err x) /\
       load_from_source e s = (s, Err x)).
  Proof.
    unfold load_from_source; destruct (sp_load_data _ _ _) as [d|x] eqn:El; simpl; [|right; eauto].
    destruct (sp_verify_data _ d _) as [[]|x] eqn:Ev; simpl; [left|right]; eauto 6.
  Qed.

  Lemma load_from_cache_cases cd f s :
    (exists p bytes r d a o t,
       spath cd s = Ok p /\ get p f = Some bytes /\ loads bytes = Ok (VDict r) /\
       (forall k, In k [k_xylem_version; k_spec_name; k_spec_version; k_arguments; k_origin; k_data; k_time] ->
          exists x, get k r = Some x) /\
       get k_spec_name r = Some (VStr (sp_name (s_spec s))) /\
       sp_verify_arguments (s_spec s) (s_args s) = Ok tt /\
       get k_data r = Some d /\ get k_arguments r = Some a /\ get k_origin r = Some o /\
       get k_time r = Some t /\ sp_verify_data (s_spec s) d (s_args s) = Ok tt /\
       load_from_cache sha1 loads cd f s =
         ({| s_spec := s_spec s; s_args := a; s_origin := o; s_data := d; s_time := t |}, Ok tt)) \/
    (exists x, load_from_cache sha1 loads cd f s = (s, Err x)).
  Proof.
    unfold load_from_cache.
    destruct (bind (spath cd s) _) as [[[[d a] o] t]|x] eqn:E; [left|right; eauto].
    apply bind_Ok in E; destruct E as (p & Hp & E); apply bind_Ok in E; destruct E as (v & Hv & E).
    apply bind_Ok in E; destruct E as ([] & Hn & E); apply bind_Ok in E; destruct E as ([] & Ha & E).
    apply bind_Ok in E; destruct E as (d' & Hd & E); apply bind_Ok in E; destruct E as ([] & Hvd & E).
    apply bind_Ok in E; destruct E as (a' & Ha' & E); apply bind_Ok in E; destruct E as (o' & Ho & E).
    apply bind_Ok in E; destruct E as (t' & Ht & E); injection E as -> -> -> ->.
    unfold read_cache in Hv; destruct (get p f) as [bytes|] eqn:Eb; [|discriminate].
    apply bind_Ok in Hv; destruct Hv as (v' & Hl & Hv); apply bind_Ok in Hv; destruct Hv as ([] & Hs & Hv).
    injection Hv as ->; unfold verify_cache_structure in Hs; destruct v as [| | | | | |r]; try discriminate.
    destruct (forallb _ _) eqn:Hf; [|discriminate].
    assert (G : forall k x, item k (VDict r) = Ok x -> get k r = Some x).
    { intros k x; simpl; unfold getitem; destruct (get k r); congruence. }
    exists p, bytes, r, d, a, o, t; split; [exact Hp|]; split; [exact Eb|]; split; [exact Hl|].
    split; [|split; [|repeat (split; [solve [auto]|]); reflexivity]].
    - intros k Hk; rewrite forallb_forall in Hf; specialize (Hf _ Hk); apply has_true in Hf; exact Hf.
    - unfold verify_cache_spec_name in Hn; apply bind_Ok in Hn; destruct Hn as (n & Hn & E).
      apply G in Hn; rewrite Hn; destruct (pyeq _ n) eqn:Ep; [|discriminate].
      destruct n; try discriminate; simpl in Ep; apply (proj1 (eqb_eq _ _)) in Ep; subst; reflexivity.
  Qed.

  (** ** Update *)
  Notation upd := (update_source sha1 dumps version).

  Lemma load_src_same e s : s_spec (fst (load_from_source e s)) = s_spec s /\
    s_args (fst (load_from_source e s)) = s_args s /\ s_origin (fst (load_from_source e s)) = s_origin s.
  Proof.
    destruct (load_from_source_cases e s) as [(d & _ & _ & ->)|(x & _ & ->)]; simpl; auto.
  Qed.

  Lemma load_src_path e s cd : spath cd (fst (load_from_source e s)) = spath cd s.
  Proof.
    destruct (load_src_same e s) as (H1 & H2 & _); unfold source_path, unique_id; rewrite H1, H2; reflexivity.
  Qed.

  (** Content of its cache file after the step of one source. *)
  Definition step_content (e : step_env) (s : source) (old : option text) : option text :=
    match load_from_source e s with
    | (s', Ok _) => match e_write e with
                    | WriteOk => Some (dumps (crec s'))
                    | OpenFails _ => old
                    | WriteFails n _ => Some (firstn n (dumps (crec s')))
                    end
    | (_, Err _) => old
    end.

  Lemma upd_fs envs cd i s f p : spath cd s = Ok p ->
    fst (fst (upd envs cd i s f)) = fst (load_from_source (envs i) s) /\
    forall q, get q (snd (fst (upd envs cd i s f))) =
              if eqb q p then step_content (envs i) s (get p f) else get q f.
  Proof.
    clear loads.
    intros Hp; unfold update_source, step_content.
    pose proof (load_src_path (envs i) s cd) as HP.
    destruct (load_from_source (envs i) s) as [s' [[]|x]]; simpl in HP |- *.
    - unfold save_to_cache; rewrite HP, Hp.
      destruct (e_write (envs i)); simpl; (split; [reflexivity|]); intros q; rewrite ?get_set;
        destruct (eqb_spec q p); subst; reflexivity.
    - split; [reflexivity|]; intros q; destruct (eqb_spec q p); subst; reflexivity.
  Qed.

  Definition no_interrupt envs cd i (l : list source) : Prop :=
    forall j s f e, nth_error l j = Some s -> snd (upd envs cd (i + j) s f) = Err e -> is_Exception e = true.

  Lemma update_spec envs cd l i f :
    (forall s, In s l -> exists p, spath cd s = Ok p) -> distinct_paths cd l ->
    no_interrupt envs cd i l ->
    exists l' f', for_sources (upd envs cd) false i l f = (l', f', Ok tt) /\
      List.length l' = List.length l /\
      (forall j s, nth_error l j = Some s ->
         nth_error l' j = Some (fst (load_from_source (envs (i + j)) s)) /\
         forall p, spath cd s = Ok p -> get p f' = step_content (envs (i + j)) s (get p f)) /\
      (forall q, (forall s, In s l -> spath cd s <> Ok q) -> get q f' = get q f).
  Proof.
    clear loads.
    revert i f; induction l as [|s l IH]; intros i f Hp Hd Hn; simpl.
    - exists [], f; split; [reflexivity|]; split; [reflexivity|]; split; [intros [|j] ? E; discriminate|auto].
    - destruct (Hp s (or_introl eq_refl)) as [p Ep].
      pose proof (upd_fs envs cd i s f p Ep) as [H1 H2].
      pose proof (Hn 0 s f) as Hn0; rewrite Nat.add_0_r in Hn0.
      destruct (upd envs cd i s f) as [[s' f1] r] eqn:Eu; simpl in H1, H2, Hn0; subst s'.
      destruct (IH (S i) f1) as (l' & f' & Er & Hlen & Hj & Hq).
      + intros t Ht; apply Hp; right; exact Ht.
      + intros j k t t' q Ht Ht' Hs1 Hs2.
        assert (E : S j = S k) by (eapply (Hd (S j) (S k)); simpl; eassumption); congruence.
      + intros j t g e Ht He; apply (Hn (S j) t g e Ht); rewrite Nat.add_succ_r; exact He.
      + rewrite Er; exists (fst (load_from_source (envs i) s) :: l'), f'; split; [|split; [|split]].
        * destruct r as [[]|e]; [reflexivity|].
          rewrite (Hn0 e eq_refl eq_refl); reflexivity.
        * simpl; congruence.
        * intros [|j] t Ht.
          -- simpl in Ht; injection Ht as <-; rewrite Nat.add_0_r; split; [reflexivity|].
             intros q Eq; assert (q = p) by congruence; subst q.
             rewrite Hq, H2, eqb_refl; [reflexivity|].
             intros t Ht Et; apply In_nth_error in Ht; destruct Ht as [k Hk].
             assert (E : 0 = S k) by (eapply (Hd 0 (S k)); simpl; try reflexivity; eassumption); discriminate.
          -- simpl in Ht; rewrite Nat.add_succ_r; destruct (Hj j t Ht) as [Ha Hb]; split; [exact Ha|].
             intros q Eq; rewrite (Hb q Eq), H2; destruct (eqb_spec q p) as [->|_]; [|reflexivity].
             assert (E : 0 = S j) by (eapply (Hd 0 (S j)); simpl; try reflexivity; eassumption); discriminate.
        * intros q Hs; rewrite Hq by (intros t Ht; apply Hs; right; exact Ht).
          rewrite H2; destruct (eqb_spec q p) as [->|_]; [|reflexivity].
          elim (Hs s (or_introl eq_refl)); exact Ep.
  Qed.

  Lemma run_appends p bytes f t : get p f = Some t ->
    run_ops (map (Append p) bytes) f = match bytes with [] => f | _ => set p (t ++ bytes) f end.
  Proof.
    revert f t; induction bytes as [|b bytes IH]; intros f t Ht; [reflexivity|].
    unfold run_ops in *; simpl; rewrite Ht; erewrite IH by apply get_set_same.
    destruct bytes as [|b' bytes]; [reflexivity|].
    rewrite set_set, <- app_assoc; reflexivity.
  Qed.

  Lemma run_write w p bytes f :
    run_ops (write_ops w p bytes) f =
    match w with
    | WriteOk => set p bytes f
    | OpenFails _ => f
    | WriteFails n _ => set p (firstn n bytes) f
    end.
  Proof.
    assert (G : forall bs, run_ops (Truncate p :: map (Append p) bs) f = set p bs f).
    { intros bs; unfold run_ops; simpl; pose proof (run_appends p bs (set p [] f) [] (get_set_same _ _ _)) as E.
      unfold run_ops in E; rewrite E; destruct bs; [reflexivity|]; rewrite set_set; reflexivity. }
    destruct w; simpl; [apply G|reflexivity|apply G].
  Qed.

  Lemma run_source_ops envs cd i s f :
    run_ops (source_ops envs cd i s) f = snd (fst (upd envs cd i s f)).
  Proof.
    unfold source_ops, update_source; destruct (load_from_source (envs i) s) as [s' [[]|x]]; [|reflexivity].
    unfold save_to_cache; destruct (spath cd s') as [p|]; [|reflexivity].
    rewrite run_write; destruct (e_write (envs i)); reflexivity.
  Qed.

  Lemma upd_res_fs envs cd i s f g : snd (upd envs cd i s f) = snd (upd envs cd i s g).
  Proof.
    unfold update_source; destruct (load_from_source (envs i) s) as [s' [[]|x]]; [|reflexivity].
    unfold save_to_cache; destruct (spath cd s') as [p|]; [|reflexivity].
    destruct (e_write (envs i)); reflexivity.
  Qed.

  (** The operations are those of the update. *)
  Lemma run_update_ops envs cd l i f :
    run_ops (update_ops envs cd i l) f = snd (fst (for_sources (upd envs cd) false i l f)).
  Proof.
    clear loads.
    revert i f; induction l as [|s l IH]; intros i f; [reflexivity|]; simpl.
    unfold run_ops in *; rewrite fold_left_app.
    pose proof (run_source_ops envs cd i s f) as E; unfold run_ops in E; rewrite E; clear E.
    rewrite (upd_res_fs envs cd i s [] f).
    destruct (upd envs cd i s f) as [[s' f1] r]; simpl.
    assert (G : fold_left run_op (update_ops envs cd (S i) l) f1 =
                snd (fst (let '(l'', f'', r') := for_sources (upd envs cd) false (S i) l f1 in
                          (s' :: l'', f'', r')))).
    { rewrite IH; destruct (for_sources _ _ _ _ _) as [[? ?] ?]; reflexivity. }
    destruct r as [[]|e]; [exact G|]; destruct (is_Exception e); [exact G|reflexivity].
  Qed.

  Lemma ops_other ops q f :
    (forall o, In o ops -> match o with Truncate p | Append p _ => p <> q end) ->
    get q (run_ops ops f) = get q f.
  Proof.
    clear loads.
    unfold run_ops; revert f; induction ops as [|o ops IH]; intros f Ha; simpl; [reflexivity|].
    rewrite IH by (intros o' Ho; apply Ha; right; exact Ho).
    specialize (Ha o (or_introl eq_refl)); destruct o; simpl; apply get_set_other; congruence.
  Qed.

  Lemma source_ops_paths envs cd i s o : In o (source_ops envs cd i s) ->
    match o with Truncate p | Append p _ => spath cd s = Ok p end.
  Proof.
    clear loads.
    unfold source_ops; pose proof (load_src_path (envs i) s cd) as HP.
    destruct (load_from_source (envs i) s) as [s' [[]|x]]; simpl in HP; [|intros []].
    rewrite HP; destruct (spath cd s) as [p|]; [|intros []].
    unfold write_ops; destruct (e_write (envs i)); simpl; try tauto;
      (intros [<-|H]; [reflexivity|]; apply in_map_iff in H; destruct H as (b & <- & _); reflexivity).
  Qed.

  Lemma update_ops_paths envs cd l i o : In o (update_ops envs cd i l) ->
    match o with Truncate p | Append p _ => exists s, In s l /\ spath cd s = Ok p end.
  Proof.
    clear loads.
    revert i; induction l as [|s l IH]; intros i; simpl; [intros []|].
    rewrite in_app_iff; intros [H|H].
    - apply source_ops_paths in H; destruct o; eauto.
    - destruct (snd (upd envs cd i s [])) as [[]|e]; [|destruct (is_Exception e); [|destruct H]];
        specialize (IH _ H); destruct o; destruct IH as (t & Ht & Ep); eauto.
  Qed.

  Lemma run_ops_app a b f : run_ops (a ++ b) f = run_ops b (run_ops a f).
  Proof. apply fold_left_app. Qed.

  Lemma crash_spec envs cd l i f k :
    distinct_paths cd l ->
    exists p, forall q, q <> p ->
      get q (run_ops (firstn k (update_ops envs cd i l)) f) = get q f \/
      get q (run_ops (firstn k (update_ops envs cd i l)) f) = get q (run_ops (update_ops envs cd i l) f).
  Proof using sha1 dumps version.
    clear loads.
    revert i f k; induction l as [|s l IH]; intros i f k Hd; simpl.
    - exists []; intros q _; rewrite firstn_nil; left; reflexivity.
    - set (rest := match snd (upd envs cd i s []) with Ok _ => _ | Err e => _ end).
      set (ops1 := source_ops envs cd i s).
      destruct (le_lt_dec k (List.length ops1)) as [Hk|Hk].
      + (* crash while writing the file of [s] *)
        rewrite firstn_app, (proj2 (Nat.sub_0_le _ _) Hk), app_nil_r.
        assert (Hex : exists p, forall o, In o ops1 -> match o with Truncate p' | Append p' _ => p' = p end).
        { destruct (spath cd s) as [p|] eqn:Ep.
          - exists p; intros o Ho; apply source_ops_paths in Ho; destruct o; congruence.
          - exists []; intros o Ho; apply source_ops_paths in Ho; destruct o; congruence. }
        destruct Hex as [p Hp]; exists p; intros q Hq; left; apply ops_other.
        intros o Ho; assert (Hin : In o ops1) by (rewrite <- (firstn_skipn k); apply in_app_iff; auto).
        specialize (Hp o Hin); destruct o; congruence.
      + rewrite firstn_app, firstn_all2 by lia; rewrite !run_ops_app.
        assert (Hd' : distinct_paths cd l).
        { intros j j' t t' q Ht Ht' Hs1 Hs2.
          assert (E : S j = S j') by (eapply (Hd (S j) (S j')); simpl; eassumption); congruence. }
        assert (Hrest : rest = update_ops envs cd (S i) l \/ rest = []).
        { unfold rest; destruct (snd (upd envs cd i s [])) as [[]|e]; auto; destruct (is_Exception e); auto. }
        destruct Hrest as [-> | ->].
        * destruct (IH (S i) (run_ops ops1 f) (k - List.length ops1) Hd') as [p Hp].
          exists p; intros q Hq; destruct (Hp q Hq) as [E|E]; [|right; exact E].
          destruct (in_dec (list_eq_dec N.eq_dec) q
                      (map (fun o => match o with Truncate p | Append p _ => p end) ops1)) as [Hin|Hnin].
          -- (* q is the path of s, so it is not touched later *)
             right; rewrite E; symmetry; apply ops_other; intros o Ho.
             apply update_ops_paths in Ho; apply in_map_iff in Hin; destruct Hin as (o' & Eo & Ho').
             apply source_ops_paths in Ho'.
             assert (Es : spath cd s = Ok q) by (destruct o'; congruence).
             assert (G : forall p', (exists t, In t l /\ spath cd t = Ok p') -> p' <> q).
             { intros p' (t & Ht & Et) ->; apply In_nth_error in Ht; destruct Ht as [j Hj].
               assert (E' : 0 = S j) by (eapply (Hd 0 (S j)); simpl; try reflexivity; eassumption).
               discriminate. }
             destruct o; apply G; exact Ho.
          -- left; rewrite E; apply ops_other; intros o Ho.
             destruct o as [p'|p' b]; intros Eo; apply Hnin; apply in_map_iff; eexists; (split; [|exact Ho]); exact Eo.
        * exists []; intros q _; right; rewrite firstn_nil; reflexivity.
  Qed.

  (** Content seen by the loader only depends on its own file. *)
  Lemma load_from_cache_ext cd f g s :
    (forall p, spath cd s = Ok p -> get p f = get p g) ->
    load_from_cache sha1 loads cd f s = load_from_cache sha1 loads cd g s.
  Proof.
    intros H; unfold load_from_cache; destruct (spath cd s) as [p|e]; [|reflexivity].
    cbn [bind]; unfold read_cache; rewrite (H p eq_refl); reflexivity.
  Qed.

  (** ** Round trip *)
  Lemma cache_record_wf s : exists d, crec s = VDict d /\ wf d.
  Proof.
    eexists; split; [reflexivity|]; unfold wf; cbn.
    repeat (constructor; [cbn; intros H; repeat (destruct H as [H|H]; [discriminate H|]); exact H|]).
    constructor.
  Qed.

  Lemma round_trip cd f s s0 p bytes v :
    spath cd s = Ok p -> get p f = Some bytes -> loads bytes = Ok v -> veq (crec s) v ->
    s_spec s0 = s_spec s -> s_args s0 = s_args s ->
    sp_verify_arguments (s_spec s) (s_args s) = Ok tt ->
    (forall d d', veq d d' -> sp_verify_data (s_spec s) d (s_args s) = Ok tt ->
                  sp_verify_data (s_spec s) d' (s_args s) = Ok tt) ->
    sp_verify_data (s_spec s) (s_data s) (s_args s) = Ok tt ->
    exists s', load_from_cache sha1 loads cd f s0 = (s', Ok tt) /\
      s_spec s' = s_spec s /\ veq (s_args s) (s_args s') /\ veq (s_origin s) (s_origin s') /\
      veq (s_data s) (s_data s') /\ veq (s_time s) (s_time s').
  Proof.
    intros Hp Hb Hl Hv Es Ea Hva Hcong Hvd.
    destruct (cache_record_wf s) as (d & Ed & Hw); rewrite Ed in Hv.
    assert (G : forall k x, get k d = Some x -> exists d' x', v = VDict d' /\ get k d' = Some x' /\ veq x x').
    { intros k x Hk; destruct (veq_get d v k Hw Hv) as (d' & -> & H); rewrite Hk in H.
      destruct H as (x' & H & Hx); exists d', x'; auto. }
    unfold cache_record in Ed; injection Ed as Ed.
    assert (Gd : forall k x, get k d = Some x -> exists x', item k v = Ok x' /\ veq x x').
    { intros k x Hk; destruct (G k x Hk) as (d' & x' & -> & Hg & Hx); exists x'; split; [|exact Hx].
      simpl; unfold getitem; rewrite Hg; reflexivity. }
    assert (Hs : verify_cache_structure v = Ok tt).
    { destruct (veq_dict_In _ _ Hv) as (d' & -> & _ & H2 & _); simpl.
      assert (Hh : forall k, In k (keys d) -> has k d' = true).
      { intros k Hk; apply in_map_iff in Hk; destruct Hk as ([k' x] & <- & Hin).
        destruct (H2 _ _ Hin) as (x' & Hin' & _); apply has_keys; apply in_map_iff; exists (k', x'); auto. }
      rewrite !Hh; [reflexivity|..]; subst d; cbn; tauto. }
    unfold load_from_cache.
    replace (spath cd s0) with (spath cd s) by (unfold source_path, unique_id; rewrite Es, Ea; reflexivity).
    rewrite Hp; cbn [bind]; unfold read_cache; rewrite Hb, Hl; cbn [bind]; rewrite Hs; cbn [bind].
    destruct (Gd k_spec_name (VStr (sp_name (s_spec s)))) as (n & Hn & En); [subst d; reflexivity|].
    apply veq_str_inv in En; subst n; unfold verify_cache_spec_name; rewrite Hn; cbn [bind].
    rewrite Es, Ea; simpl pyeq; rewrite eqb_refl; cbn [bind]; rewrite Hva; cbn [bind].
    destruct (Gd k_data (s_data s)) as (x1 & -> & V1); [subst d; reflexivity|]; cbn [bind].
    rewrite (Hcong _ _ V1 Hvd); cbn [bind].
    destruct (Gd k_arguments (s_args s)) as (x2 & -> & V2); [subst d; reflexivity|]; cbn [bind].
    destruct (Gd k_origin (s_origin s)) as (x3 & -> & V3); [subst d; reflexivity|]; cbn [bind].
    destruct (Gd k_time (s_time s)) as (x4 & -> & V4); [subst d; reflexivity|]; cbn [bind].
    eexists; split; [reflexivity|]; simpl; auto 6.
  Qed.
End Cache.
