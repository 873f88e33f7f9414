(** C123: what is said about the sources when a command starts and by [update]. *)
From Verif Require Import Base Dict PyVal RulesDict Verify Paths Sources Config XylemConfig Directories Output SourcesLog.
From Verif Require PropSources.
From Coq Require Import Lia.
Notation S := Datatypes.S.

(** ** Specification *)
(** An error message in which the text occurs. *)
Definition error_naming (t : text) (l : log_call) : Prop := exists a b, l = Error (Text (a ++ t ++ b)).
Definition info_naming (t : text) (l : log_call) : Prop := exists a b, l = Info (Text (a ++ t ++ b)).
Definition is_error (l : log_call) : Prop := exists m, l = Error m.

(** The directories used if nothing is configured. *)
Definition system_directories (dirs : text * text) : Prop :=
  dirs = (u "/etc/xylem/sources.d", u "/var/cache/xylem/sources").

(** A list file that can be read but is no YAML. *)
Definition broken_file (yaml : text -> res pyval) (p : text * res text) : bool :=
  match snd p with Ok data => match yaml data with Err YAMLError => true | _ => false end | Err _ => false end.

(** Why the update of a source fails (if it does): its data can not be obtained or are invalid, it has no
    cache file, or that can not be written. *)
Definition failure sha1 (envs : nat -> step_env) (cache_dir : text) (j : nat) (s : source) : option exn :=
  match sp_load_data (s_spec s) (e_net (envs j)) (s_args s) with
  | Err e => Some e
  | Ok d =>
    match sp_verify_data (s_spec s) d (s_args s) with
    | Err e => Some e
    | Ok _ =>
      match source_path sha1 cache_dir s with
      | Err e => Some e
      | Ok _ => match e_write (envs j) with WriteOk => None | OpenFails e => Some e | WriteFails _ e => Some e end
      end
    end
  end.

(** What is said about one source: a line with its origin if that is new, a line with its arguments, and
    an error naming the source and the reason exactly if it fails. *)
Definition report (show : pyval -> text) (show_exn : nat -> exn -> res text) (l : list source)
    (why : option exn) (j : nat) (s : source) (rep : list log_call) : Prop :=
  exists origin loading problem, rep = origin ++ [loading] ++ problem /\
    ((exists k s', k < j /\ nth_error l k = Some s' /\ s_origin s' = s_origin s) /\ origin = [] \/
     (forall k s', k < j -> nth_error l k = Some s' -> s_origin s' <> s_origin s) /\
     exists x, origin = [x] /\ info_naming (show (s_origin s)) x) /\
    info_naming (show (s_args s)) loading /\
    match why with
    | None => problem = []
    | Some e => exists t x, show_exn j e = Ok t /\ problem = [x] /\
                  error_naming (show (unique_id s)) x /\ error_naming t x
    end.

(** ** Proofs *)
Lemma default_dirs dirs : is_default_dirs dirs = true <-> system_directories dirs.
Proof.
  unfold is_default_dirs, system_directories; destruct dirs as [a b]; cbn [fst snd]; rewrite andb_true_iff.
  change default_sources_dir with (u "/etc/xylem/sources.d"); change (sources_cache_dir default_cache_dir) with (u "/var/cache/xylem/sources").
  split.
  - intros [H1 H2]; destruct (eqb_spec a (u "/etc/xylem/sources.d")); [|discriminate];
    destruct (eqb_spec b (u "/var/cache/xylem/sources")); [congruence|discriminate].
  - intros E; injection E as -> ->; split; apply eqb_refl.
Qed.

Section Log.
  Variable yaml : text -> res pyval.
  Variable sha1 : text -> list N.
  Variable dumps : pyval -> text.
  Variable version : pyval.
  Variable show : pyval -> text.
  Variable yaml_position : text -> option (text * text).
  Variable yaml_message : text -> text.
  Variable show_exn : nat -> exn -> res text.
  Notation init_run := (init_run yaml sha1 yaml_position yaml_message).
  Notation files_run := (files_run yaml yaml_position yaml_message).
  Notation file_run := (file_run yaml yaml_position yaml_message).
  Notation update_run := (update_run yaml sha1 dumps version show yaml_position yaml_message show_exn).
  Notation update_loop := (update_loop sha1 dumps version show show_exn).

  Lemma file_run_spec specs p :
    snd (file_run specs p) = init_file yaml specs p /\
    fst (file_run specs p) = if broken_file yaml p then
      match snd p with Ok data => [invalid_yaml yaml_position yaml_message (fst p) data] | Err _ => [] end else [].
  Proof.
    clear; unfold file_run, init_file, broken_file; destruct (snd p) as [data|e]; cbn [bind]; [|split; reflexivity].
    unfold parse_run, parse_source_descriptions; destruct (yaml data) as [v|e]; cbn [bind].
    - assert (Hn : verify_source_description_list v <> Err YAMLError).
      { clear; unfold verify_source_description_list; destruct v as [|b|z|t|t|l|d]; try discriminate.
        - destruct t; discriminate.
        - assert (H : forall l, forM_ verify_source_description l = Ok tt \/ forM_ verify_source_description l = Err TypeError \/ forM_ verify_source_description l = Err ValueError).
          { clear; intros l; induction l as [|x l IH]; [left; reflexivity|]; cbn [forM_].
            assert (Hx : verify_source_description x = Ok tt \/ verify_source_description x = Err TypeError \/ verify_source_description x = Err ValueError).
            { unfold verify_source_description; destruct x as [| | | | | |[|[[] ?] []]]; auto. }
            destruct Hx as [->|[->| ->]]; cbn [bind]; auto. }
          destruct (H l) as [->|[->| ->]]; discriminate.
        - destruct d; discriminate. }
      destruct (verify_source_description_list v) as [[]|e]; cbn [bind fst snd]; [split; reflexivity|].
      destruct e; try (exfalso; apply Hn; reflexivity); split; reflexivity.
    - destruct e; split; reflexivity.
  Qed.

  Lemma files_run_spec specs files :
    snd (files_run specs files) = (let* ll := mapM (init_file yaml specs) files in Ok (List.concat ll)) /\
    exists done rest, files = done ++ rest /\ (forall l, snd (files_run specs files) = Ok l -> rest = []) /\
      Forall2 (fun p l => error_naming (fst p) l) (filter (broken_file yaml) done) (fst (files_run specs files)).
  Proof.
    clear; induction files as [|p files IH]; cbn [SourcesLog.files_run].
    { split; [reflexivity|]; exists [], []; split; [reflexivity|split; [reflexivity|constructor]]. }
    destruct (file_run_spec specs p) as [Hr Hs]; destruct (file_run specs p) as [said r]; cbn [fst snd] in Hr, Hs; subst r said.
    assert (Hnow : forall fs, Forall2 (fun (q : text * res text) l => error_naming (fst q) l) (filter (broken_file yaml) fs) [] ->
              Forall2 (fun (q : text * res text) l => error_naming (fst q) l) (filter (broken_file yaml) [p])
                (if broken_file yaml p then match snd p with Ok data => [invalid_yaml yaml_position yaml_message (fst p) data] | Err _ => [] end else [])).
    { intros _ _; cbn [filter]; destruct (broken_file yaml p) eqn:B; [|constructor].
      unfold broken_file in B; destruct (snd p) as [data|e]; [|discriminate]; constructor; [|constructor].
      unfold invalid_yaml, quoted; destruct (yaml_position data) as [[line col]|].
      - exists (u "Invalid YAML in source list file '"), (u "' at '" ++ line ++ u ":" ++ col ++ u "':" ++ [10%N] ++ yaml_message data).
        rewrite <- !app_assoc; reflexivity.
      - exists (u "Invalid YAML in source list file '"), (u "':" ++ [10%N] ++ yaml_message data); rewrite <- !app_assoc; reflexivity. }
    specialize (Hnow [] (Forall2_nil _)).
    cbn [mapM]; destruct (init_file yaml specs p) as [l|e]; cbn [bind].
    - destruct IH as [IHr (done & rest & Hf & Hrest & IHs)]; destruct (files_run specs files) as [said' r']; cbn [fst snd] in *.
      split.
      + rewrite IHr; destruct (mapM (init_file yaml specs) files); reflexivity.
      + exists (p :: done), rest; split; [rewrite Hf; reflexivity|split].
        * intros l' E; destruct r' as [l1|]; [exact (Hrest l1 eq_refl)|discriminate].
        * change (filter (broken_file yaml) (p :: done)) with (filter (broken_file yaml) ([p] ++ done)); rewrite filter_app; apply Forall2_app; assumption.
    - cbn [fst snd]; split; [reflexivity|]; exists [p], files; split; [reflexivity|split; [discriminate|exact Hnow]].
  Qed.

  Lemma error_naming_error t l : error_naming t l -> is_error l.
  Proof. intros (a & b & ->); eexists; reflexivity. Qed.

  (** Setting up the database: the sources are those of C23, C24 and C95.  Exactly one warning is given, naming
      the sources directory, if that does not exist and the directories are not those of the system; otherwise
      none.  The errors are one for every list file with invalid YAML, in order, naming the file; all of them if
      no exception ends the work. *)
  Theorem C123_setup verbose specs dirs st defaults said r :
    init_run verbose specs dirs st defaults = (said, r) ->
    r = init_from_sources yaml sha1 specs (fst dirs) st defaults /\
    (~ (st = Missing /\ ~ system_directories dirs) ->
     filter (fun l => match l with Warning _ => true | _ => false end) said = []) /\
    (st = Missing /\ ~ system_directories dirs -> exists a b,
     filter (fun l => match l with Warning _ => true | _ => false end) said = [Warning (Text (a ++ fst dirs ++ b))]) /\
    (st <> NotADirectory ->
     exists files done rest,
       get_source_files (fst dirs) st = Ok (match st with Missing => None | _ => Some files end) /\
       (st = Missing -> files = default_source_files defaults) /\
       files = done ++ rest /\ (forall l, r = Ok l -> rest = []) /\
       Forall2 (fun p l => error_naming (fst p) l) (filter (broken_file yaml) done)
         (filter (fun l => match l with Error _ => true | _ => false end) said)).
  Proof.
    clear; unfold SourcesLog.init_run; intros E.
    destruct st as [| |entries]; cbn [get_source_files] in E.
    - destruct (files_run_spec specs (default_source_files defaults)) as [Hr (done & rest & Hf & Hrest & Hs)].
      destruct (files_run specs (default_source_files defaults)) as [said3 r3]; cbn [fst snd] in Hr, Hs, Hrest; injection E as <- <-.
      assert (Hall : forall l, In l said3 -> is_error l).
      { intros l Hl; destruct (CacheProofs.Forall2_In_r _ _ _ _ Hs Hl) as (p & _ & Hp); eapply error_naming_error; exact Hp. }
      assert (Hw3 : filter (fun l => match l with Warning _ => true | _ => false end) said3 = []).
      { clear -Hall; induction said3 as [|l said3 IH]; [reflexivity|]; cbn [filter].
        destruct (Hall l (or_introl eq_refl)) as [m ->]; apply IH; intros x Hx; apply Hall; right; exact Hx. }
      assert (He3 : filter (fun l => match l with Error _ => true | _ => false end) said3 = said3).
      { clear -Hall; induction said3 as [|l said3 IH]; [reflexivity|]; cbn [filter].
        destruct (Hall l (or_introl eq_refl)) as [m ->]; f_equal; apply IH; intros x Hx; apply Hall; right; exact Hx. }
      split; [|split; [|split]].
      + unfold init_from_sources; cbn [get_source_files bind]; rewrite Hr; destruct (mapM (init_file yaml specs) (default_source_files defaults)); reflexivity.
      + intros H; cbn [filter app]; rewrite !filter_app; cbn [filter app]; rewrite Hw3, app_nil_r; pose proof (default_dirs dirs) as D.
        destruct (is_default_dirs dirs); [destruct verbose; reflexivity|].
        exfalso; apply H; split; [reflexivity|rewrite <- D; discriminate].
      + intros [_ H]; cbn [filter app]; rewrite !filter_app; cbn [filter app]; rewrite Hw3, app_nil_r; pose proof (default_dirs dirs) as D.
        destruct (is_default_dirs dirs); [exfalso; apply H, D; reflexivity|].
        exists (u "no source files found in source dir '"), (u "'; using default sources"); destruct verbose; reflexivity.
      + intros _; exists (default_source_files defaults), done, rest; split; [reflexivity|]; split; [reflexivity|]; split; [exact Hf|].
        split; [intros l H; destruct r3 as [l3|]; [exact (Hrest l3 eq_refl)|discriminate]|].
        cbn [filter app]; rewrite !filter_app; cbn [filter app]; rewrite He3.
        destruct (is_default_dirs dirs), verbose; cbn [filter app]; exact Hs.
    - injection E as <- <-; split; [reflexivity|]; split; [|split; [|congruence]].
      + intros _; destruct verbose; reflexivity.
      + intros [? _]; discriminate.
    - set (files := map (fun p : text * dir_entry => (fst p, de_read (snd p)))
              (filter (fun p : text * dir_entry => source_file_selected (fst p) (snd p)) (map (fun e => (path_join (fst dirs) (de_name e), e)) entries))) in *.
      destruct (files_run_spec specs files) as [Hr (done & rest & Hf & Hrest & Hs)].
      destruct (files_run specs files) as [said3 r3]; cbn [fst snd] in Hr, Hs, Hrest; injection E as <- <-.
      assert (Hall : forall l, In l said3 -> is_error l).
      { intros l Hl; destruct (CacheProofs.Forall2_In_r _ _ _ _ Hs Hl) as (p & _ & Hp); eapply error_naming_error; exact Hp. }
      assert (Hw3 : filter (fun l => match l with Warning _ => true | _ => false end) said3 = []).
      { clear -Hall; induction said3 as [|l said3 IH]; [reflexivity|]; cbn [filter].
        destruct (Hall l (or_introl eq_refl)) as [m ->]; apply IH; intros x Hx; apply Hall; right; exact Hx. }
      assert (He3 : filter (fun l => match l with Error _ => true | _ => false end) said3 = said3).
      { clear -Hall; induction said3 as [|l said3 IH]; [reflexivity|]; cbn [filter].
        destruct (Hall l (or_introl eq_refl)) as [m ->]; f_equal; apply IH; intros x Hx; apply Hall; right; exact Hx. }
      split; [|split; [|split]].
      + unfold init_from_sources; cbn [get_source_files bind]; fold files; rewrite Hr; destruct (mapM (init_file yaml specs) files); reflexivity.
      + intros _; cbn [filter app]; rewrite !filter_app; cbn [filter app]; rewrite Hw3; destruct verbose; reflexivity.
      + intros [? _]; discriminate.
      + intros _; exists files, done, rest; split; [reflexivity|]; split; [discriminate|]; split; [exact Hf|].
        split; [intros l H; destruct r3 as [l3|]; [exact (Hrest l3 eq_refl)|discriminate]|].
        cbn [filter app]; rewrite !filter_app; cbn [filter app]; rewrite He3; destruct verbose; cbn [filter app]; exact Hs.
  Qed.

  (** ** update *)
  Lemma pyeq_origin a l : existsb (pyeq (VStr a)) l = true <-> In (VStr a) l.
  Proof.
    clear; rewrite existsb_exists; split.
    - intros (v & Hin & E); destruct v; try discriminate E; cbn [pyeq] in E.
      destruct (eqb_spec a t); [subst; exact Hin|discriminate].
    - intros Hin; exists (VStr a); split; [exact Hin|]; cbn [pyeq]; apply eqb_refl.
  Qed.

  Lemma init_origins specs dir st defaults l : init_from_sources yaml sha1 specs dir st defaults = Ok l ->
    forall s, In s l -> exists t, s_origin s = VStr t.
  Proof.
    clear; intros E s Hs; unfold init_from_sources in E; apply bind_Ok in E; destruct E as (g & _ & E).
    apply bind_Ok in E; destruct E as (ll & Ell & E); apply bind_Ok in E; destruct E as (? & _ & E); injection E as <-.
    apply in_concat in Hs; destruct Hs as (ss & Hss & Hs); apply mapM_Ok in Ell.
    destruct (CacheProofs.Forall2_In_r _ _ _ _ Ell Hss) as (p & _ & Ep); unfold init_file in Ep.
    apply bind_Ok in Ep; destruct Ep as (data & _ & Ep); apply bind_Ok in Ep; destruct Ep as (d & _ & Ep); apply mapM_Ok in Ep.
    destruct (CacheProofs.Forall2_In_r _ _ _ _ Ep Hs) as (descr & _ & Ed); unfold init_source in Ed.
    destruct descr as [| | | | | |[|[[name| | |] args] rest]]; try discriminate Ed.
    apply bind_Ok in Ed; destruct Ed as (sp & _ & Ed); unfold new_source in Ed; apply bind_Ok in Ed; destruct Ed as (? & _ & Ed).
    injection Ed as <-; exists (fst p); reflexivity.
  Qed.

  Definition sayable (envs : nat -> step_env) (cache_dir : text) (l : list source) : Prop :=
    forall j s e, nth_error l j = Some s -> failure sha1 envs cache_dir j s = Some e ->
      is_Exception e = true /\ exists t, show_exn j e = Ok t.

  (** The outcome of one step. *)
  Lemma step_failure envs cache_dir j s f :
    let '(s1, r) := load_from_source (envs j) s in
    match failure sha1 envs cache_dir j s with
    | None => r = Ok tt /\ exists f1, save_to_cache sha1 dumps version (envs j) cache_dir s1 f = (f1, Ok tt)
    | Some e => r = Err e \/ r = Ok tt /\ exists f1, save_to_cache sha1 dumps version (envs j) cache_dir s1 f = (f1, Err e)
    end.
  Proof.
    clear; unfold failure, load_from_source.
    destruct (sp_load_data (s_spec s) (e_net (envs j)) (s_args s)) as [d|e]; cbn [bind]; [|left; reflexivity].
    destruct (sp_verify_data (s_spec s) d (s_args s)) as [[]|e]; cbn [bind]; [|left; reflexivity].
    unfold save_to_cache, source_path, unique_id; cbn [s_spec s_args].
    destruct (cache_file_path sha1 cache_dir (sp_unique_id (s_spec s) (s_args s))) as [p|e].
    - unfold write_cache; destruct (e_write (envs j)); [split; [reflexivity|eexists; reflexivity]|right; split; [reflexivity|eexists; reflexivity]|right; split; [reflexivity|eexists; reflexivity]].
    - right; split; [reflexivity|eexists; reflexivity].
  Qed.

  Lemma update_loop_spec envs cache_dir pre : forall l f,
    (forall s, In s (pre ++ l) -> exists t, s_origin s = VStr t) ->
    (forall k s e, nth_error l k = Some s -> failure sha1 envs cache_dir (List.length pre + k) s = Some e ->
       is_Exception e = true /\ exists t, show_exn (List.length pre + k) e = Ok t) ->
    let '(said, r) := update_loop envs cache_dir (List.length pre) (rev (map s_origin pre)) l f in
    let '(l', f', r') := for_sources (update_source sha1 dumps version envs cache_dir) false (List.length pre) l f in
    r = (f', r') /\
    exists reports, said = List.concat reports /\ List.length reports = List.length l /\
      forall k s rep, nth_error l k = Some s -> nth_error reports k = Some rep ->
        report show show_exn (pre ++ l) (failure sha1 envs cache_dir (List.length pre + k) s) (List.length pre + k) s rep.
  Proof.
    intros l; revert pre; induction l as [|s l IH]; intros pre f Ho Hf; cbn [SourcesLog.update_loop for_sources].
    { split; [reflexivity|]; exists []; split; [reflexivity|split; [reflexivity|intros [|k] ? ?; discriminate]]. }
    specialize (IH (pre ++ [s])).
    assert (Hpre : (pre ++ [s]) ++ l = pre ++ s :: l) by (rewrite <- app_assoc; reflexivity).
    assert (Hlen : List.length (pre ++ [s]) = S (List.length pre)) by (rewrite app_length; cbn [List.length]; lia).
    rewrite Hpre, Hlen, map_app, rev_app_distr in IH; cbn [map rev app] in IH.
    assert (Hf' : forall k x e, nth_error l k = Some x -> failure sha1 envs cache_dir (S (List.length pre) + k) x = Some e ->
       is_Exception e = true /\ exists t, show_exn (S (List.length pre) + k) e = Ok t).
    { intros k x e Hk He; specialize (Hf (S k) x e Hk); rewrite <- Nat.add_succ_comm in Hf; exact (Hf He). }
    assert (Hnow : exists origin loading, announce show (rev (map s_origin pre)) s = origin ++ [loading] /\
      ((exists k s', k < List.length pre /\ nth_error (pre ++ s :: l) k = Some s' /\ s_origin s' = s_origin s) /\ origin = [] \/
       (forall k s', k < List.length pre -> nth_error (pre ++ s :: l) k = Some s' -> s_origin s' <> s_origin s) /\
       exists x, origin = [x] /\ info_naming (show (s_origin s)) x) /\ info_naming (show (s_args s)) loading).
    { destruct (Ho s) as [t Ht]; [apply in_or_app; right; left; reflexivity|].
      pose proof (pyeq_origin t (rev (map s_origin pre))) as Hp; unfold announce; rewrite Ht.
      eexists; eexists; split; [reflexivity|]; split.
      - destruct (existsb (pyeq (VStr t)) (rev (map s_origin pre))).
        + left; split; [|reflexivity]; pose proof (proj1 Hp eq_refl) as Hin; apply in_rev in Hin; apply in_map_iff in Hin.
          destruct Hin as (s' & Es' & Hin); apply In_nth_error in Hin; destruct Hin as [k Hk].
          assert (k < List.length pre) by (apply nth_error_Some; congruence).
          exists k, s'; rewrite nth_error_app1 by assumption; auto.
        + right; split; [|eexists; split; [reflexivity|]; unfold quoted; exists (u "Processing '"), (u "'..."); reflexivity].
          intros k s' Hk Hs' E; rewrite nth_error_app1 in Hs' by assumption.
          assert (X : false = true); [|discriminate X]; apply Hp; rewrite <- in_rev; apply in_map_iff; exists s'; split; [exact E|].
          eapply nth_error_In; exact Hs'.
      - unfold quoted; exists (u "Loading: " ++ sp_name (s_spec s) ++ u " : "), []; rewrite app_nil_r; rewrite <- !app_assoc; reflexivity. }
    destruct Hnow as (origin & loading & Ea & Horigin & Hloading); rewrite Ea.
    pose proof (step_failure envs cache_dir (List.length pre) s f) as Hstep.
    specialize (Hf 0 s); rewrite Nat.add_0_r in Hf; cbn [nth_error] in Hf.
    (* one step: what is said and the rest *)
    assert (Hone : exists problem f1 s1,
      update_loop envs cache_dir (List.length pre) (rev (map s_origin pre)) (s :: l) f =
        (let (said'', r'') := update_loop envs cache_dir (S (List.length pre)) (s_origin s :: rev (map s_origin pre)) l f1 in
         ((origin ++ [loading]) ++ problem ++ said'', r'')) /\
      for_sources (update_source sha1 dumps version envs cache_dir) false (List.length pre) (s :: l) f =
        (let '(l'', f'', r') := for_sources (update_source sha1 dumps version envs cache_dir) false (S (List.length pre)) l f1 in
         (s1 :: l'', f'', r')) /\
      match failure sha1 envs cache_dir (List.length pre) s with
      | None => problem = []
      | Some e => exists t x, show_exn (List.length pre) e = Ok t /\ problem = [x] /\
                  error_naming (show (unique_id s)) x /\ error_naming t x
      end).
    { cbn [SourcesLog.update_loop for_sources]; rewrite Ea; unfold update_source at 1.
      destruct (load_from_source (envs (List.length pre)) s) as [s1 r].
      destruct (failure sha1 envs cache_dir (List.length pre) s) as [e|] eqn:Ef.
      - destruct (Hf e eq_refl eq_refl) as [He [t Ht]]; destruct Hstep as [->|[-> [f1 Hsave]]].
        + unfold failed; rewrite He, Ht; cbn [negb orb]; eexists; exists f, s1; split; [reflexivity|]; split; [reflexivity|].
          exists t; eexists; split; [reflexivity|]; split; [reflexivity|]; unfold not_loaded, quoted; split.
          * exists (u "Failed to load source '"), (u "':" ++ [10%N] ++ t); rewrite <- !app_assoc; reflexivity.
          * exists (u "Failed to load source '" ++ show (unique_id s) ++ u "':" ++ [10%N]), []; rewrite app_nil_r, <- !app_assoc; reflexivity.
        + rewrite Hsave; unfold failed; rewrite He, Ht; cbn [negb orb]; eexists; exists f1, s1; split; [reflexivity|]; split; [reflexivity|].
          exists t; eexists; split; [reflexivity|]; split; [reflexivity|]; unfold not_saved, quoted; split.
          * exists (u "Failed to save source '"), (u "' to cache:" ++ [10%N] ++ t); rewrite <- !app_assoc; reflexivity.
          * exists (u "Failed to save source '" ++ show (unique_id s) ++ u "' to cache:" ++ [10%N]), []; rewrite app_nil_r, <- !app_assoc; reflexivity.
      - destruct Hstep as [-> [f1 Hsave]]; rewrite Hsave; exists [], f1, s1; split; [reflexivity|]; split; reflexivity. }
    destruct Hone as (problem & f1 & s1 & E1 & E2 & Hp).
    cbn [SourcesLog.update_loop for_sources] in E1, E2; rewrite Ea in E1; rewrite E1, E2; clear E1 E2.
    specialize (IH f1 Ho Hf').
    destruct (update_loop envs cache_dir (S (List.length pre)) (s_origin s :: rev (map s_origin pre)) l f1) as [said'' r''].
    destruct (for_sources (update_source sha1 dumps version envs cache_dir) false (S (List.length pre)) l f1) as [[l'' f''] r'].
    destruct IH as [-> (reports & -> & Hlen' & Hrep)]; split; [reflexivity|].
    exists ((origin ++ [loading] ++ problem) :: reports); split; [cbn [List.concat]; rewrite <- !app_assoc; reflexivity|].
    split; [cbn [List.length]; congruence|]; intros [|k] x rep Hx Hk; cbn [nth_error] in Hx, Hk.
    - injection Hx as <-; injection Hk as <-; rewrite Nat.add_0_r; exists origin, loading, problem; auto.
    - specialize (Hrep k x rep Hx Hk); rewrite <- Nat.add_succ_comm; exact Hrep.
  Qed.

  (** [xylem update]: if nothing but exceptions happens and their messages can be shown, the files are those of C20
      and there is one report for every source, in order, after what is said when the database is set up. *)
  Theorem C123_update_partial verbose dry_run ensure specs dirs st defaults envs f said f' r :
    update_run verbose ensure specs dirs st defaults envs f = (said, (f', r)) ->
    (forall l, init_from_sources yaml sha1 specs (fst dirs) st defaults = Ok l -> sayable envs (snd dirs) l) ->
    (f', r) = Sources.update yaml sha1 dumps version dry_run ensure specs (fst dirs) (snd dirs) st defaults envs f /\
    (forall l, ensure = Ok tt -> init_from_sources yaml sha1 specs (fst dirs) st defaults = Ok l ->
       exists reports, said = fst (init_run verbose specs dirs st defaults) ++ List.concat reports /\
         List.length reports = List.length l /\
         forall j s rep, nth_error l j = Some s -> nth_error reports j = Some rep ->
           report show show_exn l (failure sha1 envs (snd dirs) j s) j s rep).
  Proof.
    intros E Hs; unfold SourcesLog.update_run in E; unfold Sources.update.
    destruct ensure as [[]|e]; [|injection E as <- <- <-; split; [reflexivity|discriminate]].
    destruct (init_run verbose specs dirs st defaults) as [said0 r0] eqn:E0.
    destruct (C123_setup _ _ _ _ _ _ _ E0) as [-> _].
    destruct (init_from_sources yaml sha1 specs (fst dirs) st defaults) as [l|e] eqn:Ei.
    - pose proof (update_loop_spec envs (snd dirs) [] l f) as H; cbn [List.length map rev app] in H.
      specialize (H (init_origins _ _ _ _ _ Ei) (Hs l eq_refl)); unfold db_update.
      destruct (update_loop envs (snd dirs) 0 [] l f) as [said' r'']; destruct (for_sources _ false 0 l f) as [[l' f1] r1].
      destruct H as [-> (reports & -> & Hlen & Hrep)]; injection E as <- <- <-; split; [reflexivity|].
      intros l0 _ El; injection El as <-; exists reports; split; [reflexivity|]; split; [exact Hlen|exact Hrep].
    - injection E as <- <- <-; split; [reflexivity|discriminate].
  Qed.
End Log.

(** A failing source keeps the others from being updated if its message can not be shown (in python 2, bytes that
    are not ASCII): the update ends with another exception. *)
Definition b_envs (j : nat) : step_env := {|
  e_net := fun url => if Nat.eqb j 0 then Err DownloadFailure else Ok PropSources.x_rules;
  e_now := VOther (u "now"); e_write := WriteOk |}.
Definition b_run (show_exn : nat -> exn -> res text) :=
  update_run PropSources.x_yaml PropSources.x_sha1 Codec.enc VNone (fun v => match v with VStr t => t | _ => [] end)
    (fun _ => None) (fun t => t) show_exn false (Ok tt) [PropSources.x_spec] (u "/s", u "/c") PropSources.x_dir [] b_envs [].

Theorem C123_message_refuted :
  ~ (forall yaml sha1 dumps version show position message show_exn verbose specs dirs st defaults envs f l j s p,
       init_from_sources yaml sha1 specs (fst dirs) st defaults = Ok l ->
       (forall k x e, nth_error l k = Some x -> failure sha1 envs (snd dirs) k x = Some e -> is_Exception e = true) ->
       nth_error l j = Some s -> failure sha1 envs (snd dirs) j s = None -> source_path sha1 (snd dirs) s = Ok p ->
       exists bytes, get p (fst (snd (update_run yaml sha1 dumps version show position message show_exn verbose (Ok tt) specs dirs st defaults envs f))) = Some bytes).
Proof.
  intros H; specialize (H PropSources.x_yaml PropSources.x_sha1 Codec.enc VNone (fun v => match v with VStr t => t | _ => [] end)
    (fun _ => None) (fun t => t) (fun _ _ => Err ValueError) false [PropSources.x_spec] (u "/s", u "/c") PropSources.x_dir [] b_envs []
    [PropSources.x_source "http://a"; PropSources.x_source "http://b"] 1 (PropSources.x_source "http://b") (u "/c/687474703a2f2f62.pickle") eq_refl).
  destruct H as [bytes Hb].
  - intros [|[|k]] x e; cbn [nth_error]; intros Hx; [injection Hx as <-|injection Hx as <-|destruct k; discriminate]; intros He; vm_compute in He; [injection He as <-; reflexivity|discriminate].
  - reflexivity.
  - vm_compute; reflexivity.
  - vm_compute; reflexivity.
  - apply get_In in Hb; vm_compute in Hb; exact Hb.
Qed.

Example C123_nonvacuous :
  (* the first source fails, the second is updated *)
  init_from_sources PropSources.x_yaml PropSources.x_sha1 [PropSources.x_spec] (u "/s") PropSources.x_dir [] =
    Ok [PropSources.x_source "http://a"; PropSources.x_source "http://b"] /\
  sayable PropSources.x_sha1 (fun _ _ => Ok (u "no network")) b_envs (u "/c") [PropSources.x_source "http://a"; PropSources.x_source "http://b"] /\
  fst (b_run (fun _ _ => Ok (u "no network"))) =
    [Debug (Text (u "initializing database with sources dir `/s` and cache dir `/c`"));
     Info (Text (u "Processing '/s/10.yaml'...")); Info (Text (u "Loading: rules : http://a"));
     Error (Text (u "Failed to load source 'http://a':" ++ [10%N] ++ u "no network"));
     Info (Text (u "Loading: rules : http://b"))] /\
  map fst (fst (snd (b_run (fun _ _ => Ok (u "no network"))))) = [u "/c/687474703a2f2f62.pickle"] /\
  snd (snd (b_run (fun _ _ => Ok (u "no network")))) = Ok tt /\
  (* a sources directory that does not exist, and a broken default file *)
  fst (init_run (fun _ => Err YAMLError) PropSources.x_sha1 (fun _ => Some (u "1", u "2")) (fun t => t) true [PropSources.x_spec]
         (u "/s", u "/c") Missing [(u "d.yaml", u "{")]) =
    [Debug (Text (u "initializing database with sources dir `/s` and cache dir `/c`"));
     Warning (Text (u "no source files found in source dir '/s'; using default sources"));
     Info (Text (u "Loading default source urls"));
     Error (Text (u "Invalid YAML in source list file 'xylem_default_sources:sources.d/d.yaml' at '1:2':" ++ [10%N] ++ u "{"))].
Proof.
  split; [reflexivity|]; split.
  - intros [|[|k]] x e; cbn [nth_error]; intros Hx; [injection Hx as <-|injection Hx as <-|destruct k; discriminate]; intros He; vm_compute in He;
      [injection He as <-; split; [reflexivity|eexists; reflexivity]|discriminate].
  - repeat split; vm_compute; reflexivity.
Qed.

Print Assumptions C123_setup.
Print Assumptions C123_update_partial.
Print Assumptions C123_message_refuted.
