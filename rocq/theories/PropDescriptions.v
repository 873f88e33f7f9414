(** C127: the database is exactly what the source files describe. *)
From Verif Require Import Base Dict PyVal RulesDict Verify Sources CacheProofs PropSources.

(** A description [name: arguments] in a file. *)
Record description := { ds_file : text; ds_spec : text; ds_args : pyval }.
Definition written (p : text * pyval) : pyval := VDict [(KStr (fst p), snd p)].
Definition in_file (path : text) (p : text * pyval) : description :=
  {| ds_file := path; ds_spec := fst p; ds_args := snd p |}.

(** The entry of a directory is a source file. *)
Definition is_source_file (dir : text) (e : dir_entry) : Prop :=
  de_isfile e = true /\ is_yaml (path_join dir (de_name e)) /\ ~ hidden (path_join dir (de_name e)).

(** The descriptions in the files of a directory, in the order of the listing; other entries
    do not matter, and a file that is not YAML at all contains none. *)
Inductive described (yaml : text -> res pyval) (dir : text) : list dir_entry -> list description -> Prop :=
| described_nil : described yaml dir [] []
| described_other e es ds : ~ is_source_file dir e -> described yaml dir es ds -> described yaml dir (e :: es) ds
| described_file e es ds data l : is_source_file dir e -> de_read e = Ok data -> yaml data = Ok (VList (map written l)) ->
    described yaml dir es ds ->
    described yaml dir (e :: es) (map (in_file (path_join dir (de_name e))) l ++ ds)
| described_broken e es ds data : is_source_file dir e -> de_read e = Ok data -> yaml data = Err YAMLError ->
    described yaml dir es ds -> described yaml dir (e :: es) ds.

(** A usable description of a rules file: its url. *)
Definition rules_url (d : description) (url : text) : Prop := ds_spec d = u "rules" /\ ds_args d = VStr url.
Definition usable (d : description) : Prop := exists url, rules_url d url.
Definition ascii (t : text) : Prop := forall c, In c t -> (c < 128)%N.

Section Descriptions.
  Variable uni : N -> bool.
  Variable yaml : text -> res pyval.
  Variable sha1 : text -> list N.
  Notation bundled := [rules_spec uni yaml].
  Notation database := (init_from_sources yaml sha1 bundled).

  (** The source of a description, before anything is loaded. *)
  Definition source_described (d : description) : source :=
    {| s_spec := rules_spec uni yaml; s_args := ds_args d; s_origin := VStr (ds_file d); s_data := VNone; s_time := VNone |}.

  Definition item (d : description) : res source := init_source bundled (ds_file d) (written (ds_spec d, ds_args d)).

  Lemma item_cases d :
    (usable d /\ item d = Ok (source_described d)) \/
    (~ usable d /\ ds_spec d <> u "rules" /\ item d = Err UnknownSpecError) \/
    (~ usable d /\ ds_spec d = u "rules" /\ (forall url, ds_args d <> VStr url) /\ item d = Err ValueError).
  Proof.
    clear sha1. unfold item, written. cbn [init_source fst snd]. unfold get_spec. cbn [find].
    change (sp_name (rules_spec uni yaml)) with (u "rules").
    destruct (eqb_spec (u "rules") (ds_spec d)) as [E|E].
    - cbn [bind]. unfold new_source. cbn [sp_verify_arguments rules_spec rules_verify_arguments].
      destruct (ds_args d) eqn:Ea; cbn [bind].
      4: { left. split; [exists t; split; congruence|]. unfold source_described. rewrite Ea. reflexivity. }
      all: right; right; (split; [intros (url & _ & X); congruence|]); (split; [congruence|]); (split; [intros ? X; congruence|reflexivity]).
    - right; left. split; [intros (url & X & _); congruence|]. split; [congruence|reflexivity].
  Qed.

  Lemma selected dir e : is_source_file dir e <-> source_file_selected (path_join dir (de_name e)) e = true.
  Proof.
    clear. unfold is_source_file, source_file_selected. rewrite !andb_true_iff, negb_true_iff, ends_with_spec.
    unfold is_yaml, hidden. split.
    - intros (H1 & H2 & H3). split; [split|]; [|exact H2|exact H1].
      destruct (path_join dir (de_name e)) as [|c p]; [reflexivity|]. cbn [starts_with_dot].
      destruct (eqb_spec c 46%N) as [->|]; [exfalso; apply H3; exists p; reflexivity|reflexivity].
    - intros [[H1 H2] H3]. split; [exact H3|]. split; [exact H2|]. intros [t Et]. rewrite Et in H1. discriminate H1.
  Qed.

  Lemma init_items path l : mapM (init_source bundled path) (map written l) = mapM item (map (in_file path) l).
  Proof.
    clear sha1. induction l as [|[n a] l IH]; [reflexivity|]. cbn [map mapM]. rewrite IH. reflexivity.
  Qed.

  Lemma mapM_app {A B} (f : A -> res B) l l' : mapM f (l ++ l') = (let* x := mapM f l in let* y := mapM f l' in Ok (x ++ y)).
  Proof.
    clear. induction l as [|a l IH]; cbn [app mapM bind].
    - destruct (mapM f l'); reflexivity.
    - destruct (f a); [|reflexivity]. cbn [bind]. rewrite IH. destruct (mapM f l); [|reflexivity]. cbn [bind].
      destruct (mapM f l'); reflexivity.
  Qed.

  (** The loop over files and descriptions is a loop over descriptions. *)
  Lemma files_items dir es ds : described yaml dir es ds ->
    (let* ll := mapM (init_file yaml bundled) (map (fun p => (fst p, de_read (snd p)))
        (filter (fun p => source_file_selected (fst p) (snd p)) (map (fun e => (path_join dir (de_name e), e)) es))) in
     Ok (List.concat ll)) = mapM item ds.
  Proof.
    clear sha1. induction 1 as [|e es ds Hn _ IH|e es ds data l Hs Hr Hy _ IH|e es ds data Hs Hr Hy _ IH]; [reflexivity|..];
      cbn [map filter fst snd].
    - destruct (source_file_selected _ _) eqn:E; [exfalso; apply Hn, selected, E|exact IH].
    - apply selected in Hs. rewrite Hs. cbn [map mapM fst snd].
      unfold init_file at 1. cbn [snd fst]. rewrite Hr. cbn [bind].
      destruct (C23_source_list_validation_partial yaml data) as [_ V].
      rewrite (proj1 (V _ Hy)).
      2: { left. exists (map written l). split; [reflexivity|]. clear. induction l as [|[n a] l IH]; constructor; [exists n, a; reflexivity|exact IH]. }
      cbn [bind descr_items]. rewrite init_items, mapM_app, <- IH.
      destruct (mapM item (map (in_file (path_join dir (de_name e))) l)); [|reflexivity]. cbn [bind].
      destruct (mapM (init_file yaml bundled) _); reflexivity.
    - apply selected in Hs. rewrite Hs. cbn [map mapM fst snd].
      unfold init_file at 1. cbn [snd fst]. rewrite Hr. cbn [bind].
      rewrite (proj1 (C23_source_list_validation_partial yaml data) Hy). cbn [bind descr_items mapM].
      rewrite <- IH. destruct (mapM (init_file yaml bundled) _); reflexivity.
  Qed.

  Lemma database_items dir es ds defaults : described yaml dir es ds ->
    database dir (Listing es) defaults = (let* l := mapM item ds in let* _ := verify_unique_ids sha1 l in Ok l).
  Proof.
    intros H. rewrite <- (files_items dir es ds H). unfold init_from_sources. cbn [get_source_files bind].
    destruct (mapM (init_file yaml bundled) _); reflexivity.
  Qed.

  Lemma items_usable ds : Forall usable ds -> mapM item ds = Ok (map source_described ds).
  Proof.
    clear sha1. induction 1 as [|d ds Hd _ IH]; [reflexivity|]. cbn [mapM map].
    destruct (item_cases d) as [(_ & ->)|[(N & _)|(N & _)]]; [|contradiction..]. cbn [bind]. rewrite IH. reflexivity.
  Qed.

  Lemma ascii_iff t : forallb (fun c => c <? 128)%N t = true <-> ascii t.
  Proof.
    rewrite forallb_forall. unfold ascii. split; intros H c Hc; [apply N.ltb_lt, H, Hc|apply N.ltb_lt, H, Hc].
  Qed.

  Lemma ids_of ds urls : Forall2 rules_url ds urls ->
    (Forall ascii urls -> mapM (fun s => id_string sha1 (unique_id s)) (map source_described ds) = Ok (map (fun x => hexdigest (sha1 x)) urls)) /\
    (~ Forall ascii urls -> mapM (fun s => id_string sha1 (unique_id s)) (map source_described ds) = Err ValueError).
  Proof.
    induction 1 as [|d url ds urls [_ Ha] _ [IH1 IH2]]; cbn [map mapM].
    - split; [reflexivity|]. intros H. exfalso. apply H. constructor.
    - change (unique_id (source_described d)) with (ds_args d). rewrite Ha. cbn [id_string].
      pose proof (ascii_iff url) as A. destruct (forallb _ url) eqn:E.
      + cbn [bind]. split; intros H.
        * rewrite (IH1 (Forall_inv_tail H)). reflexivity.
        * rewrite IH2; [reflexivity|]. intros F. apply H. constructor; [apply A; reflexivity|exact F].
      + split; intros H; [|reflexivity]. exfalso. assert (X := Forall_inv H). apply A in X. congruence.
  Qed.

  (** Descriptions of rules files with different urls (without non-ASCII characters, and
      without a collision of their hashes) make a database with exactly these sources, in
      order, of which nothing is loaded. *)
  Theorem C127_accepted dir es ds urls defaults :
    described yaml dir es ds -> Forall2 rules_url ds urls ->
    Forall ascii urls -> NoDup (map (fun x => hexdigest (sha1 x)) urls) ->
    database dir (Listing es) defaults = Ok (map source_described ds).
  Proof.
    intros H Hu Ha Hn. rewrite (database_items _ _ _ _ H), items_usable.
    2: { clear - Hu. induction Hu; constructor; [eexists; eassumption|assumption]. }
    cbn [bind]. unfold verify_unique_ids. rewrite (proj1 (ids_of ds urls Hu) Ha). cbn [bind].
    rewrite (proj2 (distinct_NoDup _) Hn). reflexivity.
  Qed.

  (** The first description that is not usable decides how the database can not be made:
      another kind than rules is unknown, and arguments that are no text are invalid. *)
  Theorem C127_unusable dir es pre d post defaults :
    described yaml dir es (pre ++ d :: post) -> Forall usable pre ->
    (ds_spec d <> u "rules" -> database dir (Listing es) defaults = Err UnknownSpecError) /\
    (ds_spec d = u "rules" -> (forall url, ds_args d <> VStr url) -> database dir (Listing es) defaults = Err ValueError).
  Proof.
    intros H Hp. rewrite (database_items _ _ _ _ H), mapM_app, (items_usable pre Hp). cbn [bind mapM].
    destruct (item_cases d) as [((url & U1 & U2) & _)|[(_ & N & ->)|(_ & N1 & N2 & ->)]]; split; intros; try reflexivity; try congruence.
  Qed.

  (** Usable descriptions are rejected if a url contains a non-ASCII character, and otherwise
      if two have the same hash, in particular if a url is listed twice. *)
  Theorem C127_not_unique dir es ds urls defaults :
    described yaml dir es ds -> Forall2 rules_url ds urls ->
    (~ Forall ascii urls -> database dir (Listing es) defaults = Err ValueError) /\
    (Forall ascii urls -> ~ NoDup (map (fun x => hexdigest (sha1 x)) urls) -> database dir (Listing es) defaults = Err RuntimeError) /\
    (Forall ascii urls -> ~ NoDup urls -> database dir (Listing es) defaults = Err RuntimeError).
  Proof.
    intros H Hu. rewrite (database_items _ _ _ _ H), items_usable.
    2: { clear - Hu. induction Hu; constructor; [eexists; eassumption|assumption]. }
    cbn [bind]. unfold verify_unique_ids.
    assert (R : Forall ascii urls -> ~ NoDup (map (fun x => hexdigest (sha1 x)) urls) ->
      (let* _ := let* ids := mapM (fun s => id_string sha1 (unique_id s)) (map source_described ds) in
                 if distinct ids then Ok tt else Err RuntimeError in Ok (map source_described ds)) = Err RuntimeError).
    { intros Ha Hn. rewrite (proj1 (ids_of ds urls Hu) Ha). cbn [bind].
      destruct (distinct _) eqn:E; [exfalso; apply Hn, distinct_NoDup, E|reflexivity]. }
    split; [|split].
    - intros Ha. rewrite (proj2 (ids_of ds urls Hu) Ha). reflexivity.
    - exact R.
    - intros Ha Hn. apply R; [exact Ha|]. intros X. apply Hn. apply NoDup_map_inv in X. exact X.
  Qed.
End Descriptions.

(** ** Non-vacuity: two files and an unrelated one. *)
Definition dx_yaml (t : text) : res pyval :=
  if eqb t (u "A") then Ok (VList [written (u "rules", VStr (u "http://a")); written (u "rules", VStr (u "http://b"))])
  else if eqb t (u "B") then Ok (VList [written (u "rules", VStr (u "http://c"))])
  else if eqb t (u "C") then Ok (VList [written (u "rules", VInt 3)])
  else if eqb t (u "D") then Ok (VList [written (u "git", VStr (u "http://c"))])
  else Err YAMLError.
Definition dx_entry (name data : text) : dir_entry := {| de_name := name; de_isfile := true; de_read := Ok data |}.
Definition dx_files : list dir_entry :=
  [dx_entry (u "10.yaml") (u "A"); dx_entry (u "README") (u "x"); dx_entry (u "20.yaml") (u "B"); dx_entry (u "30.yaml") (u "%")].
Definition dx_good : list description :=
  [{| ds_file := u "/s/10.yaml"; ds_spec := u "rules"; ds_args := VStr (u "http://a") |};
   {| ds_file := u "/s/10.yaml"; ds_spec := u "rules"; ds_args := VStr (u "http://b") |};
   {| ds_file := u "/s/20.yaml"; ds_spec := u "rules"; ds_args := VStr (u "http://c") |}].

Lemma dx_source name data (H : exists stem, path_join (u "/s") name = stem ++ u ".yaml") (H' : ~ hidden (path_join (u "/s") name)) :
  is_source_file (u "/s") (dx_entry name data).
Proof. split; [reflexivity|]. split; [exact H|exact H']. Qed.
Ltac dx_file := apply dx_source; [vm_compute; eexists (_ :: _ :: _ :: _ :: _ :: nil); reflexivity|let X := fresh in intros [? X]; vm_compute in X; discriminate X].

Example C127_nonvacuous :
  described dx_yaml (u "/s") dx_files dx_good /\
  Forall2 rules_url dx_good [u "http://a"; u "http://b"; u "http://c"] /\
  NoDup (map (fun x => hexdigest (x_sha1 x)) [u "http://a"; u "http://b"; u "http://c"]) /\
  described dx_yaml (u "/s") (dx_files ++ [dx_entry (u "40.yaml") (u "C")])
    (dx_good ++ [{| ds_file := u "/s/40.yaml"; ds_spec := u "rules"; ds_args := VInt 3 |}]) /\
  described dx_yaml (u "/s") (dx_files ++ [dx_entry (u "40.yaml") (u "D")])
    (dx_good ++ [{| ds_file := u "/s/40.yaml"; ds_spec := u "git"; ds_args := VStr (u "http://c") |}]) /\
  described dx_yaml (u "/s") (dx_files ++ [dx_entry (u "40.yaml") (u "B")])
    (dx_good ++ [{| ds_file := u "/s/40.yaml"; ds_spec := u "rules"; ds_args := VStr (u "http://c") |}]).
Proof.
  assert (K : forall es ds, described dx_yaml (u "/s") es ds -> described dx_yaml (u "/s") (dx_files ++ es) (dx_good ++ ds)).
  { intros es ds H. unfold dx_files, dx_good. cbn [app].
    refine (described_file _ _ (dx_entry (u "10.yaml") (u "A")) _ (_ :: _) (u "A") [(u "rules", VStr (u "http://a")); (u "rules", VStr (u "http://b"))] _ eq_refl eq_refl _); [dx_file|].
    apply described_other; [intros (_ & (stem & E) & _); apply (f_equal (@rev N)) in E; rewrite rev_app_distr in E; vm_compute in E; discriminate E|].
    refine (described_file _ _ (dx_entry (u "20.yaml") (u "B")) _ ds (u "B") [(u "rules", VStr (u "http://c"))] _ eq_refl eq_refl _); [dx_file|].
    refine (described_broken _ _ (dx_entry (u "30.yaml") (u "%")) _ ds (u "%") _ eq_refl eq_refl _); [dx_file|exact H]. }
  assert (K1 : forall data p, dx_yaml data = Ok (VList [written p]) ->
    described dx_yaml (u "/s") [dx_entry (u "40.yaml") data] [{| ds_file := u "/s/40.yaml"; ds_spec := fst p; ds_args := snd p |}]).
  { intros data p E. refine (described_file _ _ (dx_entry (u "40.yaml") data) [] [] data [p] _ eq_refl E _); [dx_file|constructor]. }
  split; [rewrite <- (app_nil_r dx_files), <- (app_nil_r dx_good); apply K; constructor|].
  split; [repeat constructor|].
  split; [apply (proj1 (distinct_NoDup _)); vm_compute; reflexivity|].
  split; [apply K, (K1 (u "C") (u "rules", VInt 3)); reflexivity|].
  split; [apply K, (K1 (u "D") (u "git", VStr (u "http://c"))); reflexivity|].
  apply K, (K1 (u "B") (u "rules", VStr (u "http://c"))); reflexivity.
Qed.

Print Assumptions C127_accepted.
Print Assumptions C127_unusable.
Print Assumptions C127_not_unique.
