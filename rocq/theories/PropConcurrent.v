(** Properties C97 and C98: lookups and updates running at the same time. *)
From Verif Require Import Base Dict PyVal RulesDict Verify Sources Crash CacheProofs SourcesSpec PropSources Concurrent.
From Verif Require Codec.
From Coq Require Import Lia.
Notation S := Datatypes.S.

(** ** File operations of one process *)

(** Bytes are appended to the file opened last only. *)
Fixpoint ops_ok (c : option text) (ops : list fsop) : Prop :=
  match ops with
  | [] => True
  | Truncate p :: r => ops_ok (Some p) r
  | Append p _ :: r => c = Some p /\ ops_ok c r
  end.

Fixpoint current (c : option text) (ops : list fsop) : option text :=
  match ops with
  | [] => c
  | Truncate p :: r => current (Some p) r
  | Append _ _ :: r => current c r
  end.

Lemma ops_ok_app c a b : ops_ok c (a ++ b) <-> ops_ok c a /\ ops_ok (current c a) b.
Proof.
  revert c; induction a as [|[p|p x] a IH]; intros c; simpl; [tauto|apply IH|rewrite IH; tauto].
Qed.

Lemma appends_ok p bytes : ops_ok (Some p) (map (Append p) bytes).
Proof. induction bytes; simpl; auto. Qed.

Lemma write_ops_ok c w p bytes : ops_ok c (write_ops w p bytes).
Proof. destruct w; simpl; auto using appends_ok. Qed.

Lemma source_ops_ok sha1 dumps version envs cd i s c : ops_ok c (source_ops sha1 dumps version envs cd i s).
Proof.
  unfold source_ops; destruct (load_from_source (envs i) s) as [s' [?|?]]; [|exact I].
  destruct (source_path sha1 cd s'); [apply write_ops_ok|exact I].
Qed.

Lemma update_ops_ok sha1 dumps version envs cd l : forall i c, ops_ok c (update_ops sha1 dumps version envs cd i l).
Proof.
  induction l as [|s l IH]; intros i c; [exact I|].
  cbn [update_ops]; apply ops_ok_app; split; [apply source_ops_ok|].
  destruct (snd _) as [?|e]; [apply IH|destruct (is_Exception e); [apply IH|exact I]].
Qed.

(** ** Schedules *)
Lemma crun_from_app st a b : crun_from st (a ++ b) = crun_from (crun_from st a) b.
Proof. apply fold_left_app. Qed.

Lemma ops_of_app i a b : ops_of i (a ++ b) = ops_of i a ++ ops_of i b.
Proof. unfold ops_of; rewrite filter_app, map_app; reflexivity. Qed.

Lemma write_at_end b t : write_at (List.length t) b t = t ++ [b].
Proof.
  unfold write_at; rewrite Nat.sub_diag; simpl repeat; rewrite app_nil_r, firstn_all.
  rewrite skipn_all2 by lia; reflexivity.
Qed.

(** A file only process [i] touches develops as if [i] was alone. *)
Lemma alone i q sched : forall f off h c,
  ops_ok c (ops_of i sched) ->
  (forall j o, In (j, o) sched -> j <> i -> op_path o <> q) ->
  get q f = get q h ->
  (c = Some q -> off i = List.length (contents q h) /\ get q h <> None) ->
  get q (fst (crun_from (f, off) sched)) = get q (run_ops (ops_of i sched) h).
Proof.
  induction sched as [|[j o] sched IH]; intros f off h c Hok Hother Hq Hc; [exact Hq|].
  assert (Ho : forall j o, In (j, o) sched -> j <> i -> op_path o <> q) by (intros; apply (Hother j0 o0); [right|]; assumption).
  unfold crun_from, ops_of, run_ops in *; cbn [fold_left filter fst] in *.
  destruct (Nat.eqb_spec j i) as [->|Hj]; cbn [map fold_left snd] in *.
  - destruct o as [p|p b]; cbn [crun_op run_op ops_ok] in *.
    + apply (IH _ _ _ (Some p) Hok Ho).
      * rewrite !get_set; destruct (eqb_spec q p); [reflexivity|exact Hq].
      * intros E; injection E as ->; unfold set_offset, contents; rewrite Nat.eqb_refl, get_set, eqb_refl; split; [reflexivity|discriminate].
    + destruct Hok as [-> Hok]; apply (IH _ _ _ (Some p) Hok Ho).
      * rewrite !get_set; destruct (eqb_spec q p) as [->|_]; [|exact Hq].
        destruct (Hc eq_refl) as [Hl Hn]; unfold contents in *; rewrite Hq.
        destruct (get p h) as [t|]; [|congruence]; rewrite Hl, write_at_end; reflexivity.
      * intros E; injection E as ->; destruct (Hc eq_refl) as [Hl Hn]; unfold set_offset, contents in *.
        rewrite Nat.eqb_refl, get_set, eqb_refl; destruct (get q h) as [t|]; [|congruence].
        rewrite Hl, app_length; simpl; split; [lia|discriminate].
  - assert (Hp : op_path o <> q) by (apply (Hother j o); [left; reflexivity|exact Hj]).
    destruct o as [p|p b]; cbn [crun_op op_path] in *.
    + apply (IH _ _ _ c Hok Ho).
      * rewrite get_set; destruct (eqb_spec q p); [subst; congruence|exact Hq].
      * unfold set_offset; destruct (Nat.eqb_spec i j) as [->|_]; [congruence|exact Hc].
    + apply (IH _ _ _ c Hok Ho).
      * rewrite get_set; destruct (eqb_spec q p); [subst; congruence|exact Hq].
      * unfold set_offset; destruct (Nat.eqb_spec i j) as [->|_]; [congruence|exact Hc].
Qed.

(** ** C97: a lookup while an update is under way *)
Fixpoint truncs (ops : list fsop) : list text :=
  match ops with [] => [] | Truncate p :: r => p :: truncs r | Append _ _ :: r => truncs r end.

Lemma truncs_app a b : truncs (a ++ b) = truncs a ++ truncs b.
Proof. induction a as [|[p|p x] a IH]; simpl; [reflexivity|rewrite IH; reflexivity|exact IH]. Qed.

Lemma truncs_appends p bytes : truncs (map (Append p) bytes) = [].
Proof. induction bytes; simpl; auto. Qed.

Lemma truncs_In p ops : In p (truncs ops) -> In (Truncate p) ops.
Proof. induction ops as [|[q|q x] a IH]; simpl; [tauto|intros [->|H]; auto|auto]. Qed.

(** Nothing happens to a file that is not opened. *)
Lemma not_opened q ops : forall c, ops_ok c ops -> c <> Some q -> ~ In q (truncs ops) ->
  forall o, In o ops -> op_path o <> q.
Proof.
  induction ops as [|[p|p x] ops IH]; intros c Hok Hc Hn o Ho; [destruct Ho|..]; simpl in *.
  - assert (Hp : p <> q) by tauto; destruct Ho as [<-|Ho]; [exact Hp|].
    apply (IH (Some p)); auto; congruence.
  - destruct Hok as [-> Hok]; destruct Ho as [<-|Ho]; [simpl; congruence|].
    apply (IH (Some p)); auto.
Qed.

Lemma grows q ops : ~ In q (truncs ops) -> forall f t, get q f = Some t ->
  exists more, get q (run_ops ops f) = Some (t ++ more).
Proof.
  induction ops as [|[p|p x] ops IH]; intros Hn f t Hg; simpl in Hn.
  - exists []; rewrite app_nil_r; exact Hg.
  - apply IH; [tauto|]; cbn [run_op]; rewrite get_set_other; [exact Hg|]; intros ->; tauto.
  - unfold run_ops in *; cbn [fold_left run_op]; destruct (eqb_spec q p) as [->|Hp].
    + rewrite Hg; destruct (IH Hn (set p (t ++ [x]) f) (t ++ [x]) (get_set_same _ _ _)) as [more E].
      exists (x :: more); rewrite E, <- app_assoc; reflexivity.
    + apply IH; [exact Hn|]; rewrite get_set_other; [exact Hg|congruence].
Qed.

Lemma opened q ops : In q (truncs ops) -> forall f, exists t, get q (run_ops ops f) = Some t.
Proof.
  intros H f; apply in_split in H.
  assert (G : forall ops f, In q (truncs ops) \/ (exists t, get q f = Some t) -> exists t, get q (run_ops ops f) = Some t).
  { clear; intros ops; induction ops as [|[p|p x] ops IH]; intros f H; simpl in H.
    - destruct H as [[]|H]; exact H.
    - unfold run_ops in *; cbn [fold_left run_op]; apply IH; rewrite get_set; destruct (eqb_spec q p); [eauto|].
      destruct H as [[->|H]|H]; [congruence|left; exact H|right; exact H].
    - unfold run_ops in *; cbn [fold_left run_op]; apply IH; rewrite get_set; destruct (eqb_spec q p); [eauto|exact H]. }
  apply G; left; destruct H as (l1 & l2 & ->); apply in_app_iff; right; left; reflexivity.
Qed.

Section Update.
  Variable sha1 : text -> list N.
  Variable dumps : pyval -> text.
  Variable version : pyval.

  Lemma truncs_source envs cd i s :
    truncs (source_ops sha1 dumps version envs cd i s) = [] \/
    exists p, source_path sha1 cd s = Ok p /\ truncs (source_ops sha1 dumps version envs cd i s) = [p].
  Proof.
    unfold source_ops; pose proof (load_src_path sha1 (envs i) s cd) as HP.
    destruct (load_from_source (envs i) s) as [s' [[]|x]]; simpl in HP; [|left; reflexivity].
    rewrite HP; destruct (source_path sha1 cd s) as [p|]; [|left; reflexivity].
    destruct (e_write (envs i)); cbn [write_ops truncs]; rewrite ?truncs_appends; eauto.
  Qed.

  Lemma distinct_tail cd s l : distinct_paths sha1 cd (s :: l) -> distinct_paths sha1 cd l.
  Proof.
    intros Hd j j' t t' q Ht Ht' Hs1 Hs2.
    assert (E : S j = S j') by (eapply (Hd (S j) (S j')); simpl; eassumption); congruence.
  Qed.

  Lemma truncs_update envs cd l : distinct_paths sha1 cd l ->
    forall i, NoDup (truncs (update_ops sha1 dumps version envs cd i l)).
  Proof.
    induction l as [|s l IH]; intros Hd i; [constructor|]; cbn [update_ops]; rewrite truncs_app.
    set (rest := match snd _ with Ok _ => _ | Err e => _ end).
    assert (Hr : rest = update_ops sha1 dumps version envs cd (S i) l \/ rest = []).
    { unfold rest; destruct (snd _) as [[]|e]; auto; destruct (is_Exception e); auto. }
    assert (Hn : NoDup (truncs rest)) by (destruct Hr as [-> | ->]; [apply IH; eapply distinct_tail; exact Hd|constructor]).
    destruct (truncs_source envs cd i s) as [-> |(p & Ep & ->)]; [exact Hn|]; simpl; constructor; [|exact Hn].
    intros Hin; apply truncs_In in Hin; destruct Hr as [-> | ->]; [|destruct Hin].
    apply update_ops_paths in Hin; destruct Hin as (t & Ht & Et); apply In_nth_error in Ht; destruct Ht as [j Hj].
    assert (E : 0 = S j) by (eapply (Hd 0 (S j)); simpl; try reflexivity; eassumption); discriminate.
  Qed.

  (** A file is not opened, or holds the beginning of a record. *)
  Lemma update_contents envs cd l q : forall i f,
    let ops := update_ops sha1 dumps version envs cd i l in
    ~ In q (truncs ops) \/ exists r n, get q (run_ops ops f) = Some (firstn n (dumps r)).
  Proof.
    induction l as [|s l IH]; intros i f; [left; intros []|]; cbn [update_ops]; cbv zeta; rewrite run_ops_app, truncs_app, in_app_iff.
    set (rest := match snd _ with Ok _ => _ | Err e => _ end).
    set (g := run_ops (source_ops sha1 dumps version envs cd i s) f).
    assert (Hr : rest = update_ops sha1 dumps version envs cd (S i) l \/ rest = []).
    { unfold rest; destruct (snd _) as [[]|e]; auto; destruct (is_Exception e); auto. }
    assert (Hx : ~ In q (truncs rest) \/ exists r n, get q (run_ops rest g) = Some (firstn n (dumps r)))
      by (destruct Hr as [-> | ->]; [apply IH|left; intros []]).
    destruct Hx as [Hx|Hx]; [|right; exact Hx].
    assert (Hg : ~ In q (truncs (source_ops sha1 dumps version envs cd i s)) \/ exists r n, get q g = Some (firstn n (dumps r))).
    { unfold g, source_ops; destruct (load_from_source (envs i) s) as [s' [?|?]]; [|left; intros []].
      destruct (source_path sha1 cd s') as [p|]; [|left; intros []]; rewrite run_write.
      destruct (e_write (envs i)) as [|e|n e]; [|left; intros []|]; cbn [write_ops truncs]; rewrite truncs_appends;
        (rewrite get_set; destruct (eqb_spec q p); [right|left; intros [->|[]]; congruence]).
      - exists (cache_record version s'), (List.length (dumps (cache_record version s'))); rewrite firstn_all; reflexivity.
      - exists (cache_record version s'), n; reflexivity. }
    destruct Hg as [Hg|(r & n & Hg)]; [left; tauto|right; exists r, n].
    assert (Hok : ops_ok None rest) by (destruct Hr as [-> | ->]; [apply update_ops_ok|exact I]).
    rewrite ops_other; [exact Hg|].
    intros o Ho; pose proof (not_opened q _ None Hok ltac:(discriminate) Hx o Ho) as H; destruct o; exact H.
  Qed.

  Lemma partial_contents envs cd l f k q : distinct_paths sha1 cd l ->
    let ops := update_ops sha1 dumps version envs cd 0 l in
    get q (run_ops (firstn k ops) f) = get q f \/
    exists r m n, get q (run_ops ops f) = Some (firstn m (dumps r)) /\
      get q (run_ops (firstn k ops) f) = Some (firstn n (firstn m (dumps r))).
  Proof.
    intros Hd; cbv zeta; pose proof (update_contents envs cd l q 0 f) as Hu; cbv zeta in Hu; pose proof (truncs_update envs cd l Hd 0) as Hn.
    pose proof (update_ops_ok sha1 dumps version envs cd l 0 None) as Hok.
    set (ops := update_ops sha1 dumps version envs cd 0 l) in *.
    rewrite <- (firstn_skipn k ops) in Hn, Hok; rewrite truncs_app in Hn; apply ops_ok_app in Hok; destruct Hok as [Hok _].
    destruct (in_dec (list_eq_dec N.eq_dec) q (truncs (firstn k ops))) as [Hin|Hin].
    - right; destruct (opened q _ Hin f) as [t Et].
      assert (Hs : ~ In q (truncs (skipn k ops))).
      { intros H; apply in_split in Hin; destruct Hin as (l1 & l2 & El); rewrite El in Hn.
        rewrite <- app_assoc in Hn; apply NoDup_remove_2 in Hn; apply Hn; rewrite !in_app_iff; auto. }
      destruct Hu as [Hu|(r & m & Hu)].
      { elim Hu; rewrite <- (firstn_skipn k ops), truncs_app, in_app_iff; left; exact Hin. }
      destruct (grows q _ Hs _ t Et) as [more Em]; rewrite <- run_ops_app, firstn_skipn in Em.
      exists r, m, (List.length t); split; [exact Hu|].
      assert (Hm : firstn m (dumps r) = t ++ more) by congruence; rewrite Hm.
      rewrite Et, firstn_app, firstn_all, Nat.sub_diag; simpl; rewrite app_nil_r; reflexivity.
    - left; apply ops_other; intros o Ho; pose proof (not_opened q _ None Hok ltac:(discriminate) Hin o Ho) as H.
      destruct o; exact H.
  Qed.
End Update.

(** What is left of the file being written is the beginning of its new contents. *)
Theorem C21_damaged_is_beginning yaml sha1 dumps version specs dir st defaults l cache_dir envs f k q :
  init_from_sources yaml sha1 specs dir st defaults = Ok l ->
  let crashed := run_ops (firstn k (update_ops sha1 dumps version envs cache_dir 0 l)) f in
  let complete := snd (fst (db_update sha1 dumps version envs false cache_dir l f)) in
  get q crashed = get q f \/
  exists t n, get q complete = Some t /\ get q crashed = Some (firstn n t).
Proof.
  intros E; cbv zeta; rewrite <- C21_operations_are_update.
  destruct (partial_contents sha1 dumps version envs cache_dir l f k q) as [H|(r & m & n & H1 & H2)];
    [exact (proj2 (C19_distinct_cache_files yaml sha1 specs dir st defaults l cache_dir E))|left; exact H|].
  right; eauto.
Qed.

(** No proper beginning of a pickled value can be unpickled. *)
Definition no_partial_value (dumps : pyval -> text) (loads : text -> res pyval) : Prop :=
  forall v n, n < List.length (dumps v) -> exists e, loads (firstn n (dumps v)) = Err e.

(** A process that reads a cache file at some moment of an update (or after it was killed)
    loads what was there before, or what is there when the update is complete, or nothing. *)
Theorem C97_old_or_new_partial yaml sha1 dumps loads version specs dir st defaults l cache_dir envs f k s :
  init_from_sources yaml sha1 specs dir st defaults = Ok l -> no_partial_value dumps loads ->
  let now := run_ops (firstn k (update_ops sha1 dumps version envs cache_dir 0 l)) f in
  let complete := snd (fst (db_update sha1 dumps version envs false cache_dir l f)) in
  load_from_cache sha1 loads cache_dir now s = load_from_cache sha1 loads cache_dir f s \/
  load_from_cache sha1 loads cache_dir now s = load_from_cache sha1 loads cache_dir complete s \/
  exists e, load_from_cache sha1 loads cache_dir now s = (s, Err e).
Proof.
  intros E Hp; cbv zeta; rewrite <- C21_operations_are_update.
  destruct (source_path sha1 cache_dir s) as [p|e] eqn:Ep.
  2:{ right; right; exists e; unfold load_from_cache; rewrite Ep; reflexivity. }
  assert (Hx : forall g h, get p g = get p h -> load_from_cache sha1 loads cache_dir g s = load_from_cache sha1 loads cache_dir h s).
  { intros g h H; apply load_from_cache_ext; intros p' Ep'; congruence. }
  destruct (partial_contents sha1 dumps version envs cache_dir l f k p) as [H|(r & m & n & Ht & H)];
    [exact (proj2 (C19_distinct_cache_files yaml sha1 specs dir st defaults l cache_dir E))|left; apply Hx; exact H|].
  right; destruct (le_lt_dec (List.length (firstn m (dumps r))) n) as [Hl|Hl].
  { left; apply Hx; rewrite H, Ht, (firstn_all2 (n := n)) by exact Hl; reflexivity. }
  right; rewrite firstn_firstn in H; rewrite firstn_length in Hl.
  destruct (Hp r (Nat.min n m)) as [e He]; [lia|].
  exists e; unfold load_from_cache, read_cache; rewrite Ep; cbn [bind]; rewrite H, He; reflexivity.
Qed.

(** So a database that could be loaded meanwhile holds for every source the complete data of
    before or after. *)
Theorem C97_database_partial yaml sha1 dumps loads version specs dir st defaults l cache_dir envs f k l' g :
  init_from_sources yaml sha1 specs dir st defaults = Ok l -> no_partial_value dumps loads ->
  let now := run_ops (firstn k (update_ops sha1 dumps version envs cache_dir 0 l)) f in
  let complete := snd (fst (db_update sha1 dumps version envs false cache_dir l f)) in
  db_load_from_cache sha1 loads true cache_dir l now = (l', g, Ok tt) ->
  g = now /\
  Forall2 (fun s s' => load_from_cache sha1 loads cache_dir f s = (s', Ok tt) \/
                       load_from_cache sha1 loads cache_dir complete s = (s', Ok tt)) l l'.
Proof.
  intros E Hp now complete H.
  assert (Hs : forall s, _) by exact (fun s => C97_old_or_new_partial yaml sha1 dumps loads version specs dir st defaults l cache_dir envs f k s E Hp).
  cbv zeta in Hs; fold now complete in Hs.
  unfold db_load_from_cache in H; revert H; generalize 0 as i; revert l'; clearbody now complete; clear E; induction l as [|s l IH]; intros l' i H.
  - cbn in H; injection H as <- <-; split; [reflexivity|constructor].
  - cbn [for_sources] in H; destruct (load_from_cache sha1 loads cache_dir now s) as [s' r] eqn:El.
    destruct (for_sources _ true (S i) l now) as [[l'' f''] r'] eqn:Ef.
    destruct r as [[]|e]; [|cbn in H; discriminate].
    injection H as <- <- ->; destruct (IH l'' (S i) Ef) as [-> H2]; split; [reflexivity|]; constructor; [|exact H2].
    specialize (Hs s); rewrite El in Hs; destruct Hs as [Hs|[Hs|[e Hs]]]; [left|right|discriminate]; symmetry; exact Hs.
Qed.

(** The assumption about pickle can be met. *)
Definition parser_ext {A} (p q : Codec.parser A) : Prop :=
  forall s x r more, p s = Some (x, r) -> q (s ++ more) = Some (x, r ++ more).

Lemma ext_text : parser_ext Codec.dec_text Codec.dec_text.
Proof.
  intros [|n s] x r more; cbn [Codec.dec_text app]; [discriminate|].
  destruct (Nat.leb_spec (N.to_nat n) (List.length s)) as [Hl|]; [|discriminate]; intros E; injection E as <- <-.
  rewrite app_length; destruct (Nat.leb_spec (N.to_nat n) (List.length s + List.length more)); [|lia].
  rewrite firstn_app, skipn_app; replace (N.to_nat n - List.length s) with 0 by lia; simpl; rewrite app_nil_r; reflexivity.
Qed.

Lemma ext_many {A} (p q : Codec.parser A) : parser_ext p q -> forall n, parser_ext (Codec.dec_many p n) (Codec.dec_many q n).
Proof.
  intros H n; induction n as [|n IH]; intros s x r more; cbn [Codec.dec_many].
  - intros E; injection E as <- <-; reflexivity.
  - destruct (p s) as [[y r1]|] eqn:Ep; [|discriminate]; rewrite (H _ _ _ more Ep).
    destruct (Codec.dec_many p n r1) as [[ys r2]|] eqn:En; [|discriminate]; rewrite (IH _ _ _ more En).
    intros E; injection E as <- <-; reflexivity.
Qed.

Lemma ext_pair {A B} (p p' : Codec.parser A) (q q' : Codec.parser B) :
  parser_ext p p' -> parser_ext q q' -> parser_ext (Codec.dec_pair p q) (Codec.dec_pair p' q').
Proof.
  intros Hp Hq s [x y] r more; unfold Codec.dec_pair.
  destruct (p s) as [[a r1]|] eqn:Ep; [|discriminate]; rewrite (Hp _ _ _ more Ep).
  destruct (q r1) as [[b r2]|] eqn:Eq; [|discriminate]; rewrite (Hq _ _ _ more Eq).
  intros E; injection E as <- <- <-; reflexivity.
Qed.

Lemma ext_key : parser_ext Codec.dec_key Codec.dec_key.
Proof.
  intros [|[|[p|p|]] s] x r more; cbn [Codec.dec_key app]; try discriminate.
  - destruct (Codec.dec_text s) as [[t r1]|] eqn:E; [|discriminate]; rewrite (ext_text _ _ _ more E).
    intros H; injection H as <- <-; reflexivity.
  - destruct p; try discriminate; destruct (Codec.dec_text s) as [[t r1]|] eqn:E; try discriminate; rewrite (ext_text _ _ _ more E).
    intros H; injection H as <- <-; reflexivity.
  - destruct p; try discriminate; destruct s as [|n s]; cbn [app]; try discriminate; intros H; injection H as <- <-; reflexivity.
  - intros H; injection H as <- <-; reflexivity.
Qed.

Lemma ext_dec fuel : forall fuel', fuel <= fuel' -> parser_ext (Codec.dec fuel) (Codec.dec fuel').
Proof.
  induction fuel as [|fuel IH]; intros fuel' Hf s x r more H; [discriminate|].
  destruct fuel' as [|fuel']; [lia|]; specialize (IH fuel' ltac:(lia)).
  cbn [Codec.dec] in *.
  destruct s as [|a s]; [discriminate|]; cbn [app].
  destruct a as [|p]; [injection H as <- <-; reflexivity|].
  assert (T : forall (c : text -> pyval) y, match Codec.dec_text s with Some (t, r0) => Some (c t, r0) | None => None end = Some (y, r) ->
     match Codec.dec_text (s ++ more) with Some (t, r0) => Some (c t, r0) | None => None end = Some (y, r ++ more)).
  { intros c y Hy; destruct (Codec.dec_text s) as [[t r0]|] eqn:Et; [|discriminate]; rewrite (ext_text _ _ _ more Et); congruence. }
  destruct p as [p|p|].
  - destruct p as [p|p|]; [|destruct p; try discriminate|apply T; exact H]; [destruct p; discriminate|].
    destruct s as [|n s]; cbn [app]; [discriminate|].
    destruct (Codec.dec_many (Codec.dec fuel) (N.to_nat n) s) as [[l r0]|] eqn:E; [|discriminate].
    rewrite (ext_many _ _ IH _ _ _ _ more E); injection H as <- <-; reflexivity.
  - destruct p as [p|p|].
    + destruct p; try discriminate; destruct s as [|n s]; cbn [app]; try discriminate.
      destruct (Codec.dec_many (Codec.dec_pair Codec.dec_key (Codec.dec fuel)) (N.to_nat n) s) as [[l r0]|] eqn:E; [|discriminate].
      rewrite (ext_many _ _ (ext_pair _ _ _ _ ext_key IH) _ _ _ _ more E); injection H as <- <-; reflexivity.
    + destruct p; try discriminate; apply T; exact H.
    + destruct s as [|n s]; cbn [app]; try discriminate; injection H as <- <-; reflexivity.
  - destruct s as [|n s]; cbn [app]; try discriminate; injection H as <- <-; reflexivity.
Qed.

Lemma codec_no_partial : no_partial_value Codec.enc Codec.dec_all.
Proof.
  intros v n Hn; unfold Codec.dec_all.
  destruct (Codec.dec (List.length (firstn n (Codec.enc v))) (firstn n (Codec.enc v))) as [[w r]|] eqn:E; [|eauto].
  destruct r as [|c r]; [|eauto]; exfalso.
  assert (Hle : List.length (firstn n (Codec.enc v)) <= List.length (Codec.enc v)) by (rewrite firstn_length; lia).
  pose proof (ext_dec _ _ Hle _ _ _ (skipn n (Codec.enc v)) E) as H; rewrite firstn_skipn in H.
  pose proof (Codec.dec_enc v (List.length (Codec.enc v)) [] (Codec.vsize_length v)) as H'; rewrite app_nil_r in H'.
  rewrite H in H'; injection H' as -> Hs; apply (f_equal (@List.length N)) in Hs; rewrite skipn_length in Hs; simpl in Hs; lia.
Qed.

(** ** C98: updates at the same time *)

(** An updating process: its environment, cache directory and sources. *)
Record updater := { up_envs : nat -> step_env; up_cache_dir : text; up_sources : list source }.

Section Updaters.
  Variable sha1 : text -> list N.
  Variable dumps : pyval -> text.
  Variable version : pyval.
  Variable procs : nat -> updater.

  Definition up_ops (i : nat) : list fsop :=
    update_ops sha1 dumps version (up_envs (procs i)) (up_cache_dir (procs i)) 0 (up_sources (procs i)).

  (** Every process has got some way through its update; it may have been killed there. *)
  Definition possible (sched : schedule) : Prop := forall i, exists rest, up_ops i = ops_of i sched ++ rest.
  Definition finished (i : nat) (sched : schedule) : Prop := ops_of i sched = up_ops i.

  (** The update of process [i] alone. *)
  Definition alone_update (i : nat) (f : dict text text) : dict text text :=
    snd (fst (db_update sha1 dumps version (up_envs (procs i)) false (up_cache_dir (procs i)) (up_sources (procs i)) f)).

  (** Process [i] has a source with cache file [q]. *)
  Definition uses (i : nat) (q : text) : Prop :=
    exists s, In s (up_sources (procs i)) /\ source_path sha1 (up_cache_dir (procs i)) s = Ok q.

  Lemma possible_In sched i o : possible sched -> In (i, o) sched -> uses i (op_path o).
  Proof.
    intros Hp Hin; destruct (Hp i) as [rest Er].
    assert (H : In o (up_ops i)).
    { rewrite Er; apply in_app_iff; left; unfold ops_of; apply in_map_iff; exists (i, o); split; [reflexivity|].
      apply filter_In; split; [exact Hin|apply Nat.eqb_refl]. }
    apply update_ops_paths in H; destruct o; exact H.
  Qed.

  Lemma possible_ok sched i : possible sched -> ops_ok None (ops_of i sched).
  Proof.
    intros Hp; destruct (Hp i) as [rest Er]; pose proof (update_ops_ok sha1 dumps version (up_envs (procs i)) (up_cache_dir (procs i)) (up_sources (procs i)) 0 None) as H.
    fold (up_ops i) in H; rewrite Er in H; apply ops_ok_app in H; apply H.
  Qed.

  (** A cache file used by one process only is not affected by the others, whatever they do and
      wherever they are killed. *)
  Theorem C98_separate_files_partial sched f i q :
    possible sched -> (forall j, j <> i -> ~ uses j q) ->
    get q (crun sched f) = get q (run_ops (ops_of i sched) f) /\
    (finished i sched -> get q (crun sched f) = get q (alone_update i f)).
  Proof.
    intros Hp Hu.
    assert (H : get q (crun sched f) = get q (run_ops (ops_of i sched) f)).
    { unfold crun; apply (alone i q sched f (fun _ => 0) f None); [apply possible_ok, Hp| |reflexivity|discriminate].
      intros j o Hin Hj E; apply (Hu j Hj); rewrite <- E; eapply possible_In; eassumption. }
    split; [exact H|]; intros Hf; rewrite H, Hf; unfold alone_update; rewrite <- C21_operations_are_update; reflexivity.
  Qed.

  (** If several processes write a file, but nobody else touches it after process [i] opened
      it, it has what [i] wrote. *)
  Theorem C98_last_writer_partial f i q before after :
    let sched := before ++ (i, Truncate q) :: after in
    possible sched -> finished i sched ->
    (forall j o, In (j, o) after -> j <> i -> op_path o <> q) ->
    get q (crun sched f) = get q (alone_update i f).
  Proof.
    cbv zeta; intros Hp Hf Hn; unfold alone_update; rewrite <- C21_operations_are_update.
    fold (up_ops i); rewrite <- Hf.
    change ((i, Truncate q) :: after) with ([(i, Truncate q)] ++ after) in *.
    rewrite !ops_of_app; rewrite !run_ops_app; unfold crun; rewrite !crun_from_app.
    destruct (crun_from (f, fun _ => 0) before) as [g off].
    pose proof (possible_ok _ i Hp) as Hok; rewrite !ops_of_app in Hok; apply ops_ok_app in Hok; destruct Hok as [_ Hok].
    assert (E1 : ops_of i [(i, Truncate q)] = [Truncate q]) by (unfold ops_of; simpl; rewrite Nat.eqb_refl; reflexivity).
    rewrite E1 in *; cbn [app ops_ok] in Hok.
    unfold crun_from at 2; cbn [fold_left crun_op]; unfold run_ops at 2; cbn [fold_left run_op].
    apply (alone i q after _ _ _ (Some q)); [exact Hok|exact Hn|rewrite !get_set_same; reflexivity|].
    intros _; unfold contents, set_offset; rewrite get_set_same, Nat.eqb_refl; split; [reflexivity|discriminate].
  Qed.

  (** Every byte of a cache file was there before, or was written by one of the processes at
      this position of the record for this file, or is a zero byte. *)
  Definition record_byte (q : text) (n : nat) (b : N) : Prop :=
    exists i j s s', nth_error (up_sources (procs i)) j = Some s /\
      source_path sha1 (up_cache_dir (procs i)) s = Ok q /\
      load_from_source (up_envs (procs i) j) s = (s', Ok tt) /\
      nth_error (dumps (cache_record version s')) n = Some b.

  Fixpoint position (n : nat) (ops : list fsop) : nat :=
    match ops with
    | [] => n
    | Truncate _ :: r => position 0 r
    | Append _ _ :: r => position (S n) r
    end.

  Lemma position_app n a b : position n (a ++ b) = position (position n a) b.
  Proof. revert n; induction a as [|[p|p x] a IH]; intros n; simpl; auto. Qed.

  Lemma position_appends n p bytes : position n (map (Append p) bytes) = n + List.length bytes.
  Proof. revert n; induction bytes as [|b bytes IH]; intros n; simpl; [lia|rewrite IH; lia]. Qed.

  Lemma offset_position i sched : forall st, snd (crun_from st sched) i = position (snd st i) (ops_of i sched).
  Proof.
    induction sched as [|[j o] sched IH]; intros [g off]; [reflexivity|].
    unfold crun_from, ops_of in *; cbn [fold_left filter fst]; rewrite IH.
    destruct o as [p|p b]; cbn [crun_op snd]; unfold set_offset; rewrite Nat.eqb_sym;
      destruct (Nat.eqb_spec j i) as [->|Hj]; reflexivity.
  Qed.

  Lemma appended_split p bytes a q b c : map (Append p) bytes = a ++ Append q b :: c ->
    p = q /\ nth_error bytes (List.length a) = Some b /\ a = map (Append p) (firstn (List.length a) bytes).
  Proof.
    revert bytes; induction a as [|o a IH]; intros [|x bytes] H; simpl in H; try discriminate.
    - injection H as -> -> _; auto.
    - injection H as <- H; destruct (IH bytes H) as (-> & H1 & H2); simpl; rewrite <- H2; auto.
  Qed.

  Lemma write_split w p bytes a q b c : write_ops w p bytes = a ++ Append q b :: c ->
    forall n, p = q /\ nth_error bytes (position n a) = Some b.
  Proof.
    assert (G : forall bs, Truncate p :: map (Append p) bs = a ++ Append q b :: c ->
              forall n, p = q /\ nth_error bs (position n a) = Some b).
    { intros bs H n; destruct a as [|o a]; [discriminate|]; simpl in H; injection H as <- H.
      destruct (appended_split _ _ _ _ _ _ H) as (-> & H1 & H2); split; [reflexivity|]; simpl.
      rewrite H2, position_appends, firstn_length; simpl.
      assert (Hl : List.length a < List.length bs) by (apply nth_error_Some; congruence).
      replace (Nat.min (List.length a) (List.length bs)) with (List.length a) by lia; exact H1. }
    destruct w as [|e|n e]; cbn [write_ops]; [apply G|intros H; destruct a; discriminate|].
    intros H m; destruct (G _ H m) as [-> H1]; split; [reflexivity|].
    assert (Hl : position m a < List.length (firstn n bytes)) by (apply nth_error_Some; congruence).
    rewrite firstn_length in Hl; rewrite <- (firstn_skipn n bytes), nth_error_app1; [exact H1|rewrite firstn_length; exact Hl].
  Qed.

  Lemma app_split {A} (x y a : list A) o c : x ++ y = a ++ o :: c ->
    (exists c', x = a ++ o :: c') \/ exists a', a = x ++ a' /\ y = a' ++ o :: c.
  Proof.
    revert a; induction x as [|h x IH]; intros a H; [right; exists a; auto|].
    destruct a as [|h' a]; simpl in H; injection H as <- H; [left; exists x; reflexivity|].
    destruct (IH a H) as [[c' ->]|(a' & -> & H')]; [left; exists c'; reflexivity|right; exists a'; auto].
  Qed.

  Lemma update_split envs cd l : forall i a q b c n,
    update_ops sha1 dumps version envs cd i l = a ++ Append q b :: c ->
    exists j s s', nth_error l j = Some s /\ source_path sha1 cd s = Ok q /\
      load_from_source (envs (i + j)) s = (s', Ok tt) /\
      nth_error (dumps (cache_record version s')) (position n a) = Some b.
  Proof.
    induction l as [|s l IH]; intros i a q b c n H; [destruct a; discriminate|].
    cbn [update_ops] in H; apply app_split in H; destruct H as [[c' H]|(a' & -> & H)].
    - exists 0, s; unfold source_ops in H; pose proof (load_src_path sha1 (envs i) s cd) as HP; rewrite Nat.add_0_r.
      destruct (load_from_source (envs i) s) as [s' [[]|x]]; simpl in HP; [|destruct a; discriminate].
      rewrite HP in H; destruct (source_path sha1 cd s) as [p|]; [|destruct a; discriminate].
      destruct (write_split _ _ _ _ _ _ _ H n) as [-> H1].
      exists s'; repeat split; exact H1.
    - assert (Hr : update_ops sha1 dumps version envs cd (S i) l = a' ++ Append q b :: c).
      { destruct (snd _) as [[]|e]; [exact H|]; destruct (is_Exception e); [exact H|destruct a'; discriminate]. }
      destruct (IH (S i) a' q b c (position n (source_ops sha1 dumps version envs cd i s)) Hr) as (j & t & t' & H1 & H2 & H3 & H4).
      exists (S j), t, t'; repeat split; [exact H1|exact H2|rewrite <- plus_n_Sm; exact H3|rewrite position_app; exact H4].
  Qed.

  Lemma write_at_nth n b t m : nth_error (write_at n b t) m =
    if Nat.eqb m n then Some b
    else match nth_error t m with Some x => Some x | None => if Nat.ltb m n then Some zero_byte else None end.
  Proof.
    unfold write_at; set (t' := t ++ repeat zero_byte (n - List.length t)).
    assert (Hl : List.length (firstn n t') = n).
    { unfold t'; rewrite firstn_length, app_length, repeat_length; lia. }
    destruct (Nat.eqb_spec m n) as [->|Hm].
    { rewrite nth_error_app2 by lia; rewrite Hl, Nat.sub_diag; reflexivity. }
    destruct (Nat.ltb_spec m n) as [Hlt|Hge].
    - rewrite nth_error_app1 by lia; rewrite <- (firstn_skipn n t') in Hl.
      assert (E : nth_error (firstn n t') m = nth_error t' m).
      { rewrite <- (firstn_skipn n t') at 2; rewrite nth_error_app1; [reflexivity|].
        unfold t'; rewrite firstn_length, app_length, repeat_length; lia. }
      rewrite E; unfold t'; destruct (nth_error t m) as [x|] eqn:Ex.
      + rewrite nth_error_app1; [exact Ex|]; apply nth_error_Some; congruence.
      + apply nth_error_None in Ex; rewrite nth_error_app2 by exact Ex; apply nth_error_repeat; lia.
    - rewrite nth_error_app2 by lia; rewrite Hl; replace (m - n) with (S (m - S n)) by lia; cbn [nth_error].
      assert (E : nth_error (skipn (S n) t) (m - S n) = nth_error t m).
      { destruct (le_lt_dec (S n) (List.length t)) as [Hle|Hgt].
        - rewrite <- (firstn_skipn (S n) t) at 2; rewrite nth_error_app2; rewrite firstn_length; [f_equal; lia|lia].
        - rewrite skipn_all2 by lia; destruct (m - S n); symmetry; apply nth_error_None; lia. }
      rewrite E; destruct (nth_error t m); reflexivity.
  Qed.

  Theorem C98_bytes_partial sched f q n b :
    possible sched ->
    nth_error (contents q (crun sched f)) n = Some b ->
    nth_error (contents q f) n = Some b \/ record_byte q n b \/ b = zero_byte.
  Proof.
    revert n b; induction sched as [|[i o] sched IH] using rev_ind; intros n b Hp H; [left; exact H|].
    assert (Hp' : possible sched).
    { intros j; destruct (Hp j) as [rest Er]; rewrite ops_of_app, <- app_assoc in Er; eauto. }
    unfold crun in *; rewrite crun_from_app in H; pose proof (offset_position i sched (f, fun _ => 0)) as Ho.
    destruct (crun_from (f, fun _ => 0) sched) as [g off]; cbn [fst snd] in *.
    unfold crun_from in H; cbn [fold_left crun_op] in H; destruct o as [p|p x]; cbn [fst] in H;
      unfold contents in *; rewrite get_set in H; destruct (eqb_spec q p) as [->|Hq].
    - destruct n; discriminate.
    - apply (IH n b Hp' H).
    - rewrite write_at_nth in H; destruct (Nat.eqb_spec n (off i)) as [->|Hn].
      + injection H as <-; right; left; destruct (Hp i) as [rest Er].
        rewrite ops_of_app in Er; unfold ops_of at 2 in Er; simpl in Er; rewrite Nat.eqb_refl in Er; simpl in Er.
        rewrite <- app_assoc in Er; unfold up_ops in Er; cbn [app] in Er.
        destruct (update_split _ _ _ _ _ _ _ _ 0 Er) as (j & s & s' & H1 & H2 & H3 & H4).
        exists i, j, s, s'; rewrite Ho; repeat split; assumption.
      + destruct (nth_error _ n) as [y|] eqn:Ey; [injection H as ->; apply (IH n b Hp' Ey)|].
        destruct (Nat.ltb n (off i)); [injection H as <-; auto|discriminate].
    - apply (IH n b Hp' H).
  Qed.
End Updaters.

(** ** Concrete processes *)
Definition doc (boost curl : string) : pyval :=
  VDict [(KStr (u "boost"), VDict [(KStr (u "ubuntu"), VDict [(KStr (u "any_version"),
            VDict [(KStr (u "apt"), VDict [(KStr (u "packages"), VList [VStr (u boost)])])])])]);
         (KStr (u "curl"), VDict [(KStr (u "ubuntu"), VDict [(KStr (u "any_version"),
            VDict [(KStr (u "apt"), VDict [(KStr (u "packages"), VList [VStr (u curl)])])])])])].

(** The server first serves "A", later "B" (or the longer "C"). *)
Definition y_yaml (t : text) : res pyval :=
  if eqb t (u "A") then Ok (doc "boost1" "curl1")
  else if eqb t (u "B") then Ok (doc "boost2" "curl2")
  else if eqb t (u "C") then Ok (doc "boost-1.3" "curl")
  else if eqb t x_listing then x_yaml t
  else Err YAMLError.
Definition y_spec : spec := rules_spec x_uni y_yaml.
Definition y_source (url : string) : source := {|
  s_spec := y_spec; s_args := VStr (u url); s_origin := VStr (u "/s/10.yaml"); s_data := VNone; s_time := VNone |}.
Definition y_env (served : string) (_ : nat) : step_env :=
  {| e_net := fun _ => Ok (u served); e_now := VOther (u served); e_write := WriteOk |}.
Definition y_updater (served url : string) : updater :=
  {| up_envs := y_env served; up_cache_dir := u "/c"; up_sources := [y_source url] |}.
Definition idle : updater := {| up_envs := y_env "A"; up_cache_dir := u "/c"; up_sources := [] |}.
Definition y_procs (a b : updater) (i : nat) : updater := match i with 0 => a | 1 => b | _ => idle end.

Notation y_ops := (up_ops x_sha1 Codec.enc VNone).
Definition steps (i : nat) (ops : list fsop) : schedule := map (fun o => (i, o)) ops.

(** Process 0 opens the file and writes [k - 1] bytes, process 1 does its whole update, then
    process 0 goes on; process 1 has opened the file right after process 0. *)
Definition mixed (a b : updater) (k : nat) : schedule :=
  let p := y_procs a b in
  steps 0 (firstn 1 (y_ops p 0)) ++ steps 1 (firstn 1 (y_ops p 1)) ++
  steps 0 (firstn k (skipn 1 (y_ops p 0))) ++ steps 1 (skipn 1 (y_ops p 1)) ++
  steps 0 (skipn k (skipn 1 (y_ops p 0))).

Lemma ops_of_by i j ops : ops_of i (steps j ops) = if Nat.eqb j i then ops else [].
Proof.
  unfold ops_of, steps; destruct (Nat.eqb_spec j i) as [->|Hj]; induction ops as [|o ops IH]; try reflexivity; simpl.
  - rewrite Nat.eqb_refl; simpl; f_equal; exact IH.
  - destruct (Nat.eqb_spec j i); [congruence|exact IH].
Qed.

Lemma mixed_finished a b k :
  possible x_sha1 Codec.enc VNone (y_procs a b) (mixed a b k) /\
  finished x_sha1 Codec.enc VNone (y_procs a b) 0 (mixed a b k) /\
  finished x_sha1 Codec.enc VNone (y_procs a b) 1 (mixed a b k).
Proof.
  assert (H0 : finished x_sha1 Codec.enc VNone (y_procs a b) 0 (mixed a b k)).
  { unfold finished, mixed; cbv zeta; rewrite !ops_of_app, !ops_of_by; cbn [Nat.eqb app].
    rewrite firstn_skipn, firstn_skipn; reflexivity. }
  assert (H1 : finished x_sha1 Codec.enc VNone (y_procs a b) 1 (mixed a b k)).
  { unfold finished, mixed; cbv zeta; rewrite !ops_of_app, !ops_of_by; cbn [Nat.eqb app].
    rewrite app_nil_r, firstn_skipn; reflexivity. }
  split; [|split; assumption].
  intros [|[|i]]; [exists []; rewrite app_nil_r; symmetry; exact H0|exists []; rewrite app_nil_r; symmetry; exact H1|].
  unfold mixed; cbv zeta; rewrite !ops_of_app, !ops_of_by; cbn [Nat.eqb app]; exists []; reflexivity.
Qed.

(** Two updates of the same source, both without an error: one expects the cache to hold what
    one of them saved. It can hold a mixture that nobody ever served ... *)
Theorem C98_one_record_refuted :
  ~ (forall sha1 dumps loads version procs sched f i j s,
       possible sha1 dumps version procs sched ->
       finished sha1 dumps version procs i sched -> finished sha1 dumps version procs j sched ->
       (forall k q, uses sha1 procs k q -> k = i \/ k = j) ->
       In s (up_sources (procs i)) ->
       load_from_cache sha1 loads (up_cache_dir (procs i)) (crun sched f) s =
         load_from_cache sha1 loads (up_cache_dir (procs i)) (alone_update sha1 dumps version procs i f) s \/
       load_from_cache sha1 loads (up_cache_dir (procs i)) (crun sched f) s =
         load_from_cache sha1 loads (up_cache_dir (procs i)) (alone_update sha1 dumps version procs j f) s).
Proof.
  intros H; destruct (mixed_finished (y_updater "A" "http://a") (y_updater "B" "http://a") 220) as (Hp & H0 & H1).
  specialize (H x_sha1 Codec.enc Codec.dec_all VNone (y_procs (y_updater "A" "http://a") (y_updater "B" "http://a")) _ [] 0 1
    (y_source "http://a") Hp H0 H1).
  assert (Hu : forall k q, uses x_sha1 (y_procs (y_updater "A" "http://a") (y_updater "B" "http://a")) k q -> k = 0 \/ k = 1).
  { intros [|[|k]] q (s & Hs & _); auto; destruct Hs. }
  specialize (H Hu (or_introl eq_refl)).
  assert (Hm : map s_data [fst (load_from_cache x_sha1 Codec.dec_all (u "/c") (crun (mixed (y_updater "A" "http://a") (y_updater "B" "http://a") 220) []) (y_source "http://a"))] = [doc "boost2" "curl1"]).
  { vm_compute; reflexivity. }
  cbn [map] in Hm; destruct H as [H|H]; apply (f_equal (fun x => [s_data (fst x)])) in H; pose proof (eq_trans (eq_sym Hm) H) as H'; clear -H'; vm_compute in H'; discriminate.
Qed.

(** ... or nothing that can be read, so that every lookup fails until the next update. *)
Theorem C98_readable_refuted :
  ~ (forall sha1 dumps loads version procs sched f i j s,
       possible sha1 dumps version procs sched ->
       finished sha1 dumps version procs i sched -> finished sha1 dumps version procs j sched ->
       (forall k q, uses sha1 procs k q -> k = i \/ k = j) ->
       In s (up_sources (procs i)) ->
       snd (load_from_cache sha1 loads (up_cache_dir (procs i)) (alone_update sha1 dumps version procs i f) s) = Ok tt ->
       snd (load_from_cache sha1 loads (up_cache_dir (procs i)) (alone_update sha1 dumps version procs j f) s) = Ok tt ->
       snd (load_from_cache sha1 loads (up_cache_dir (procs i)) (crun sched f) s) = Ok tt).
Proof.
  intros H; destruct (mixed_finished (y_updater "A" "http://a") (y_updater "C" "http://a") 220) as (Hp & H0 & H1).
  specialize (H x_sha1 Codec.enc Codec.dec_all VNone (y_procs (y_updater "A" "http://a") (y_updater "C" "http://a")) _ [] 0 1
    (y_source "http://a") Hp H0 H1).
  assert (Hu : forall k q, uses x_sha1 (y_procs (y_updater "A" "http://a") (y_updater "C" "http://a")) k q -> k = 0 \/ k = 1).
  { intros [|[|k]] q (s & Hs & _); auto; destruct Hs. }
  specialize (H Hu (or_introl eq_refl) ltac:(vm_compute; reflexivity) ltac:(vm_compute; reflexivity)).
  clear -H; vm_compute in H; discriminate.
Qed.

(** If reading and writing overlap, the bytes read can be a mixture of old and new data that
    unpickles without an error. *)
Theorem C97_overlapping_read_refuted :
  ~ (forall sha1 dumps loads version procs i rsched f q,
       possible sha1 dumps version procs (writes_of rsched) ->
       (forall k p, uses sha1 procs k p -> k = i) -> finished sha1 dumps version procs i (writes_of rsched) ->
       no_partial_value dumps loads ->
       let got := snd (read_during q rsched f) in
       nth_error (contents q (crun (writes_of rsched) f)) (List.length got) = None ->
       loads got = loads (contents q f) \/ loads got = loads (contents q (alone_update sha1 dumps version procs i f)) \/
       exists e, loads got = Err e).
Proof.
  intros H.
  set (old := alone_update x_sha1 Codec.enc VNone (y_procs (y_updater "A" "http://a") idle) 0 []).
  set (procs := y_procs (y_updater "B" "http://a") idle).
  set (rsched := repeat None 210 ++ map (fun o => Some (0, o)) (y_ops procs 0) ++ repeat None 50).
  assert (Hw : writes_of rsched = steps 0 (y_ops procs 0)).
  { assert (G : forall n l, writes_of (repeat None n ++ l) = writes_of l) by (intros n l; induction n; simpl; auto).
    unfold rsched; rewrite G; unfold steps; induction (y_ops procs 0) as [|o ops IH]; [|cbn [map app writes_of]; rewrite IH; reflexivity].
    cbn [map app]; rewrite <- (app_nil_r (repeat None 50)), G; reflexivity. }
  specialize (H x_sha1 Codec.enc Codec.dec_all VNone procs 0 rsched old (u "/c/687474703a2f2f61.pickle")).
  rewrite Hw in H; cbv zeta in H.
  assert (H1 : possible x_sha1 Codec.enc VNone procs (steps 0 (y_ops procs 0))).
  { intros [|i]; rewrite ops_of_by; cbn [Nat.eqb]; [exists []; rewrite app_nil_r; reflexivity|exists (y_ops procs (S i)); reflexivity]. }
  assert (H2 : forall k p, uses x_sha1 procs k p -> k = 0).
  { intros [|[|k]] p (s & Hs & _); [reflexivity|destruct Hs|destruct Hs]. }
  assert (H3 : finished x_sha1 Codec.enc VNone procs 0 (steps 0 (y_ops procs 0))).
  { unfold finished; rewrite ops_of_by; reflexivity. }
  specialize (H H1 H2 H3 codec_no_partial).
  assert (H4 : nth_error (contents (u "/c/687474703a2f2f61.pickle") (crun (steps 0 (y_ops procs 0)) old))
                 (List.length (snd (read_during (u "/c/687474703a2f2f61.pickle") rsched old))) = None) by (vm_compute; reflexivity).
  specialize (H H4).
  assert (Hr : Codec.dec_all (snd (read_during (u "/c/687474703a2f2f61.pickle") rsched old)) =
    Ok (cache_record VNone {| s_spec := y_spec; s_args := VStr (u "http://a"); s_origin := VStr (u "/s/10.yaml");
                              s_data := doc "boost1" "curl2"; s_time := VOther (u "B") |})) by (vm_compute; reflexivity).
  destruct H as [H|[H|[e H]]]; pose proof (eq_trans (eq_sym Hr) H) as H'; clear -H'; vm_compute in H'; discriminate.
Qed.

(** ** The theorems apply to concrete runs *)
Example C97_nonvacuous :
  init_from_sources x_yaml x_sha1 [x_spec] (u "/s") x_dir [] = Ok [x_source "http://a"; x_source "http://b"] /\
  no_partial_value Codec.enc Codec.dec_all /\
  let ops := update_ops x_sha1 Codec.enc VNone x_envs (u "/c") 0 [x_source "http://a"; x_source "http://b"] in
  let old := fst (save_to_cache x_sha1 Codec.enc (VInt 7) (x_envs 0) (u "/c")
                    {| s_spec := x_spec; s_args := VStr (u "http://a"); s_origin := VNone; s_data := VDict []; s_time := VNone |} []) in
  (* before, during, after the file is written *)
  map (fun k => let '(s, r) := load_from_cache x_sha1 Codec.dec_all (u "/c") (run_ops (firstn k ops) old) (x_source "http://a") in
                (s_data s, match r with Ok _ => true | Err _ => false end)) [0; 20; List.length ops] =
  [(VDict [], true); (VNone, false); (x_data, true)].
Proof. split; [reflexivity|]; split; [exact codec_no_partial|]; vm_compute; reflexivity. Qed.

(** Two processes with different sources, interleaved byte by byte. *)
Example C98_nonvacuous :
  let procs := y_procs (y_updater "A" "http://a") (y_updater "B" "http://b") in
  let sched := mixed (y_updater "A" "http://a") (y_updater "B" "http://b") 100 in
  possible x_sha1 Codec.enc VNone procs sched /\ finished x_sha1 Codec.enc VNone procs 0 sched /\
  (forall j, j <> 0 -> ~ uses x_sha1 procs j (u "/c/687474703a2f2f61.pickle")) /\
  load_from_cache x_sha1 Codec.dec_all (u "/c") (crun sched []) (y_source "http://a") =
    ({| s_spec := y_spec; s_args := VStr (u "http://a"); s_origin := VStr (u "/s/10.yaml");
        s_data := doc "boost1" "curl1"; s_time := VOther (u "A") |}, Ok tt).
Proof.
  cbv zeta; destruct (mixed_finished (y_updater "A" "http://a") (y_updater "B" "http://b") 100) as (Hp & H0 & H1).
  split; [exact Hp|]; split; [exact H0|]; split; [|vm_compute; reflexivity].
  intros [|[|j]] Hj (s & Hs & E); [congruence| |destruct Hs].
  destruct Hs as [<-|[]]; vm_compute in E; discriminate.
Qed.

(** Process 1 opens the file first; process 0 opens it when process 1 is done. *)
Example C98_last_writer_nonvacuous :
  let procs := y_procs (y_updater "A" "http://a") (y_updater "B" "http://a") in
  let q := u "/c/687474703a2f2f61.pickle" in
  let before := steps 1 (y_ops procs 1) in
  let after := steps 0 (skipn 1 (y_ops procs 0)) in
  let sched := before ++ (0, Truncate q) :: after in
  possible x_sha1 Codec.enc VNone procs sched /\ finished x_sha1 Codec.enc VNone procs 0 sched /\
  (forall j o, In (j, o) after -> j <> 0 -> op_path o <> q) /\
  contents q (crun sched []) = contents q (alone_update x_sha1 Codec.enc VNone procs 0 []) /\
  contents q (crun sched []) <> [].
Proof.
  cbv zeta; set (procs := y_procs (y_updater "A" "http://a") (y_updater "B" "http://a")).
  assert (E : [Truncate (u "/c/687474703a2f2f61.pickle")] ++ skipn 1 (y_ops procs 0) = y_ops procs 0) by (vm_compute; reflexivity).
  assert (Ho : forall i, ops_of i (steps 1 (y_ops procs 1) ++ (0, Truncate (u "/c/687474703a2f2f61.pickle")) :: steps 0 (skipn 1 (y_ops procs 0))) =
     match i with 0 => y_ops procs 0 | 1 => y_ops procs 1 | _ => [] end).
  { intros i; change ((0, Truncate (u "/c/687474703a2f2f61.pickle")) :: steps 0 (skipn 1 (y_ops procs 0))) with
      (steps 0 ([Truncate (u "/c/687474703a2f2f61.pickle")] ++ skipn 1 (y_ops procs 0))); rewrite E, ops_of_app, !ops_of_by.
    destruct i as [|[|i]]; cbn [Nat.eqb app]; rewrite ?app_nil_r; reflexivity. }
  split; [|split; [|split; [|split; [vm_compute; reflexivity|vm_compute; discriminate]]]].
  - intros i; rewrite Ho; destruct i as [|[|i]]; exists []; rewrite ?app_nil_r; reflexivity.
  - unfold finished; rewrite Ho; reflexivity.
  - intros j o Hin Hj; apply in_map_iff in Hin; destruct Hin as (o' & Eo & _); congruence.
Qed.

Print Assumptions C21_damaged_is_beginning.
Print Assumptions C97_old_or_new_partial.
Print Assumptions C97_database_partial.
Print Assumptions C97_overlapping_read_refuted.
Print Assumptions C98_separate_files_partial.
Print Assumptions C98_last_writer_partial.
Print Assumptions C98_bytes_partial.
Print Assumptions C98_one_record_refuted.
Print Assumptions C98_readable_refuted.
