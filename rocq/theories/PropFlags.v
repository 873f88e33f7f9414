(** Properties C99 and C100: what a configuration value and what a flag on the command line
    mean. *)
From Verif Require Import Base Dict PyVal Sources Util Paths Config ConfigSpec ConfigTypeProofs ConfigProofs PropConfig.
From Coq Require Import Lia.
Notation S := Datatypes.S.
Local Opaque expand_input_path.

(** ** C99 *)
(** Specification: the value [w] that a YAML value [v] denotes for an option of type [t].
    [null] leaves the option unset (an empty dictionary for merging dictionaries); texts,
    booleans and values of any type denote themselves, paths are expanded, lists element by
    element.  In a dictionary the entries of one key (after expansion of paths in keys)
    override each other, the last one wins. *)
Definition key_means (env : penv) (kt : ktype) (k k' : pkey) : Prop :=
  match kt with
  | KtAny => k' = k
  | KtString => k' = k /\ (k = KNone \/ exists s, k = KStr s)
  | KtPath => (k = KNone /\ k' = KNone) \/ exists s, k = KStr s /\ k' = KStr (expand_input_path env s)
  end.

Definition last_entry {V W} (R : pkey -> pkey -> Prop) (Q : V -> W -> Prop) (d : list (pkey * V)) (k : pkey) (w : W) : Prop :=
  exists d1 k0 v0 d2, d = d1 ++ (k0, v0) :: d2 /\ R k0 k /\ Q v0 w /\ forall q, In q d2 -> ~ R (fst q) k.

Fixpoint means (env : penv) (t : ctype) (v w : pyval) : Prop :=
  (v = VNone /\ w = match t with TMerging _ _ => VDict [] | _ => VNone end) \/
  (v <> VNone /\
   match t with
   | TAny => w = v
   | TString => exists s, v = VStr s /\ w = VStr s
   | TBoolean => exists b, v = VBool b /\ w = VBool b
   | TPath => exists s, v = VStr s /\ w = VStr (expand_input_path env s)
   | TList e => exists l l', v = VList l /\ w = VList l' /\ Forall2 (means env e) l l'
   | TDict k e | TMerging k e =>
     exists d d', v = VDict d /\ w = VDict d' /\ NoDup (keys d') /\
       (forall p, In p d -> exists k' x, key_means env k (fst p) k' /\ means env e (snd p) x) /\
       (forall p k', In p d -> key_means env k (fst p) k' -> In k' (keys d')) /\
       (forall k' x, In (k', x) d' -> last_entry (key_means env k) (means env e) d k' x)
   end).

Lemma key_means_spec env kt k k' : key_from_yaml env kt k = Ok k' <-> key_means env kt k k'.
Proof.
  destruct kt, k; cbn [key_from_yaml key_means]; split; intros E; try discriminate;
    try (injection E as <-); eauto; try (subst; reflexivity).
  all: repeat match goal with
       | H : _ /\ _ |- _ => destruct H
       | H : _ \/ _ |- _ => destruct H
       | H : exists _, _ |- _ => destruct H
       end; try discriminate; try (subst; reflexivity); try congruence.
Qed.

Lemma entries_spec env k e d acc d' :
  foldM (entry_step env k e) d acc = Ok d' -> wf acc ->
  (forall p, In p d -> exists k' x, key_from_yaml env k (fst p) = Ok k' /\ from_yaml env e (snd p) = Ok x) /\
  forall k' x, In (k', x) d' <->
    (last_entry (fun a b => key_from_yaml env k a = Ok b) (fun a b => from_yaml env e a = Ok b) d k' x \/
     (In (k', x) acc /\ forall q, In q d -> key_from_yaml env k (fst q) <> Ok k')).
Proof.
  revert acc; induction d as [|[k0 v0] d IH]; cbn [foldM]; intros acc E Hw.
  - injection E as <-; split; [intros p []|]; intros k' x; split.
    + intros H; right; split; [exact H|intros q []].
    + intros [(d1 & ? & ? & d2 & E & _)|[H _]]; [destruct d1; discriminate|exact H].
  - apply bind_Ok in E; destruct E as (acc1 & E1 & E).
    unfold entry_step in E1; cbn [fst snd] in E1; apply bind_Ok in E1; destruct E1 as (x0 & Ex & E1).
    apply bind_Ok in E1; destruct E1 as (k1 & Ek & E1); injection E1 as <-.
    destruct (IH _ E (wf_set _ _ _ Hw)) as [IH1 IH2]; split.
    + intros p [<-|Hp]; [exists k1, x0; auto|auto].
    + intros k' x; rewrite IH2; clear IH IH1 IH2 E; split.
      * intros [(d1 & a & b & d2 & -> & H1 & H2 & H3)|[Hin Hno]].
        { left; exists ((k0, v0) :: d1), a, b, d2; auto. }
        apply In_get in Hin; [|apply wf_set; exact Hw]; rewrite get_set in Hin.
        destruct (eqb_spec k' k1) as [->|Hn].
        { injection Hin as <-; left; exists [], k0, v0, d; auto. }
        right; split; [apply get_In; exact Hin|]; intros q [<-|Hq]; [cbn [fst]; congruence|auto].
      * intros [(d1 & a & b & d2 & Ed & H1 & H2 & H3)|[Hin Hno]].
        { destruct d1 as [|p d1]; cbn [app] in Ed; injection Ed as E1 E2.
          - subst a b d2; right; split; [|exact H3].
            assert (k' = k1) by congruence; assert (x = x0) by congruence; subst.
            apply get_In; apply get_set_same.
          - subst d; left; exists d1, a, b, d2; auto. }
        right; split; [|intros q Hq; apply Hno; right; exact Hq].
        apply get_In; rewrite get_set_other; [apply In_get; [exact Hw|exact Hin]|].
        intros ->; apply (Hno (k0, v0) (or_introl eq_refl)); exact Ek.
Qed.

Lemma last_entry_iff {V W} (R R' : pkey -> pkey -> Prop) (Q Q' : V -> W -> Prop) (d : list (pkey * V)) k x :
  (forall a b, R a b <-> R' a b) -> (forall p b, In p d -> (Q (snd p) b -> Q' (snd p) b)) ->
  last_entry R Q d k x -> last_entry R' Q' d k x.
Proof.
  intros HR HQ (d1 & k0 & v0 & d2 & -> & H1 & H2 & H3); exists d1, k0, v0, d2; split; [reflexivity|].
  split; [apply HR; exact H1|]; split.
  - apply (HQ (k0, v0)); [apply in_elt|exact H2].
  - intros q Hq H; apply (H3 q Hq), HR, H.
Qed.

Lemma keys_entry {V} (d : list (pkey * V)) (R : pkey -> pkey -> Prop) k' p :
  (forall a, R a k' \/ ~ R a k') -> In p d -> R (fst p) k' ->
  exists d1 q d2, d = d1 ++ q :: d2 /\ R (fst q) k' /\ forall q' : pkey * V, In q' d2 -> ~ R (fst q') k'.
Proof.
  intros Hdec; induction d as [|q d IH] using rev_ind; [intros []|]; intros Hp HR.
  destruct (Hdec (fst q)) as [Hq|Hq]; [exists d, q, []; split; [reflexivity|split; [exact Hq|intros ? []]]|].
  apply in_app_or in Hp; destruct Hp as [Hp|[->|[]]]; [|contradiction].
  destruct (IH Hp HR) as (d1 & q1 & d2 & -> & H1 & H2); exists d1, q1, (d2 ++ [q]); rewrite <- app_assoc.
  split; [reflexivity|split; [exact H1|]]; intros q' Hq'; apply in_app_or in Hq'; destruct Hq' as [H|[<-|[]]]; auto.
Qed.

Lemma key_from_yaml_dec env kt a b : key_from_yaml env kt a = Ok b \/ key_from_yaml env kt a <> Ok b.
Proof.
  destruct (key_from_yaml env kt a) as [c|e]; [|right; discriminate].
  destruct (eqb_spec c b) as [->|]; [left; reflexivity|right; congruence].
Qed.

Lemma dict_means env k e (d d' : pydict) :
  (forall v w, from_yaml env e v = Ok w -> means env e v w) ->
  foldM (entry_step env k e) d [] = Ok d' ->
  NoDup (keys d') /\
  (forall p, In p d -> exists k' x, key_means env k (fst p) k' /\ means env e (snd p) x) /\
  (forall p k', In p d -> key_means env k (fst p) k' -> In k' (keys d')) /\
  (forall k' x, In (k', x) d' -> last_entry (key_means env k) (means env e) d k' x).
Proof.
  intros IH E; pose proof (entries_wf _ _ _ _ _ _ E wf_nil) as Hw; split; [exact Hw|].
  destruct (entries_spec _ _ _ _ _ _ E wf_nil) as [H1 H2]; repeat split.
  - intros p Hp; destruct (H1 p Hp) as (k' & x & Hk & Hx); exists k', x; split; [apply key_means_spec; exact Hk|auto].
  - intros p k' Hp Hk; apply key_means_spec in Hk.
    destruct (keys_entry d (fun a b => key_from_yaml env k a = Ok b) k' p) as (d1 & [k0 v0] & d2 & Ed & Hq & Hn);
      [intros q; apply key_from_yaml_dec|exact Hp|exact Hk|].
    destruct (H1 (k0, v0)) as (k1 & x & Hk1 & Hx); [rewrite Ed; apply in_elt|]; cbn [fst snd] in Hk1, Hx, Hq.
    apply (in_map fst _ (k', x)), H2; left; exists d1, k0, v0, d2; auto.
  - intros k' x Hin; apply H2 in Hin; destruct Hin as [H|[[] _]].
    revert H; apply last_entry_iff; [intros; apply key_means_spec|intros; apply IH; assumption].
Qed.

Lemma None_dec (v : pyval) : v = VNone \/ v <> VNone.
Proof. destruct v; [left; reflexivity|right; discriminate..]. Qed.

(** What is read is what is meant. *)
Lemma from_yaml_means env t : forall v w, from_yaml env t v = Ok w -> means env t v w.
Proof.
  induction t as [| | |t IH|k t IH|k t IH|]; intros v w E;
    (destruct (None_dec v) as [->|Hv]; [rewrite from_yaml_none in E; injection E as <-; left; split; reflexivity|]);
    right; (split; [exact Hv|]); cbn [from_yaml] in E.
  - destruct v; cbn [verify_type] in E; congruence.
  - destruct v; cbn in E; try congruence; eexists; split; [reflexivity|congruence].
  - destruct v; cbn in E; try congruence; eexists; split; [reflexivity|congruence].
  - destruct v as [| | | | |l|]; try congruence.
    apply bind_Ok in E; destruct E as (l' & El & E); apply verify_Ok_eq in E; destruct E as [-> _].
    exists l, l'; split; [reflexivity|split; [reflexivity|]]; apply mapM_Ok in El.
    clear -IH El; induction El; constructor; auto.
  - destruct v as [| | | | | |d]; try congruence.
    apply bind_Ok in E; destruct E as (d' & El & E); apply verify_Ok_eq in E; destruct E as [-> _].
    exists d, d'; split; [reflexivity|split; [reflexivity|]]; apply dict_means; assumption.
  - destruct v as [| | | | | |d]; try congruence.
    apply bind_Ok in E; destruct E as (d' & El & E); apply verify_Ok_eq in E; destruct E as [-> _].
    exists d, d'; split; [reflexivity|split; [reflexivity|]]; apply dict_means; assumption.
  - destruct v; cbn in E; try congruence; eexists; split; [reflexivity|congruence].
Qed.

Lemma means_yaml_ok env t : forall v w, means env t v w -> yaml_ok t v.
Proof.
  assert (Hd : forall k e (d : pydict),
    (forall v w, means env e v w -> yaml_ok e v) ->
    (forall p, In p d -> exists k' x, key_means env k (fst p) k' /\ means env e (snd p) x) ->
    Forall (fun p => key_has_type k (fst p) /\ yaml_ok e (snd p)) d).
  { intros k e d IH H; apply Forall_forall; intros p Hp; destruct (H p Hp) as (k' & x & Hk & Hx); split; [|eapply IH; exact Hx].
    destruct k; cbn [key_means key_has_type] in *; [exact I|tauto|]; destruct Hk as [[-> _]|(s & -> & _)]; eauto. }
  induction t as [| | |t IH|k t IH|k t IH|]; intros v w; cbn [means yaml_ok]; intros [[-> _]|[_ H]]; auto.
  - destruct H as (s & -> & _); eauto.
  - destruct H as (s & -> & _); eauto.
  - destruct H as (l & l' & -> & _ & H); right; exists l; split; [reflexivity|].
    clear -IH H; induction H; constructor; eauto.
  - destruct H as (d & d' & -> & _ & _ & H & _); right; exists d; split; [reflexivity|apply Hd; assumption].
  - destruct H as (d & d' & -> & _ & _ & H & _); right; exists d; split; [reflexivity|apply Hd; assumption].
  - destruct H as (s & -> & _); eauto.
Qed.

(** A value read from YAML is the one that is meant; a value that means nothing for the type
    is rejected with the configuration error, and nothing else is. *)
Theorem C99_value_meaning env t v :
  (forall w, from_yaml env t v = Ok w -> means env t v w) /\
  ((exists w, means env t v w) -> exists w, from_yaml env t v = Ok w) /\
  (~ (exists w, means env t v w) -> from_yaml env t v = Err ConfigValueError).
Proof.
  split; [apply from_yaml_means|]; split.
  - intros [w Hw]; apply from_yaml_total; eapply means_yaml_ok; exact Hw.
  - intros Hn; destruct (from_yaml env t v) as [w|e] eqn:E.
    + exfalso; apply Hn; exists w; apply from_yaml_means; exact E.
    + f_equal; eapply from_yaml_err; exact E.
Qed.

(** A dictionary with texts as keys keeps exactly its entries, in order. *)
Theorem C99_entries_kept env k e (d d' : pydict) : k <> KtPath -> NoDup (keys d) ->
  from_yaml env (TDict k e) (VDict d) = Ok (VDict d') ->
  Forall2 (fun p q => fst q = fst p /\ means env e (snd p) (snd q)) d d'.
Proof.
  intros Hk Hw E; cbn [from_yaml] in E; apply bind_Ok in E; destruct E as (d0 & E & Ev).
  apply verify_Ok_eq in Ev; destruct Ev as [Ev _]; injection Ev as <-.
  enough (H : forall acc, wf (acc ++ d) -> foldM (entry_step env k e) d acc = Ok d' ->
              exists d1, d' = acc ++ d1 /\ Forall2 (fun p q => fst q = fst p /\ means env e (snd p) (snd q)) d d1).
  { destruct (H [] Hw E) as (d1 & -> & H1); exact H1. }
  clear Hw E; revert d'; induction d as [|[k0 v0] d IH]; intros d' acc Hw E; cbn [foldM] in E.
  - injection E as <-; exists []; rewrite app_nil_r; split; [reflexivity|constructor].
  - apply bind_Ok in E; destruct E as (acc1 & E1 & E); unfold entry_step in E1; cbn [fst snd] in E1.
    apply bind_Ok in E1; destruct E1 as (x & Ex & E1); apply bind_Ok in E1; destruct E1 as (k1 & Ek & E1).
    injection E1 as <-.
    assert (k1 = k0) by (apply key_means_spec in Ek; destruct k; cbn [key_means] in Ek; try congruence; tauto).
    subst k1.
    assert (Hs : set k0 x acc = acc ++ [(k0, x)]).
    { replace acc with (acc ++ []) at 1 by apply app_nil_r.
      rewrite set_app_fresh; [reflexivity|]; apply get_None.
      unfold wf, keys in Hw; rewrite map_app in Hw; cbn [map fst] in Hw; apply NoDup_remove_2 in Hw.
      intros Hin; apply Hw, in_or_app; left; exact Hin. }
    rewrite Hs in E; destruct (IH d' (acc ++ [(k0, x)])) as (d1 & -> & H1); [|exact E|].
    + unfold wf, keys in *; rewrite <- app_assoc, !map_app in *; exact Hw.
    + exists ((k0, x) :: d1); rewrite <- app_assoc; split; [reflexivity|].
      constructor; [split; [reflexivity|apply from_yaml_means; exact Ex]|exact H1].
Qed.

Example C99_nonvacuous :
  from_yaml me_env (TMerging KtString (TList TPath))
    (VDict [(KStr (u "a"), VList [VStr (u "~/x"); VNone]); (KStr (u "b"), VNone)]) =
  Ok (VDict [(KStr (u "a"), VList [VStr (u "/home/me/x"); VNone]); (KStr (u "b"), VNone)]) /\
  from_yaml me_env (TDict KtPath TBoolean) (VDict [(KStr (u "~/x"), VBool true); (KStr (u "/home/me/x"), VBool false)]) =
  Ok (VDict [(KStr (u "/home/me/x"), VBool false)]) /\
  from_yaml me_env (TList TString) (VList [VStr (u "a"); VInt 3]) = Err ConfigValueError.
Proof. repeat split; vm_compute; reflexivity. Qed.

(** ** C100 *)
(** Specification: how one text given with a flag is read as a list or as a dictionary: as
    it is, or if that is no list (dictionary), with the enclosing brackets (braces) added. *)
Definition list_text (yaml : text -> res pyval) (s : text) (l : list pyval) : Prop :=
  yaml s = Ok (VList l) \/
  ((forall l0, yaml s <> Ok (VList l0)) /\ yaml (u "[" ++ s ++ u "]") = Ok (VList l)).
Definition dict_text (yaml : text -> res pyval) (s : text) (d : pydict) : Prop :=
  yaml s = Ok (VDict d) \/
  ((forall d0, yaml s <> Ok (VDict d0)) /\ yaml (u "{" ++ s ++ u "}") = Ok (VDict d)).

(** The texts an option gets: several for flags that can be repeated, one for the others. *)
Definition given_texts (v : clval) : list text :=
  match v with CLNone => [] | CLText s => [s] | CLList l => l end.

(** The YAML reader raises nothing but YAML errors, and gives dictionaries with unique keys. *)
Definition yaml_reader (yaml : text -> res pyval) : Prop :=
  (forall s e, yaml s = Err e -> e = YAMLError) /\ (forall s d, yaml s = Ok (VDict d) -> NoDup (keys d)).

Lemma list_text_spec yaml s l : yaml_reader yaml -> (parse_single_list yaml s = Ok l <-> list_text yaml s l).
Proof.
  intros [Hy _]; unfold parse_single_list, list_text, try_yaml, cfg_yaml.
  change (u "[" ++ s ++ u "]") with (open_bracket :: s ++ [close_bracket]).
  assert (H2 : (let* r' := match yaml (open_bracket :: s ++ [close_bracket]) with
                | Ok a => Ok a | Err e => if is_YAMLError e then Err ConfigValueError else Err e end in
                match r' with VList l0 => Ok l0 | _ => Err ConfigValueError end) = Ok l <->
               yaml (open_bracket :: s ++ [close_bracket]) = Ok (VList l)).
  { destruct (yaml (open_bracket :: _)) as [v|e] eqn:Ey.
    - cbn [bind]; destruct v; split; congruence.
    - rewrite (Hy _ _ Ey); cbn; split; discriminate. }
  destruct (yaml s) as [v|e] eqn:Ey; [|rewrite (Hy _ _ Ey)]; cbn [is_YAMLError bind].
  - destruct v; try (rewrite H2; split; [intros H; right; split; [discriminate|exact H]|intros [H|[_ H]]; [discriminate|exact H]]).
    split; [intros E; injection E as ->; left; reflexivity|].
    intros [E|[E _]]; [injection E as ->; reflexivity|exfalso; apply (E l0); reflexivity].
  - rewrite H2; split; [intros H; right; split; [discriminate|exact H]|intros [H|[_ H]]; [discriminate|exact H]].
Qed.

Lemma dict_text_spec yaml s l : yaml_reader yaml -> (parse_single_dict yaml s = Ok l <-> dict_text yaml s l).
Proof.
  intros [Hy _]; unfold parse_single_dict, dict_text, try_yaml, cfg_yaml.
  change (u "{" ++ s ++ u "}") with (open_brace :: s ++ [close_brace]).
  assert (H2 : (let* r' := match yaml (open_brace :: s ++ [close_brace]) with
                | Ok a => Ok a | Err e => if is_YAMLError e then Err ConfigValueError else Err e end in
                match r' with VDict l0 => Ok l0 | _ => Err ConfigValueError end) = Ok l <->
               yaml (open_brace :: s ++ [close_brace]) = Ok (VDict l)).
  { destruct (yaml (open_brace :: _)) as [v|e] eqn:Ey.
    - cbn [bind]; destruct v; split; congruence.
    - rewrite (Hy _ _ Ey); cbn; split; discriminate. }
  destruct (yaml s) as [v|e] eqn:Ey; [|rewrite (Hy _ _ Ey)]; cbn [is_YAMLError bind].
  - destruct v; try (rewrite H2; split; [intros H; right; split; [discriminate|exact H]|intros [H|[_ H]]; [discriminate|exact H]]).
    split; [intros E; injection E as ->; left; reflexivity|].
    intros [E|[E _]]; [injection E as ->; reflexivity|exfalso; apply (E d); reflexivity].
  - rewrite H2; split; [intros H; right; split; [discriminate|exact H]|intros [H|[_ H]]; [discriminate|exact H]].
Qed.

Lemma dict_text_wf yaml s d : yaml_reader yaml -> dict_text yaml s d -> NoDup (keys d).
Proof. intros [_ Hw] [H|[_ H]]; eapply Hw; exact H. Qed.

Lemma existsb_has {V} (d acc : dict pkey V) :
  existsb (fun k => has k acc) (keys d) = false <-> (forall k, In k (keys d) -> ~ In k (keys acc)).
Proof.
  split; intros H.
  - intros k Hk Hin.
    assert (Hh : has k acc = true) by (unfold has; destruct (get k acc) eqn:E; [reflexivity|apply get_None in E; contradiction]).
    assert (E : existsb (fun k => has k acc) (keys d) = true) by (apply existsb_exists; exists k; auto).
    congruence.
  - destruct (existsb _ _) eqn:E; [|reflexivity]; apply existsb_exists in E; destruct E as (k & Hk & Hh).
    exfalso; apply (H k Hk); unfold has in Hh; destruct (get k acc) as [v|] eqn:Eg; [|discriminate].
    apply get_In in Eg; apply (in_map fst _ _ Eg).
Qed.

Definition dict_step (yaml : text -> res pyval) (acc : pydict) (s : text) : res pydict :=
  let* d := parse_single_dict yaml s in
  if existsb (fun k => has k acc) (keys d) then Err ConfigValueError else Ok (update acc d).

Lemma NoDup_app_keys {V} (a b : dict pkey V) : NoDup (keys a) -> NoDup (keys b) ->
  (forall k, In k (keys b) -> ~ In k (keys a)) -> NoDup (keys (a ++ b)).
Proof.
  unfold keys; rewrite map_app; induction a as [|p a IH]; cbn [map app fst]; intros Ha Hb Hd; [exact Hb|].
  apply NoDup_cons_iff in Ha; destruct Ha as [Hp Ha]; apply NoDup_cons.
  - intros Hin; apply in_app_or in Hin; destruct Hin as [Hin|Hin]; [contradiction|].
    apply (Hd _ Hin); left; reflexivity.
  - apply IH; [exact Ha|exact Hb|]; intros k Hk Hin; apply (Hd k Hk); right; exact Hin.
Qed.

Lemma NoDup_app_split {A} (a b : list A) : NoDup (a ++ b) -> NoDup a /\ forall x, In x b -> ~ In x a.
Proof.
  induction a as [|x a IH]; cbn [app]; intros H; [split; [constructor|intros ? _ []]|].
  apply NoDup_cons_iff in H; destruct H as [Hx H]; destruct (IH H) as [H1 H2]; split.
  - apply NoDup_cons; [intros Hin; apply Hx, in_or_app; left; exact Hin|exact H1].
  - intros y Hy [<-|Hin]; [apply Hx, in_or_app; right; exact Hy|apply (H2 y Hy Hin)].
Qed.

Lemma dict_step_spec yaml ss acc r : yaml_reader yaml -> NoDup (keys acc) ->
  (foldM (dict_step yaml) ss acc = Ok r <->
   exists ds, Forall2 (dict_text yaml) ss ds /\ NoDup (keys (acc ++ List.concat ds)) /\ r = acc ++ List.concat ds).
Proof.
  intros Hy; revert acc; induction ss as [|s ss IH]; intros acc Ha; cbn [foldM].
  - split; [intros E; injection E as <-; exists []; split; [constructor|]; cbn [List.concat]; rewrite app_nil_r; auto|].
    intros (ds & H & _ & ->); inversion H; subst; cbn [List.concat]; rewrite app_nil_r; reflexivity.
  - split.
    + intros E; apply bind_Ok in E; destruct E as (acc1 & E1 & E); unfold dict_step in E1.
      apply bind_Ok in E1; destruct E1 as (d & Ed & E1); destruct (existsb _ _) eqn:Ex; [discriminate|].
      injection E1 as <-; pose proof (proj1 (existsb_has d acc) Ex) as Exx; clear Ex; rename Exx into Ex; apply dict_text_spec in Ed; [|exact Hy].
      pose proof (dict_text_wf _ _ _ Hy Ed) as Hd; pose proof (NoDup_app_keys acc d Ha Hd Ex) as Hn.
      rewrite (update_fresh acc d Hn) in E; apply IH in E; [|exact Hn].
      destruct E as (ds & H1 & H2 & ->); exists (d :: ds); cbn [List.concat]; rewrite <- app_assoc in *.
      split; [constructor; assumption|split; [exact H2|reflexivity]].
    + intros (ds & H1 & H2 & ->); inversion H1 as [|? d ? ds' Hd Hds]; subst; cbn [List.concat] in *.
      rewrite app_assoc in *.
      assert (Hn : NoDup (keys (acc ++ d))).
      { unfold keys in H2 |- *; rewrite map_app in H2; apply NoDup_app_split in H2; tauto. }
      unfold dict_step at 1; apply dict_text_spec in Hd as Ed; [|exact Hy]; rewrite Ed; cbn [bind].
      assert (Ex : existsb (fun k => has k acc) (keys d) = false).
      { apply existsb_has; unfold keys in Hn; rewrite map_app in Hn; apply NoDup_app_split in Hn; apply Hn. }
      rewrite Ex; cbn [bind]; rewrite (update_fresh acc d Hn); apply IH; [exact Hn|].
      exists ds'; auto.
Qed.

(** Lists: the lists of all occurrences, concatenated. *)
Theorem C100_lists env yaml e v w : yaml_reader yaml -> v <> CLNone ->
  (from_command_line env yaml (TList e) v = Ok w <->
   exists ls, Forall2 (list_text yaml) (given_texts v) ls /\
              from_yaml env (TList e) (VList (List.concat ls)) = Ok w).
Proof.
  intros Hy Hv.
  assert (Hm : forall ss ls, mapM (parse_single_list yaml) ss = Ok ls <-> Forall2 (list_text yaml) ss ls).
  { intros ss ls; split; intros H.
    - apply mapM_Ok in H; induction H; constructor; [apply list_text_spec|]; assumption.
    - apply mapM_Ok; induction H; constructor; [apply list_text_spec|]; assumption. }
  assert (Hs : forall ss, ((let* parts := mapM (parse_single_list yaml) ss in
                            from_yaml env (TList e) (VList (List.concat parts))) = Ok w <->
                          exists ls, Forall2 (list_text yaml) ss ls /\ from_yaml env (TList e) (VList (List.concat ls)) = Ok w)).
  { intros ss; split.
    - intros E; apply bind_Ok in E; destruct E as (ls & El & E); exists ls; split; [apply Hm; exact El|exact E].
    - intros (ls & Hl & E); apply Hm in Hl; rewrite Hl; exact E. }
  destruct v as [|s|l]; [congruence| |]; apply Hs.
Qed.

(** Dictionaries: the entries of all occurrences; no key may be given twice. *)
Theorem C100_dictionaries env yaml t v w : yaml_reader yaml -> v <> CLNone ->
  (exists k e, t = TDict k e \/ t = TMerging k e) ->
  (from_command_line env yaml t v = Ok w <->
   exists ds, Forall2 (dict_text yaml) (given_texts v) ds /\ NoDup (keys (List.concat ds)) /\
              from_yaml env t (VDict (List.concat ds)) = Ok w).
Proof.
  intros Hy Hv Ht.
  assert (Hs : forall ss, ((let* d := foldM (dict_step yaml) ss [] in from_yaml env t (VDict d)) = Ok w <->
     exists ds, Forall2 (dict_text yaml) ss ds /\ NoDup (keys (List.concat ds)) /\ from_yaml env t (VDict (List.concat ds)) = Ok w)).
  { intros ss; split.
    - intros E; apply bind_Ok in E; destruct E as (d & Ed & E).
      apply (proj1 (dict_step_spec yaml ss [] d Hy (NoDup_nil _))) in Ed; destruct Ed as (ds & H1 & H2 & ->); exists ds; auto.
    - intros (ds & H1 & H2 & E).
      assert (Ed : foldM (dict_step yaml) ss [] = Ok (List.concat ds)).
      { apply dict_step_spec; [exact Hy|constructor|]; exists ds; auto. }
      rewrite Ed; exact E. }
  destruct Ht as (k & e & [-> | ->]); destruct v as [|s|l]; try congruence; apply Hs.
Qed.

Theorem C100_duplicate_keys env yaml t v : yaml_reader yaml ->
  (exists k e, t = TDict k e \/ t = TMerging k e) ->
  (exists l1 s1 l2 s2 l3 d1 d2 k, given_texts v = l1 ++ s1 :: l2 ++ s2 :: l3 /\
     dict_text yaml s1 d1 /\ dict_text yaml s2 d2 /\ In k (keys d1) /\ In k (keys d2)) ->
  from_command_line env yaml t v = Err ConfigValueError.
Proof.
  intros Hy Ht (l1 & s1 & l2 & s2 & l3 & d1 & d2 & k & Ev & H1 & H2 & K1 & K2).
  assert (Hv : v <> CLNone) by (intros ->; cbn [given_texts] in Ev; destruct l1; discriminate).
  destruct (from_command_line env yaml t v) as [w|e] eqn:E.
  - exfalso; apply (proj1 (C100_dictionaries env yaml t v w Hy Hv Ht)) in E; destruct E as (ds & Hd & Hn & _).
    rewrite Ev in Hd; apply Forall2_app_inv_l in Hd; destruct Hd as (a & b & _ & Hd & ->).
    inversion Hd as [|? x1 ? b' X1 Hd1]; subst; apply Forall2_app_inv_l in Hd1; destruct Hd1 as (c & b & _ & Hd1 & ->).
    inversion Hd1 as [|? x2 ? b' X2 Hd2]; subst.
    assert (x1 = d1) by (apply dict_text_spec in X1, H1; try exact Hy; congruence).
    assert (x2 = d2) by (apply dict_text_spec in X2, H2; try exact Hy; congruence); subst x1 x2.
    unfold keys in Hn; rewrite concat_app in Hn; cbn [List.concat] in Hn; rewrite concat_app in Hn; cbn [List.concat] in Hn.
    rewrite !map_app in Hn.
    assert (Hn' : NoDup (map fst d1 ++ map fst (List.concat c) ++ map fst d2 ++ map fst (List.concat b'))).
    { clear -Hn; induction (map fst (List.concat a)) as [|x l IH]; [exact Hn|].
      cbn [app] in Hn; apply NoDup_cons_iff in Hn; apply IH, Hn. }
    apply NoDup_app_split in Hn'; destruct Hn' as [_ Hn']; apply (Hn' k); [|exact K1].
    apply in_or_app; right; apply in_or_app; left; exact K2.
  - f_equal; eapply from_command_line_err; [apply Hy| |exact E].
    left; destruct Ht as (kt & e0 & [-> | ->]); reflexivity.
Qed.

(** Other options: a text or a path is the text as given, anything else is read as YAML. *)
Theorem C100_single_values env yaml s w : yaml_reader yaml ->
  (from_command_line env yaml TString (CLText s) = Ok w <-> w = VStr s) /\
  (from_command_line env yaml TPath (CLText s) = Ok w <-> w = VStr (expand_input_path env s)) /\
  (forall t, t = TAny \/ t = TBoolean ->
     (from_command_line env yaml t (CLText s) = Ok w <-> exists r, yaml s = Ok r /\ from_yaml env t r = Ok w)).
Proof.
  intros [Hy _]; split; [|split].
  - cbn; split; congruence.
  - cbn; split; congruence.
  - assert (H : forall t, (let* r := cfg_yaml yaml s in from_yaml env t r) = Ok w <-> exists r, yaml s = Ok r /\ from_yaml env t r = Ok w).
    { intros t; unfold cfg_yaml; destruct (yaml s) as [r|e] eqn:Ey.
      - cbn [bind]; split; [eauto|intros (r' & Er & E); congruence].
      - rewrite (Hy _ _ Ey); cbn; split; [discriminate|intros (r' & Er & E); congruence]. }
    intros t [-> | ->]; apply H.
Qed.

(** An option whose flag is not given is not set by the command line. *)
Theorem C100_not_given env yaml t : from_command_line env yaml t CLNone = Ok (match t with TMerging _ _ => VDict [] | _ => VNone end).
Proof. destruct t; reflexivity. Qed.

Definition x_yaml (s : text) : res pyval :=
  if eqb s (u "a: 1") then Ok (VDict [(KStr (u "a"), VStr (u "1"))])
  else if eqb s (u "{b: 2}") then Ok (VDict [(KStr (u "b"), VStr (u "2"))])
  else if eqb s (u "x, y") then Ok (VStr (u "x, y"))
  else if eqb s (u "[x, y]") then Ok (VList [VStr (u "x"); VStr (u "y")])
  else Err YAMLError.

Example C100_nonvacuous :
  yaml_reader x_yaml /\
  from_command_line me_env x_yaml (TMerging KtString TString) (CLList [u "a: 1"; u "b: 2"]) =
    Ok (VDict [(KStr (u "a"), VStr (u "1")); (KStr (u "b"), VStr (u "2"))]) /\
  from_command_line me_env x_yaml (TMerging KtString TString) (CLList [u "a: 1"; u "b: 2"; u "a: 1"]) = Err ConfigValueError /\
  from_command_line me_env x_yaml (TList TString) (CLList [u "x, y"; u "[x, y]"]) =
    Ok (VList [VStr (u "x"); VStr (u "y"); VStr (u "x"); VStr (u "y")]).
Proof.
  split; [|repeat split; vm_compute; reflexivity].
  split; unfold x_yaml; intros s;
    repeat match goal with |- context [if ?c then _ else _] => destruct c end; intros x E; try congruence;
    injection E as <-; repeat constructor; intros [].
Qed.

Print Assumptions C99_value_meaning.
Print Assumptions C99_entries_kept.
Print Assumptions C100_lists.
Print Assumptions C100_dictionaries.
Print Assumptions C100_duplicate_keys.
Print Assumptions C100_single_values.
Print Assumptions C100_not_given.
