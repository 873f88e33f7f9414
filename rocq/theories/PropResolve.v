(** Properties C25-C28: resolving keys. *)
From Verif Require Import Base Dict PyVal Sources Util Terminal TerminalProofs PropUtil Installer Resolve.
From Coq Require Import Lia Sorted.

(** * Specification *)
(** Keys to be answered: the requested ones and, with all_keys, those of the database. *)
Definition wanted (requested : list text) (all_keys : bool) (dbkeys : list text) (k : text) : Prop :=
  In k requested \/ (all_keys = true /\ In k dbkeys).

(** [req] lists the elements of [l] in the order of their first occurrence: whenever [x]
    comes before [y] in [req], [l] has an occurrence of [x] before any of [y]. *)
Definition in_first_order {A} (req l : list A) : Prop :=
  (forall x, In x req <-> In x l) /\
  forall a x b y c, req = a ++ x :: b ++ y :: c ->
    exists p q, l = p ++ x :: q /\ ~ In x p /\ ~ In y p.

(** Alphabetical order of texts, by code points. *)
Inductive text_lt : text -> text -> Prop :=
| lt_nil c s : text_lt [] (c :: s)
| lt_char x y a b : (x < y)%N -> text_lt (x :: a) (y :: b)
| lt_tail x a b : text_lt a b -> text_lt (x :: a) (x :: b).

(** The installer an install-from configuration demands for a key: that of the first
    entry listing the key. *)
Fixpoint demanded (install_from : dict text (list text)) (key : text) : option text :=
  match install_from with
  | [] => None
  | (inst, keys) :: l => if mem key keys then Some inst else demanded l key
  end.

(** * Model facts *)
Lemma install_from_map_demanded f key : get key (install_from_map f) = demanded f key.
Proof.
  unfold install_from_map.
  assert (X : forall ks (inst : text) (m : dict text text),
    get key (fold_left (fun m k => if has k m then m else set k inst m) ks m) =
    orelse (get key m) (if mem key ks then Some inst else None)).
  { induction ks as [|k ks IH]; intros inst m; cbn [fold_left mem].
    - rewrite orelse_None_r; reflexivity.
    - rewrite IH; unfold has; destruct (eqb_spec key k) as [->|Hn]; cbn [orb].
      + destruct (get k m) as [v|] eqn:E.
        * rewrite E; reflexivity.
        * rewrite get_set; destruct (eqb_spec k k); [reflexivity|congruence].
      + destruct (get k m); [reflexivity|].
        rewrite get_set; destruct (eqb_spec key k); [congruence|reflexivity]. }
  assert (Y : forall f (m : dict text text),
    get key (fold_left (fun m p => fold_left (fun m k => if has k m then m else set k (fst p) m) (snd p) m) f m) =
    orelse (get key m) (demanded f key)).
  { induction f0 as [|[inst ks] f0 IH]; intros m; cbn [fold_left demanded fst snd].
    - rewrite orelse_None_r; reflexivity.
    - rewrite IH, X, <- orelse_assoc; f_equal.
      destruct (mem key ks); reflexivity. }
  rewrite Y; reflexivity.
Qed.

Lemma flat_map_ext_in {A B} (f g : A -> list B) l :
  (forall x, In x l -> f x = g x) -> flat_map f l = flat_map g l.
Proof.
  induction l as [|x l IH]; intros H; [reflexivity|]; simpl.
  rewrite H by (left; reflexivity); f_equal; apply IH; intros y Hy; apply H; right; exact Hy.
Qed.

(** * Sorting *)
Lemma text_leb_total a b : text_leb a b = false -> text_leb b a = true.
Proof.
  revert b; induction a as [|x a IH]; intros [|y b]; cbn [text_leb]; try discriminate; try reflexivity.
  destruct (N.ltb_spec x y), (N.ltb_spec y x); try discriminate; try reflexivity; try lia. apply IH.
Qed.

Lemma text_leb_trans a b c : text_leb a b = true -> text_leb b c = true -> text_leb a c = true.
Proof.
  revert b c; induction a as [|x a IH]; intros [|y b] [|z c]; cbn [text_leb]; try discriminate; try reflexivity.
  destruct (N.ltb_spec x y), (N.ltb_spec y x), (N.ltb_spec y z), (N.ltb_spec z y), (N.ltb_spec x z), (N.ltb_spec z x);
    try discriminate; try reflexivity; try lia; eauto.
Qed.

Lemma text_leb_lt a b : text_leb a b = true -> a <> b -> text_lt a b.
Proof.
  revert b; induction a as [|x a IH]; intros [|y b]; cbn [text_leb]; try discriminate.
  - congruence.
  - intros; constructor.
  - destruct (N.ltb_spec x y); [intros; apply lt_char; assumption|].
    destruct (N.ltb_spec y x); [discriminate|]. assert (x = y) by lia; subst y.
    intros E Hn; apply lt_tail, IH; congruence.
Qed.

Lemma insert_sorted x l : StronglySorted (fun a b => text_leb a b = true) l ->
  StronglySorted (fun a b => text_leb a b = true) (text_insert x l).
Proof.
  induction l as [|y l IH]; cbn [text_insert]; intros H; [repeat constructor|].
  inversion H as [|? ? Hs Hy]; subst. destruct (text_leb x y) eqn:E.
  - constructor; [exact H|]. constructor; [exact E|].
    rewrite Forall_forall in *; intros z Hz; eapply text_leb_trans; [exact E|apply Hy, Hz].
  - constructor; [apply IH, Hs|]. apply text_leb_total in E. rewrite Forall_forall in *.
    intros z Hz; apply text_insert_In in Hz; destruct Hz as [->|Hz]; [exact E|apply Hy, Hz].
Qed.

Lemma sorted_texts l : StronglySorted (fun a b => text_leb a b = true) (text_sorted l).
Proof. induction l as [|x l IH]; cbn [text_sorted fold_right]; [constructor|apply insert_sorted, IH]. Qed.

Lemma dup_sorted seen l : StronglySorted (fun a b => text_leb a b = true) l ->
  StronglySorted text_lt (remove_dup_from seen l).
Proof.
  revert seen; induction l as [|x l IH]; intros seen H; cbn [remove_dup_from]; [constructor|].
  inversion H as [|? ? Hs Hx]; subst. destruct (mem x seen); [apply IH, Hs|].
  constructor; [apply IH, Hs|]. rewrite Forall_forall in *. intros z Hz.
  apply remove_dup_from_In in Hz; destruct Hz as [Hz Hn]. apply text_leb_lt; [apply Hx, Hz|].
  intros ->; apply Hn; left; reflexivity.
Qed.

Section Props.
  Context {W R : Type}.
  Variable db_lookup : text -> res pydict.
  Variable db_keys : res (list text).
  Variable cx : context W R.

  Notation resolve := (resolve db_lookup db_keys cx).
  Notation resolve_key := (resolve_key db_lookup cx).

  (** The outcome of a fold over keys is one outcome per key. *)
  Lemma resolve_fold m ks acc r e :
    foldM (resolve_step db_lookup cx m) ks acc = Ok (r, e) ->
    exists f : text -> (text * list R) + exn,
      (forall k, In k ks -> resolve_key m k = Ok (f k)) /\
      r = fst acc ++ flat_map (fun k => match f k with inl x => [(k, x)] | inr _ => [] end) ks /\
      e = snd acc ++ flat_map (fun k => match f k with inl _ => [] | inr x => [(k, x)] end) ks.
  Proof.
    revert acc; induction ks as [|k ks IH]; intros acc; cbn [foldM].
    - intros H; injection H as ->; exists (fun _ => inr ResolutionError).
      split; [simpl; tauto|]; simpl; rewrite !app_nil_r; auto.
    - intros H; apply bind_Ok in H; destruct H as (acc' & Hs & H).
      unfold resolve_step in Hs; apply bind_Ok in Hs; destruct Hs as (x & Hx & Hs).
      injection Hs as <-.
      destruct (IH _ H) as (f & Hf & Hr & He).
      exists (fun k' => if eqb k' k then x else f k').
      assert (Ef : forall k', In k' ks -> (if eqb k' k then x else f k') = f k').
      { intros k' Hk'; destruct (eqb_spec k' k) as [->|Hn]; [|reflexivity].
        specialize (Hf _ Hk'); congruence. }
      assert (Ek : (if eqb k k then x else f k) = x)
        by (destruct (eqb_spec k k); congruence).
      split; [|split].
      + intros k' [<-|Hk']; [rewrite Ek; exact Hx|rewrite Ef by exact Hk'; apply Hf; exact Hk'].
      + rewrite Hr; cbn [flat_map]; rewrite Ek.
        assert (E1 : flat_map (fun k' => match (if eqb k' k then x else f k') with inl x => [(k', x)] | inr _ => [] end) ks =
                     flat_map (fun k' => match f k' with inl x => [(k', x)] | inr _ => [] end) ks)
          by (apply flat_map_ext_in; intros k' Hk'; rewrite (Ef k' Hk'); reflexivity).
        rewrite E1; destruct x; cbn [fst]; [rewrite <- app_assoc|]; reflexivity.
      + rewrite He; cbn [flat_map]; rewrite Ek.
        assert (E1 : flat_map (fun k' => match (if eqb k' k then x else f k') with inl _ => [] | inr x => [(k', x)] end) ks =
                     flat_map (fun k' => match f k' with inl _ => [] | inr x => [(k', x)] end) ks)
          by (apply flat_map_ext_in; intros k' Hk'; rewrite (Ef k' Hk'); reflexivity).
        rewrite E1; destruct x; cbn [snd]; [|rewrite <- app_assoc]; reflexivity.
  Qed.

  Lemma resolve_outcomes f keys all r e :
    resolve f keys all = Ok (r, e) ->
    exists ks g, lookup_keys db_keys keys all = Ok ks /\
      (forall k, In k ks -> resolve_key (install_from_map f) k = Ok (g k)) /\
      r = flat_map (fun k => match g k with inl x => [(k, x)] | inr _ => [] end) ks /\
      e = flat_map (fun k => match g k with inl _ => [] | inr x => [(k, x)] end) ks.
  Proof.
    unfold Resolve.resolve; intros H; apply bind_Ok in H; destruct H as (ks & Hks & H).
    apply resolve_fold in H; destruct H as (g & Hg & Hr & He).
    exists ks, g; auto.
  Qed.

  Lemma lookup_keys_spec keys all ks :
    lookup_keys db_keys keys all = Ok ks ->
    NoDup ks /\
    exists dk, (all = true -> db_keys = Ok dk) /\ forall k, In k ks <-> wanted keys all dk k.
  Proof.
    unfold lookup_keys, wanted; destruct all.
    - intros H; apply bind_Ok in H; destruct H as (dk & Hd & H); injection H as <-.
      split; [apply remove_duplicates_NoDup|]; exists dk; split; [auto|].
      intros k; rewrite remove_duplicates_In, in_app_iff, text_sorted_In; intuition.
    - intros H; injection H as <-; split; [apply remove_duplicates_NoDup|].
      exists []; split; [discriminate|].
      intros k; rewrite remove_duplicates_In; intuition; discriminate.
  Qed.

  Lemma fst_results (g : text -> (text * list R) + exn) ks :
    map fst (flat_map (fun k => match g k with inl x => [(k, x)] | inr _ => [] end) ks) =
    filter (fun k => match g k with inl _ => true | inr _ => false end) ks.
  Proof.
    induction ks as [|k ks IH]; [reflexivity|]; cbn [flat_map filter]; rewrite map_app, IH.
    destruct (g k); reflexivity.
  Qed.
  Lemma fst_errors (g : text -> (text * list R) + exn) ks :
    map fst (flat_map (fun k => match g k with inl _ => [] | inr x => [(k, x)] end) ks) =
    filter (fun k => negb (match g k with inl _ => true | inr _ => false end)) ks.
  Proof.
    induction ks as [|k ks IH]; [reflexivity|]; cbn [flat_map filter]; rewrite map_app, IH.
    destruct (g k); reflexivity.
  Qed.

  (** * C25 *)
  (** [ks] lists every wanted key once, requested keys in order of first request before
      the remaining database keys in alphabetical order; the keys of the results and of the errors are the
      two complementary sublists of it. *)
  Theorem C25_one_outcome_per_key : forall install_from keys all_keys results errors,
    resolve install_from keys all_keys = Ok (results, errors) ->
    exists ks ok dbkeys,
      (all_keys = true -> db_keys = Ok dbkeys) /\
      NoDup ks /\ (forall k, In k ks <-> wanted keys all_keys dbkeys k) /\
      (exists req rest, ks = req ++ rest /\ in_first_order req keys /\ StronglySorted text_lt rest) /\
      map fst results = filter ok ks /\
      map fst errors = filter (fun k => negb (ok k)) ks.
  Proof.
    intros f keys all r e H; apply resolve_outcomes in H.
    destruct H as (ks & g & Hks & Hg & -> & ->).
    destruct (lookup_keys_spec _ _ _ Hks) as (Hn & dk & Hd & Hw).
    exists ks, (fun k => match g k with inl _ => true | inr _ => false end), dk.
    split; [exact Hd|]; split; [exact Hn|]; split; [exact Hw|].
    split; [|split; [apply fst_results|apply fst_errors]].
    assert (Ho : in_first_order (remove_duplicates keys) keys).
    { destruct (C54_remove_duplicates _ _ keys) as (O1 & _ & O2); split; [exact O1|exact O2]. }
    unfold lookup_keys in Hks; destruct all.
    - apply bind_Ok in Hks; destruct Hks as (d & _ & E); injection E as <-.
      exists (remove_duplicates keys); unfold remove_duplicates at 1; rewrite remove_dup_from_app.
      eexists; split; [reflexivity|]; split; [exact Ho|apply dup_sorted, sorted_texts].
    - injection Hks as <-; exists (remove_duplicates keys), []; rewrite app_nil_r.
      split; [reflexivity|]; split; [exact Ho|constructor].
  Qed.

  (** Read off: exactly one outcome for every wanted key, none for others. *)
  Theorem C25_counts : forall install_from keys all_keys results errors dbkeys k,
    resolve install_from keys all_keys = Ok (results, errors) ->
    (all_keys = true -> db_keys = Ok dbkeys) ->
    count_occ (fun x y => match eqb_spec x y with ReflectT _ e => left e | ReflectF _ n => right n end)
              (map fst results ++ map fst errors) k
    = if mem k keys || all_keys && mem k dbkeys then 1 else 0.
  Proof.
    intros f keys all r e dk k H Hdk.
    destruct (C25_one_outcome_per_key _ _ _ _ _ H) as (ks & ok & dk' & Hd & Hn & Hw & _ & Hr & He).
    rewrite Hr, He; clear Hr He.
    set (dec := fun x y : text => _).
    assert (X : forall l, NoDup l ->
      count_occ dec (filter ok l ++ filter (fun k => negb (ok k)) l) k =
      if mem k l then 1 else 0).
    { clear; intros l Hl; induction Hl as [|x l Hx Hl IH]; [reflexivity|].
      rewrite count_occ_app in *; cbn [filter mem].
      destruct (ok x); cbn [negb count_occ].
      - destruct (dec x k) as [->|Hk].
        + destruct (eqb_spec k k); [|congruence]; cbn [orb].
          apply (proj2 (mem_not_In _ _)) in Hx; rewrite Hx in IH; lia.
        + destruct (eqb_spec k x); [congruence|]; cbn [orb]; exact IH.
      - destruct (dec x k) as [->|Hk].
        + destruct (eqb_spec k k); [|congruence]; cbn [orb].
          apply (proj2 (mem_not_In _ _)) in Hx; rewrite Hx in IH; lia.
        + destruct (eqb_spec k x); [congruence|]; cbn [orb]; exact IH. }
    rewrite X by exact Hn.
    replace (mem k ks) with (mem k keys || all && mem k dk)%bool; [reflexivity|].
    apply Bool.eq_iff_eq_true; rewrite orb_true_iff, andb_true_iff, !mem_In.
    rewrite Hw; unfold wanted; split; intros [Hi|[Ha Hi]]; auto; right; split; auto;
      rewrite (Hdk Ha) in Hd; specialize (Hd Ha); congruence.
  Qed.

  (** * C26 *)
  (** Two calls that both ask for [k] agree on it, whatever else they ask for. *)
  Theorem C26_key_independence : forall install_from keys1 all1 r1 e1 keys2 all2 r2 e2 k,
    resolve install_from keys1 all1 = Ok (r1, e1) ->
    resolve install_from keys2 all2 = Ok (r2, e2) ->
    In k keys1 -> In k keys2 ->
    (forall x, In (k, x) r1 <-> In (k, x) r2) /\ (forall x, In (k, x) e1 <-> In (k, x) e2).
  Proof.
    intros f keys1 all1 r1 e1 keys2 all2 r2 e2 k H1 H2 Hk1 Hk2.
    apply resolve_outcomes in H1; destruct H1 as (ks1 & g1 & Hks1 & Hg1 & -> & ->).
    apply resolve_outcomes in H2; destruct H2 as (ks2 & g2 & Hks2 & Hg2 & -> & ->).
    destruct (lookup_keys_spec _ _ _ Hks1) as (_ & d1 & _ & Hw1).
    destruct (lookup_keys_spec _ _ _ Hks2) as (_ & d2 & _ & Hw2).
    assert (I1 : In k ks1) by (apply Hw1; left; exact Hk1).
    assert (I2 : In k ks2) by (apply Hw2; left; exact Hk2).
    assert (Eg : g1 k = g2 k) by (specialize (Hg1 _ I1); specialize (Hg2 _ I2); congruence).
    assert (X : forall ks (g : text -> (text * list R) + exn) x, In k ks ->
      In (k, x) (flat_map (fun k => match g k with inl x => [(k, x)] | inr _ => [] end) ks) <-> g k = inl x).
    { intros ks g x Hi; rewrite in_flat_map; split.
      - intros (k' & _ & Hin); destruct (g k') eqn:E; simpl in Hin; [|contradiction].
        destruct Hin as [Hin|[]]; injection Hin as -> ->; exact E.
      - intros E; exists k; split; [exact Hi|]; rewrite E; left; reflexivity. }
    assert (Y : forall ks (g : text -> (text * list R) + exn) x, In k ks ->
      In (k, x) (flat_map (fun k => match g k with inl _ => [] | inr x => [(k, x)] end) ks) <-> g k = inr x).
    { intros ks g x Hi; rewrite in_flat_map; split.
      - intros (k' & _ & Hin); destruct (g k') eqn:E; simpl in Hin; [contradiction|].
        destruct Hin as [Hin|[]]; injection Hin as -> ->; exact E.
      - intros E; exists k; split; [exact Hi|]; rewrite E; left; reflexivity. }
    split; intros x; [rewrite !X by assumption|rewrite !Y by assumption]; rewrite Eg; reflexivity.
  Qed.

  (** Asking for more keys can only turn the call into an exception if one of the
      added keys raises on its own. *)
  Theorem C26_no_collateral_failure : forall install_from keys e,
    resolve install_from keys false = Err e ->
    exists k, In k keys /\ resolve install_from [k] false = Err e.
  Proof.
    intros f keys e; unfold Resolve.resolve, lookup_keys; cbn [bind].
    assert (X : forall ks acc, foldM (resolve_step db_lookup cx (install_from_map f)) ks acc = Err e ->
              exists k, In k ks /\ resolve_key (install_from_map f) k = Err e).
    { induction ks as [|k ks IH]; intros acc; cbn [foldM]; [discriminate|].
      intros H; apply bind_Err in H; destruct H as [H|(a & _ & H)].
      - unfold resolve_step in H; apply bind_Err in H; destruct H as [H|(x & _ & H)]; [|discriminate].
        exists k; split; [left; reflexivity|exact H].
      - destruct (IH _ H) as (k' & Hi & Hk); exists k'; split; [right; exact Hi|exact Hk]. }
    intros H; apply X in H; destruct H as (k & Hi & Hk); exists k.
    split; [apply remove_duplicates_In; exact Hi|].
    change (remove_duplicates [k]) with [k]; cbn [foldM]; unfold resolve_step; rewrite Hk; reflexivity.
  Qed.

  Lemma result_outcome f keys all r e k x :
    resolve f keys all = Ok (r, e) -> In (k, x) r ->
    resolve_key (install_from_map f) k = Ok (inl x).
  Proof.
    intros H Hin; apply resolve_outcomes in H; destruct H as (ks & g & _ & Hg & -> & _).
    apply in_flat_map in Hin; destruct Hin as (k' & Hi & Hin).
    specialize (Hg _ Hi); destruct (g k') eqn:E; simpl in Hin; [|contradiction].
    destruct Hin as [Hin|[]]; injection Hin as -> ->; rewrite Hg; reflexivity.
  Qed.

  Lemma resolve_key_inl f k n rs :
    resolve_key (install_from_map f) k = Ok (inl (n, rs)) ->
    exists d i rule, db_lookup k = Ok d /\ choose cx (install_from_map f) k d = Some (i, rule) /\
      in_resolve i rule = Ok rs /\ in_name i = n.
  Proof.
    unfold Resolve.resolve_key; destruct (db_lookup k) as [[|p d]|e] eqn:Ed.
    - discriminate.
    - destruct (choose cx (install_from_map f) k (p :: d)) as [[i rule]|] eqn:Ec; [|discriminate].
      destruct (in_resolve i rule) as [rs'|e'] eqn:Er.
      + intros H; injection H as <- <-; exists (p :: d), i, rule; auto.
      + destruct (is_InstallerError e'); discriminate.
    - destruct (is_LookupError e); discriminate.
  Qed.

  Definition has_rule (d : pydict) (i : installer W R) : Prop := get (KStr (in_name i)) d <> None.

  Lemma has_rule_has d i : has (KStr (in_name i)) d = true <-> has_rule d i.
  Proof. unfold has, has_rule; destruct (get _ d); split; congruence. Qed.

  Lemma last_match_spec d l found i :
    last_match d l found = Some i ->
    (exists a b, l = a ++ i :: b /\ has_rule d i /\ forall j, In j b -> ~ has_rule d j) \/
    (found = Some i /\ forall j, In j l -> ~ has_rule d j).
  Proof.
    revert found; induction l as [|x l IH]; intros found; cbn [last_match].
    - intros ->; right; split; [reflexivity|]; simpl; tauto.
    - intros H; apply IH in H; destruct H as [(a & b & -> & H1 & H2)|[Hf Hn]].
      + left; exists (x :: a), b; auto.
      + destruct (has (KStr (in_name x)) d) eqn:E.
        * injection Hf as <-; left; exists [], l; split; [reflexivity|]; split; [apply has_rule_has; exact E|exact Hn].
        * right; split; [exact Hf|]; intros j [<-|Hj]; [|auto].
          rewrite <- has_rule_has, E; discriminate.
  Qed.

  Lemma find_first {A} (p : A -> bool) l x :
    find p l = Some x <-> exists a b, l = a ++ x :: b /\ p x = true /\ forall y, In y a -> p y = false.
  Proof.
    induction l as [|z l IH]; simpl.
    - split; [discriminate|]; intros ([|] & ? & E & _); discriminate.
    - destruct (p z) eqn:Ez; split.
      + intros E; injection E as <-; exists [], l; simpl; tauto.
      + intros ([|a0 a] & b & E & Hx & Ha); injection E as -> E; [reflexivity|].
        specialize (Ha a0 (or_introl eq_refl)); congruence.
      + intros E; apply IH in E; destruct E as (a & b & -> & Hx & Ha).
        exists (z :: a), b; split; [reflexivity|]; split; [exact Hx|].
        intros y [<-|Hy]; auto.
      + intros ([|a0 a] & b & E & Hx & Ha); injection E as -> E; [congruence|].
        apply IH; exists a, b; split; [exact E|]; split; [exact Hx|]; intros y Hy; apply Ha; right; exact Hy.
  Qed.

  (** * C27 *)
  (** A key without install-from is resolved, with its own rule, by the first core
      installer having a rule; if no core installer has one, by the LAST additional
      installer having one. *)
  Theorem C27_installer_choice_partial : forall install_from keys all_keys results errors k n rs,
    resolve install_from keys all_keys = Ok (results, errors) ->
    In (k, (n, rs)) results -> demanded install_from k = None ->
    exists d i rule, db_lookup k = Ok d /\ in_name i = n /\
      get (KStr n) d = Some rule /\ in_resolve i rule = Ok rs /\
      ((exists a b, cx_core cx = a ++ i :: b /\ forall j, In j a -> ~ has_rule d j) \/
       ((forall j, In j (cx_core cx) -> ~ has_rule d j) /\
        exists a b, cx_additional cx = a ++ i :: b /\ forall j, In j b -> ~ has_rule d j)).
  Proof.
    intros f keys all r e k n rs H Hin Hd.
    pose proof (result_outcome _ _ _ _ _ _ _ H Hin) as Hk.
    apply resolve_key_inl in Hk; destruct Hk as (d & i & rule & Hl & Hc & Hr & Hn).
    exists d, i, rule; split; [exact Hl|]; split; [exact Hn|].
    unfold choose in Hc; rewrite install_from_map_demanded, Hd in Hc.
    destruct (find (fun i => has (KStr (in_name i)) d) (cx_core cx)) as [j|] eqn:Ef.
    - destruct (get (KStr (in_name j)) d) as [rule'|] eqn:Eg; [|discriminate].
      injection Hc as -> ->; subst n; split; [exact Eg|]; split; [exact Hr|]; left.
      apply find_first in Ef; destruct Ef as (a & b & E & _ & Ha).
      exists a, b; split; [exact E|]; intros j Hj; rewrite <- has_rule_has, (Ha _ Hj); discriminate.
    - destruct (last_match d (cx_additional cx) None) as [j|] eqn:El; [|discriminate].
      destruct (get (KStr (in_name j)) d) as [rule'|] eqn:Eg; [|discriminate].
      injection Hc as -> ->; subst n; split; [exact Eg|]; split; [exact Hr|]; right.
      split.
      + intros j Hj; rewrite <- has_rule_has, (find_none _ _ Ef j Hj); discriminate.
      + apply last_match_spec in El; destruct El as [(a & b & E & _ & Hb)|[E _]]; [eauto|discriminate].
  Qed.

  (** An error is reported for such a key only if lookup failed or found nothing, no
      enabled installer has a rule, or the chosen installer rejected its rule. *)
  Theorem C27_errors : forall install_from keys all_keys results errors k x,
    resolve install_from keys all_keys = Ok (results, errors) ->
    In (k, x) errors -> demanded install_from k = None ->
    x = ResolutionError /\
    ((exists e, db_lookup k = Err e) \/ db_lookup k = Ok [] \/
     (exists d, db_lookup k = Ok d /\ forall j, In j (cx_core cx ++ cx_additional cx) -> ~ has_rule d j) \/
     (exists d i rule e, db_lookup k = Ok d /\ In i (cx_core cx ++ cx_additional cx) /\
        get (KStr (in_name i)) d = Some rule /\ in_resolve i rule = Err e /\ is_InstallerError e = true)).
  Proof.
    intros f keys all r e k x H Hin Hd.
    apply resolve_outcomes in H; destruct H as (ks & g & _ & Hg & _ & ->).
    apply in_flat_map in Hin; destruct Hin as (k' & Hi & Hin).
    specialize (Hg _ Hi); destruct (g k') as [?|x'] eqn:E; simpl in Hin; [contradiction|].
    destruct Hin as [Hin|[]]; injection Hin as -> ->.
    unfold Resolve.resolve_key in Hg; destruct (db_lookup k) as [[|p d]|e] eqn:Ed.
    - injection Hg as <-; split; [reflexivity|]; right; left; reflexivity.
    - revert Hg; generalize (p :: d); clear Ed p d; intros d Hg.
      destruct (choose cx (install_from_map f) k d) as [[i rule]|] eqn:Ec.
      + destruct (in_resolve i rule) as [rs|e'] eqn:Er; [discriminate|].
        destruct (is_InstallerError e') eqn:Ei; [|discriminate].
        injection Hg as <-; split; [reflexivity|]; do 3 right; exists d, i, rule, e'.
        unfold choose in Ec; rewrite install_from_map_demanded, Hd in Ec.
        destruct (find (fun i => has (KStr (in_name i)) d) (cx_core cx)) as [j|] eqn:Ef.
        * destruct (get (KStr (in_name j)) d) as [rule'|] eqn:Eg; [|discriminate].
          injection Ec as -> ->; apply find_some in Ef; destruct Ef as [Ef _].
          repeat split; auto; apply in_or_app; left; exact Ef.
        * destruct (last_match d (cx_additional cx) None) as [j|] eqn:El; [|discriminate].
          destruct (get (KStr (in_name j)) d) as [rule'|] eqn:Eg; [|discriminate].
          injection Ec as -> ->; apply last_match_spec in El.
          destruct El as [(a & b & E' & _)|[E' _]]; [|discriminate].
          repeat split; auto; apply in_or_app; right; rewrite E'; apply in_or_app; right; left; reflexivity.
      + injection Hg as <-; split; [reflexivity|]; right; right; left; exists d; split; [reflexivity|].
        unfold choose in Ec; rewrite install_from_map_demanded, Hd in Ec.
        destruct (find (fun i => has (KStr (in_name i)) d) (cx_core cx)) as [j|] eqn:Ef.
        * apply find_some in Ef; destruct Ef as [_ Eh]; unfold has in Eh.
          destruct (get (KStr (in_name j)) d); discriminate.
        * destruct (last_match d (cx_additional cx) None) as [j|] eqn:El.
          { apply last_match_spec in El; destruct El as [(a & b & _ & Hh & _)|[E' _]]; [|discriminate].
            unfold has_rule in Hh; destruct (get (KStr (in_name j)) d); congruence. }
          intros j Hj; apply in_app_or in Hj; destruct Hj as [Hj|Hj].
          { rewrite <- has_rule_has, (find_none _ _ Ef j Hj); discriminate. }
          rewrite <- has_rule_has; intros Hh.
          assert (X : forall l found, In j l -> last_match d l found <> None).
          { clear - Hh; induction l as [|y l IH]; intros found Hl; [contradiction|].
            cbn [last_match]; destruct Hl as [->|Hl]; [|apply IH; exact Hl].
            rewrite Hh; clear; revert j; induction l as [|z l IH]; intros j; cbn [last_match]; [discriminate|].
            destruct (has (KStr (in_name z)) d); apply IH. }
          exact (X _ _ Hj El).
    - destruct (is_LookupError e); [|discriminate].
      injection Hg as <-; split; [reflexivity|]; left; eauto.
  Qed.

  (** * C28 *)
  (** A result for a key with install-from comes from exactly the demanded installer
      and its rule. *)
  Theorem C28_install_from : forall install_from keys all_keys results errors k n rs inst,
    resolve install_from keys all_keys = Ok (results, errors) ->
    In (k, (n, rs)) results -> demanded install_from k = Some inst ->
    n = inst /\
    exists d i rule, db_lookup k = Ok d /\ In i (cx_plugins cx) /\ in_name i = inst /\
      get (KStr inst) d = Some rule /\ in_resolve i rule = Ok rs.
  Proof.
    intros f keys all r e k n rs inst H Hin Hd.
    pose proof (result_outcome _ _ _ _ _ _ _ H Hin) as Hk.
    apply resolve_key_inl in Hk; destruct Hk as (d & i & rule & Hl & Hc & Hr & Hn).
    unfold choose in Hc; rewrite install_from_map_demanded, Hd in Hc.
    unfold lookup_installer in Hc.
    destruct (find (fun i => eqb (in_name i) inst) (cx_plugins cx)) as [j|] eqn:Ef; [|discriminate].
    destruct (get (KStr inst) d) as [rule'|] eqn:Eg; [|discriminate].
    injection Hc as -> ->; apply find_some in Ef; destruct Ef as [Hi Hj].
    apply (proj1 (eqb_eq _ _)) in Hj; split; [congruence|].
    exists d, i, rule; auto.
  Qed.

  (** Every requested key with install-from gets either a resolution from exactly that
      installer or an error; the error cases are listed. *)
  Theorem C28_honoured_or_reported : forall install_from keys all_keys results errors k inst,
    resolve install_from keys all_keys = Ok (results, errors) ->
    In k keys -> demanded install_from k = Some inst ->
    (exists rs, In (k, (inst, rs)) results) \/
    (In (k, ResolutionError) errors /\
     ((exists e, db_lookup k = Err e) \/
      (exists d, db_lookup k = Ok d /\
        ((forall i, In i (cx_plugins cx) -> in_name i <> inst) \/
         get (KStr inst) d = None \/
         exists i rule e, In i (cx_plugins cx) /\ in_name i = inst /\ get (KStr inst) d = Some rule /\
           in_resolve i rule = Err e /\ is_InstallerError e = true)))).
  Proof.
    intros f keys all r e k inst H Hk Hd.
    pose proof H as H0; apply resolve_outcomes in H; destruct H as (ks & g & Hks & Hg & -> & ->).
    destruct (lookup_keys_spec _ _ _ Hks) as (_ & dk & _ & Hw).
    assert (Ik : In k ks) by (apply Hw; left; exact Hk).
    specialize (Hg k Ik); destruct (g k) as [[n rs]|x] eqn:Egk.
    - left; exists rs.
      assert (Hin : In (k, (n, rs)) (flat_map (fun k => match g k with inl x => [(k, x)] | inr _ => [] end) ks)).
      { apply in_flat_map; exists k; split; [exact Ik|]; rewrite Egk; left; reflexivity. }
      destruct (C28_install_from _ _ _ _ _ _ _ _ _ H0 Hin Hd) as [-> _]; exact Hin.
    - right.
      assert (Hin : In (k, x) (flat_map (fun k => match g k with inl _ => [] | inr x => [(k, x)] end) ks)).
      { apply in_flat_map; exists k; split; [exact Ik|]; rewrite Egk; left; reflexivity. }
      unfold Resolve.resolve_key in Hg; destruct (db_lookup k) as [d|e] eqn:Ed.
      + destruct d as [|p d].
        { injection Hg as <-; split; [exact Hin|]; right; exists []; split; [reflexivity|]; right; left; reflexivity. }
        revert Hg; generalize (p :: d) as dd; intros dd Hg.
        destruct (choose cx (install_from_map f) k dd) as [[i rule]|] eqn:Ec;
          unfold choose in Ec; rewrite install_from_map_demanded, Hd in Ec; unfold lookup_installer in Ec;
          destruct (find (fun i => eqb (in_name i) inst) (cx_plugins cx)) as [j|] eqn:Ef.
        * destruct (get (KStr inst) dd) as [rule'|] eqn:Eg; [|discriminate].
          injection Ec as -> ->; apply find_some in Ef; destruct Ef as [Hi Hj].
          apply (proj1 (eqb_eq _ _)) in Hj.
          destruct (in_resolve i rule) as [rs|e'] eqn:Er; [discriminate|].
          destruct (is_InstallerError e') eqn:Ei; [|discriminate]; injection Hg as <-.
          split; [exact Hin|]; right; exists dd; split; [reflexivity|]; right; right; exists i, rule, e'; auto.
        * discriminate.
        * destruct (get (KStr inst) dd) as [rule'|] eqn:Eg; [discriminate|]; injection Hg as <-.
          split; [exact Hin|]; right; exists dd; split; [reflexivity|]; right; left; exact Eg.
        * injection Hg as <-; split; [exact Hin|]; right; exists dd; split; [reflexivity|]; left.
          intros i Hi E; apply (find_none _ _ Ef) in Hi; subst inst.
          destruct (eqb_spec (in_name i) (in_name i)); congruence.
      + destruct (is_LookupError e); [|discriminate]; injection Hg as <-; split; [exact Hin|]; left; eauto.
  Qed.
End Props.
Print Assumptions C25_one_outcome_per_key.
Print Assumptions C25_counts.
Print Assumptions C26_key_independence.
Print Assumptions C26_no_collateral_failure.
Print Assumptions C27_installer_choice_partial.
Print Assumptions C27_errors.
Print Assumptions C28_install_from.
Print Assumptions C28_honoured_or_reported.

(** * Concrete database and installers *)
Definition toy_installer (name : string) : installer unit pyval := {|
  in_name := u name; in_additional := true;
  in_resolve := fun rule => match rule with VList l => Ok l | _ => Err InvalidRuleError end;
  in_check_general := fun _ _ w => (Ok tt, w);
  in_check_install := fun _ _ _ w => (Ok tt, w);
  in_filter_uninstalled := fun rs w => (Ok rs, w);
  in_is_installed := fun _ w => (Ok true, w);
  in_commands := fun rs _ _ w => (Ok [[u "install"]], w)
|}.

Definition toy_db (k : text) : res pydict :=
  if eqb k (u "boost") then Ok [(KStr (u "pip"), VList [VStr (u "pip-boost")]);
                                (KStr (u "gem"), VList [VStr (u "gem-boost")])]
  else if eqb k (u "curl") then Ok [(KStr (u "pip"), VList [VStr (u "pycurl")]);
                                    (KStr (u "apt"), VList [VStr (u "curl")])]
  else if eqb k (u "bad") then Ok [(KStr (u "apt"), VNone)]
  else Ok [].

Definition toy_cx : context unit pyval := {|
  cx_ic := {| ic_os := u "ubuntu"; ic_version := u "lucid"; ic_default := None |};
  cx_plugins := [toy_installer "pip"; toy_installer "gem"; toy_installer "apt"];
  cx_core := [toy_installer "apt"];
  cx_additional := [toy_installer "pip"; toy_installer "gem"]
|}.

(** "the first additional installer that has a rule" is false: pip comes first and has
    a rule, gem is chosen. *)
Theorem C27_first_additional_refuted :
  resolve toy_db (Ok []) toy_cx [] [u "boost"] false
    = Ok ([(u "boost", (u "gem", [VStr (u "gem-boost")]))], []) /\
  exists first rest, cx_additional toy_cx = first :: rest /\ in_name first = u "pip" /\
    has (KStr (u "pip")) [(KStr (u "pip"), VList [VStr (u "pip-boost")]);
                          (KStr (u "gem"), VList [VStr (u "gem-boost")])] = true.
Proof. split; [vm_compute; reflexivity|]; do 2 eexists; repeat split. Qed.
Print Assumptions C27_first_additional_refuted.

Example C25_28_example :
  resolve toy_db (Ok [u "curl"; u "bad"]) toy_cx
    [(u "pip", [u "curl"]); (u "gem", [u "curl"])] [u "nope"; u "boost"; u "nope"] true
  = Ok ([(u "boost", (u "gem", [VStr (u "gem-boost")])); (u "curl", (u "pip", [VStr (u "pycurl")]))],
        [(u "nope", ResolutionError); (u "bad", ResolutionError)]) /\
  demanded [(u "pip", [u "curl"]); (u "gem", [u "curl"])] (u "curl") = Some (u "pip").
Proof. split; vm_compute; reflexivity. Qed.

(** The order of the configured mapping only matters for keys listed under several
    installers. *)
Definition one_installer_per_key (install_from : dict text (list text)) : Prop :=
  forall k i1 ks1 i2 ks2, In (i1, ks1) install_from -> In (i2, ks2) install_from ->
    In k ks1 -> In k ks2 -> i1 = i2.

Lemma demanded_some f k inst : demanded f k = Some inst -> exists ks, In (inst, ks) f /\ In k ks.
Proof.
  induction f as [|[i ks] f IH]; cbn [demanded]; [discriminate|].
  destruct (mem k ks) eqn:E.
  - intros H; injection H as <-; exists ks; split; [left; reflexivity|apply mem_In; exact E].
  - intros H; destruct (IH H) as (ks' & Hin & Hk); exists ks'; split; [right; exact Hin|exact Hk].
Qed.

Lemma demanded_none f k : demanded f k = None -> forall i ks, In (i, ks) f -> ~ In k ks.
Proof.
  induction f as [|[i0 ks0] f IH]; cbn [demanded]; [intros _ i ks []|].
  destruct (mem k ks0) eqn:E; [discriminate|].
  intros H i ks [Eq|Hin]; [injection Eq as <- <-; intros D; apply mem_In in D; congruence|exact (IH H i ks Hin)].
Qed.

Lemma demanded_same f f' k : one_installer_per_key f -> (forall p, In p f <-> In p f') ->
  demanded f k = demanded f' k.
Proof.
  intros H Hp; destruct (demanded f k) as [i|] eqn:E, (demanded f' k) as [i'|] eqn:E'.
  - apply demanded_some in E; apply demanded_some in E'.
    destruct E as (ks & Hin & Hk), E' as (ks' & Hin' & Hk'); f_equal; eapply H; [exact Hin|apply Hp; exact Hin'|exact Hk|exact Hk'].
  - apply demanded_some in E; destruct E as (ks & Hin & Hk); apply Hp in Hin.
    destruct (demanded_none _ _ E' _ _ Hin Hk).
  - apply demanded_some in E'; destruct E' as (ks & Hin & Hk); apply Hp in Hin.
    destruct (demanded_none _ _ E _ _ Hin Hk).
  - reflexivity.
Qed.

Theorem C28_order_irrelevant :
  forall (W R : Type) (db_lookup : text -> res pydict) (db_keys : res (list text)) (cx : context W R)
         (f f' : dict text (list text)) (keys : list text) (all_keys : bool),
    Permutation f f' -> one_installer_per_key f ->
    resolve db_lookup db_keys cx f keys all_keys = resolve db_lookup db_keys cx f' keys all_keys.
Proof.
  intros W R dl dk cx f f' keys all Hp H; unfold resolve.
  destruct (lookup_keys dk keys all) as [ks|e]; [|reflexivity]; cbn [bind].
  assert (X : forall k, get k (install_from_map f) = get k (install_from_map f')).
  { intros k; rewrite !install_from_map_demanded; apply demanded_same; [exact H|].
    intros p; split; apply Permutation_in; [exact Hp|apply Permutation_sym; exact Hp]. }
  generalize (@nil (text * (text * list R)), @nil (text * exn)) as acc.
  induction ks as [|k ks IH]; intros acc; [reflexivity|]; cbn [foldM].
  assert (E : resolve_step dl cx (install_from_map f) acc k = resolve_step dl cx (install_from_map f') acc k).
  { unfold resolve_step, resolve_key, choose; rewrite X; reflexivity. }
  rewrite E; destruct (resolve_step dl cx (install_from_map f') acc k); [apply IH|reflexivity].
Qed.
Print Assumptions C28_order_irrelevant.

(** With a key under two installers the order decides. *)
Theorem C28_order_refuted :
  exists f f', Permutation f f' /\ wf f /\
    resolve toy_db (Ok []) toy_cx f [u "boost"] false = Ok ([(u "boost", (u "pip", [VStr (u "pip-boost")]))], []) /\
    resolve toy_db (Ok []) toy_cx f' [u "boost"] false = Ok ([(u "boost", (u "gem", [VStr (u "gem-boost")]))], []).
Proof.
  exists [(u "pip", [u "boost"]); (u "gem", [u "boost"])], [(u "gem", [u "boost"]); (u "pip", [u "boost"])].
  split; [apply perm_swap|]; split; [|split; vm_compute; reflexivity].
  repeat constructor; vm_compute; intuition discriminate.
Qed.
Print Assumptions C28_order_refuted.

Example C28_order_nonvacuous :
  one_installer_per_key [(u "pip", [u "boost"; u "boost"]); (u "gem", [u "curl"])].
Proof.
  intros k i1 ks1 i2 ks2 [E1|[E1|[]]] [E2|[E2|[]]]; injection E1 as <- <-; injection E2 as <- <-; try reflexivity;
    intros A B; vm_compute in A, B; exfalso; intuition congruence.
Qed.
