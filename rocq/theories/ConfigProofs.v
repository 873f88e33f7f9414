(** Proofs about descriptions, loading and merging (Config.v). *)
From Verif Require Import Base Dict PyVal Sources Util Paths Config ConfigSpec ConfigTypeProofs.

(** ** Names *)
Lemma split_once_Some c s a b : split_once c s = Some (a, b) -> s = a ++ c :: b /\ ~ In c a.
Proof.
  revert a b; induction s as [|x s IH]; simpl; intros a b E; [discriminate|].
  destruct (eqb_spec x c) as [->|Hn].
  - injection E as <- <-; split; [reflexivity|simpl; tauto].
  - destruct (split_once c s) as [[a' b']|]; [|discriminate]; injection E as <- <-.
    destruct (IH a' b' eq_refl) as [-> Ha]; split; [reflexivity|].
    intros [E|Hin]; [congruence|tauto].
Qed.

Lemma split_once_None c s : split_once c s = None <-> ~ In c s.
Proof.
  induction s as [|x s IH]; simpl; [tauto|].
  destruct (eqb_spec x c) as [->|Hn]; [split; [discriminate|tauto]|].
  destruct (split_once c s) as [[a b]|].
  - split; [discriminate|]; intros Hs; exfalso.
    assert (Some (a, b) = None) by (apply IH; tauto); discriminate.
  - split; [|reflexivity]; intros _ [E|Hin]; [congruence|]; apply IH in Hin; auto.
Qed.

Lemma split_once_app c a b : ~ In c a -> split_once c (a ++ c :: b) = Some (a, b).
Proof.
  induction a as [|x a IH]; simpl; intros Ha; [rewrite eqb_refl; reflexivity|].
  destruct (eqb_spec x c) as [->|_]; [tauto|]; rewrite IH by tauto; reflexivity.
Qed.

Lemma is_group_name_In name : is_group_name name = true <-> In slash name.
Proof. apply mem_In. Qed.

Lemma split_group_app g s : ~ In slash s -> split_group (g ++ slash :: s) = (g, s).
Proof.
  intros Hs; unfold split_group; rewrite rev_app_distr; simpl; rewrite <- app_assoc; simpl.
  rewrite split_once_app by (rewrite <- in_rev; assumption).
  rewrite !rev_involutive; reflexivity.
Qed.

Lemma split_group_spec name : In slash name ->
  exists g s, split_group name = (g, s) /\ name = g ++ slash :: s /\ ~ In slash s.
Proof.
  intros Hin; unfold split_group.
  destruct (split_once slash (rev name)) as [[a b]|] eqn:E.
  - apply split_once_Some in E; destruct E as [E Ha].
    exists (rev b), (rev a); split; [reflexivity|].
    split; [|rewrite <- in_rev; assumption].
    rewrite <- (rev_involutive name), E, rev_app_distr; simpl; rewrite <- app_assoc; reflexivity.
  - apply split_once_None in E; rewrite <- in_rev in E; tauto.
Qed.

Lemma split_inj (g s g' s' : text) :
  ~ In slash s -> ~ In slash s' -> g ++ slash :: s = g' ++ slash :: s' -> g = g' /\ s = s'.
Proof.
  intros Hs Hs' E; pose proof (split_group_app g s Hs) as E1; rewrite E in E1.
  rewrite split_group_app in E1 by assumption; injection E1 as <- <-; auto.
Qed.

Lemma group_name_In g s : In slash (g ++ slash :: s).
Proof. apply in_or_app; right; left; reflexivity. Qed.

(** ** The value of an option as a function *)
Definition conf_get (name : text) (c : pydict) : option pyval :=
  if is_group_name name then
    let (g, s) := split_group name in
    match get (KStr g) c with
    | Some (VDict gd) => get (KStr s) gd
    | _ => None
    end
  else get (KStr name) c.

Lemma option_at_get name c v : option_at name c v <-> conf_get name c = Some v.
Proof.
  unfold option_at, conf_get; destruct (is_group_name name) eqn:E.
  - apply is_group_name_In in E; destruct (split_group_spec _ E) as (g & s & Es & En & Hs).
    rewrite Es; split.
    + intros [[Hn _]|(g' & s' & gd & En' & Hs' & Hg & Hv)]; [tauto|].
      rewrite En in En'; destruct (split_inj _ _ _ _ Hs Hs' En') as [<- <-].
      rewrite Hg; assumption.
    + destruct (get (KStr g) c) as [x|] eqn:Eg; [|discriminate].
      destruct x as [| | | | | |gd]; try discriminate; intros Ev; right.
      exists g, s, gd; auto.
  - assert (Hn : ~ In slash name) by (intros H; apply is_group_name_In in H; congruence).
    split; [intros [[_ Hv]|(g & s & gd & -> & _)]; [assumption|exfalso; apply Hn, group_name_In]|].
    intros Hv; left; auto.
Qed.

Lemma option_at_fun name c v w : option_at name c v -> option_at name c w -> v = w.
Proof. rewrite !option_at_get; congruence. Qed.

(** ** Adding to a description *)
Lemma add_names_ok d it : names_ok d -> names_ok (fst (add d it)).
Proof.
  intros [H1 H2 H3 H4 H5 H6 H7]; unfold add.
  destruct (has (i_name it) (d_items d)) eqn:Hi; [constructor; assumption|].
  destruct (has (i_name it) (d_groups d)) eqn:Hg; [constructor; assumption|].
  apply has_false in Hi, Hg.
  (* the names part does not depend on the flag *)
  assert (Hgo : forall groups,
    names_ok {| d_namespace := d_namespace d; d_itemlist := d_itemlist d ++ [it];
                d_items := set (i_name it) it (d_items d); d_groups := groups;
                d_arguments := d_arguments d |} ->
    names_ok (fst (let d1 := {| d_namespace := d_namespace d; d_itemlist := d_itemlist d ++ [it];
                d_items := set (i_name it) it (d_items d); d_groups := groups;
                d_arguments := d_arguments d |} in
        match i_command_line it, i_argument it with
        | true, Some arg =>
          if has arg (d_arguments d) then (d1, Err ConfigDescriptionError)
          else ({| d_namespace := d_namespace d1; d_itemlist := d_itemlist d1;
                   d_items := d_items d1; d_groups := d_groups d1;
                   d_arguments := set arg it (d_arguments d1) |}, Ok tt)
        | _, _ => (d1, Ok tt)
        end))).
  { intros groups HN; cbv zeta; destruct (i_command_line it); [|exact HN].
    destruct (i_argument it) as [arg|]; [|exact HN].
    destruct (has arg (d_arguments d)); [exact HN|]; destruct HN; constructor; assumption. }
  assert (Hname : forall name it0, get name (set (i_name it) it (d_items d)) = Some it0 -> i_name it0 = name).
  { intros name it0; rewrite get_set; destruct (eqb_spec name (i_name it)) as [->|_];
      [intros E; congruence|apply H4]. }
  destruct (is_group_name (i_name it)) eqn:Egn.
  - apply is_group_name_In in Egn; destruct (split_group_spec _ Egn) as (g & s & Es & En & Hs).
    rewrite Es; destruct (get g (d_groups d)) as [gd|] eqn:Egd.
    + apply Hgo; constructor; cbn [d_items d_groups].
      * apply wf_set; assumption.
      * apply wf_set; assumption.
      * intros g' gd'; rewrite get_set; destruct (eqb_spec g' g) as [->|_]; [|apply H3].
        intros E; injection E as <-; destruct (H3 _ _ Egd) as [Hw _]; split; [apply wf_set; assumption|].
        destruct gd as [|[k0 v0] gd]; [rewrite set_nil; congruence|].
        rewrite set_cons; destruct (eqb s k0); congruence.
      * assumption.
      * intros g' s' it' Hs'; rewrite get_set; split.
        -- destruct (eqb_spec (g' ++ slash :: s') (i_name it)) as [E|Hn].
           ++ rewrite En in E; destruct (split_inj _ _ _ _ Hs' Hs E) as [-> ->].
              intros E'; injection E' as <-; exists (set s it gd); rewrite !get_set_same; auto.
           ++ intros E; apply H5 in E; [|assumption]; destruct E as (gd' & E1 & E2).
              rewrite get_set; destruct (eqb_spec g' g) as [->|_]; [|eauto].
              assert (gd' = gd) by congruence; subst gd'; exists (set s it gd); split; [reflexivity|].
              rewrite get_set_other; [assumption|]; intros ->; congruence.
        -- intros (gd' & E1 & E2).
           rewrite get_set in E1; destruct (eqb_spec g' g) as [->|Hgn].
           ++ injection E1 as <-; rewrite get_set in E2; rewrite En.
              destruct (eqb_spec s' s) as [->|Hsn]; [rewrite eqb_refl; congruence|].
              destruct (eqb_spec (g ++ slash :: s') (g ++ slash :: s)) as [E|_].
              ** destruct (split_inj _ _ _ _ Hs' Hs E); congruence.
              ** apply H5; [assumption|]; eauto.
           ++ destruct (eqb_spec (g' ++ slash :: s') (i_name it)) as [E|_].
              ** rewrite En in E; destruct (split_inj _ _ _ _ Hs' Hs E); congruence.
              ** apply H5; [assumption|]; eauto.
      * intros g' gd' s' it'; rewrite get_set; destruct (eqb_spec g' g) as [->|_]; [|apply H6].
        intros E; injection E as <-; rewrite get_set; destruct (eqb_spec s' s) as [->|_]; [auto|].
        apply (H6 g gd s'); assumption.
      * intros g' Hg'; apply in_keys_set in Hg'; rewrite in_keys_set; intros [Hn|Hin].
        -- subst g'; destruct Hg' as [Hn|Hin]; [|apply get_None in Hg; tauto].
           apply get_None in Hg; apply Hg; rewrite Hn; eapply In_keys, get_In; exact Egd.
        -- apply (H7 g'); [|assumption]; destruct Hg' as [->|?]; [|assumption].
           eapply In_keys, get_In; exact Egd.
    + destruct (has g (d_items d)) eqn:Ehg; [constructor; assumption|]; apply has_false in Ehg.
      apply Hgo; constructor; cbn [d_items d_groups].
      * apply wf_set; assumption.
      * apply wf_set; assumption.
      * intros g' gd'; rewrite get_set; destruct (eqb_spec g' g) as [->|_]; [|apply H3].
        intros E; injection E as <-; split; [|congruence]; apply wf_cons; split; [reflexivity|apply wf_nil].
      * assumption.
      * intros g' s' it' Hs'; rewrite get_set; split.
        -- destruct (eqb_spec (g' ++ slash :: s') (i_name it)) as [E|Hn].
           ++ rewrite En in E; destruct (split_inj _ _ _ _ Hs' Hs E) as [-> ->].
              intros E'; injection E' as <-; exists [(s, it)]; rewrite get_set_same, get_cons, eqb_refl; auto.
           ++ intros E; apply H5 in E; [|assumption]; destruct E as (gd' & E1 & E2).
              rewrite get_set; destruct (eqb_spec g' g) as [->|_]; [congruence|eauto].
        -- intros (gd' & E1 & E2).
           rewrite get_set in E1; destruct (eqb_spec g' g) as [->|Hgn].
           ++ injection E1 as <-; rewrite get_cons in E2; rewrite En.
              destruct (eqb_spec s' s) as [->|Hsn]; [rewrite eqb_refl; congruence|discriminate].
           ++ destruct (eqb_spec (g' ++ slash :: s') (i_name it)) as [E|_].
              ** rewrite En in E; destruct (split_inj _ _ _ _ Hs' Hs E); congruence.
              ** apply H5; [assumption|]; eauto.
      * intros g' gd' s' it'; rewrite get_set; destruct (eqb_spec g' g) as [->|_]; [|apply H6].
        intros E; injection E as <-; rewrite get_cons; destruct (eqb_spec s' s) as [->|_]; [auto|discriminate].
      * intros g' Hg'; apply in_keys_set in Hg'; rewrite in_keys_set; intros [Hn|Hin].
        -- subst g'; destruct Hg' as [Hn|Hin]; [|apply get_None in Hg; tauto].
           (* a name is not its own group *)
           rewrite Hn in En; apply (f_equal (@List.length N)) in En; rewrite app_length in En; simpl in En; lia.
        -- destruct Hg' as [->|Hg']; [apply get_None in Ehg; tauto|]; apply (H7 g'); assumption.
  - assert (Hns : ~ In slash (i_name it)) by (intros Hin; apply is_group_name_In in Hin; congruence).
    apply Hgo; constructor; cbn [d_items d_groups]; auto.
    + apply wf_set; assumption.
    + intros g' s' it' Hs'; rewrite get_set.
      destruct (eqb_spec (g' ++ slash :: s') (i_name it)) as [E|_]; [|apply H5; assumption].
      exfalso; apply Hns; rewrite <- E; apply group_name_In.
    + intros g' Hg'; rewrite in_keys_set; intros [->|Hin]; [apply get_None in Hg; tauto|].
      apply (H7 g'); assumption.
Qed.

(** An accepted addition keeps the flags consistent. *)
Lemma add_args_ok d it :
  args_ok d -> snd (add d it) = Ok tt ->
  (i_command_line it = true -> i_argument it <> None) -> args_ok (fst (add d it)).
Proof.
  intros [H1 H2] Hok Hca; unfold add in *.
  destruct (has (i_name it) (d_items d)) eqn:Hi; [discriminate|].
  destruct (has (i_name it) (d_groups d)) eqn:Hg; [discriminate|].
  apply has_false in Hi, Hg.
  assert (Hgo : forall groups,
    let r := (let d1 := {| d_namespace := d_namespace d; d_itemlist := d_itemlist d ++ [it];
                d_items := set (i_name it) it (d_items d); d_groups := groups;
                d_arguments := d_arguments d |} in
        match i_command_line it, i_argument it with
        | true, Some arg =>
          if has arg (d_arguments d) then (d1, Err ConfigDescriptionError)
          else ({| d_namespace := d_namespace d1; d_itemlist := d_itemlist d1;
                   d_items := d_items d1; d_groups := d_groups d1;
                   d_arguments := set arg it (d_arguments d1) |}, Ok tt)
        | _, _ => (d1, Ok tt)
        end) in snd r = Ok tt -> args_ok (fst r)).
  { intros groups r; subst r; cbv zeta.
    assert (Hkeep : i_command_line it = false ->
      args_ok {| d_namespace := d_namespace d; d_itemlist := d_itemlist d ++ [it];
                 d_items := set (i_name it) it (d_items d); d_groups := groups;
                 d_arguments := d_arguments d |}).
    { intros Hc; constructor; cbn [d_items d_arguments].
      - intros name it0; rewrite get_set; destruct (eqb_spec name (i_name it)); [congruence|apply H1].
      - intros a it0 E; destruct (H2 _ _ E) as (E1 & E2 & E3); repeat split; auto.
        rewrite get_set_other; [assumption|]; intros E'; rewrite E' in E1; congruence. }
    destruct (i_command_line it) eqn:Ec; [|auto].
    destruct (i_argument it) as [arg|] eqn:Ea; [|exfalso; apply Hca; reflexivity].
    destruct (has arg (d_arguments d)) eqn:Eh; [discriminate|]; intros _; apply has_false in Eh.
    constructor; cbn [fst d_items d_arguments].
    - intros name it0; rewrite get_set; destruct (eqb_spec name (i_name it)) as [->|_].
      + intros E _; injection E as <-; exists arg; rewrite get_set_same; auto.
      + intros E Hc; destruct (H1 _ _ E Hc) as (a & E1 & E2); exists a; split; [assumption|].
        rewrite get_set_other; [assumption|]; congruence.
    - intros a it0; rewrite get_set; destruct (eqb_spec a arg) as [->|_].
      + intros E; injection E as <-; rewrite get_set_same; auto.
      + intros E; destruct (H2 _ _ E) as (E1 & E2 & E3); repeat split; auto.
        rewrite get_set_other; [assumption|]; intros E'; rewrite E' in E1; congruence. }
  destruct (is_group_name (i_name it)).
  - destruct (split_group (i_name it)) as [g s].
    destruct (get g (d_groups d)) as [gd|]; [apply Hgo; exact Hok|].
    destruct (has g (d_items d)); [discriminate|apply Hgo; exact Hok].
  - apply Hgo; exact Hok.
Qed.

Lemma make_item_arg name t dflt cl arg mv :
  i_command_line (make_item name t dflt cl arg mv) = true -> i_argument (make_item name t dflt cl arg mv) <> None.
Proof.
  unfold make_item; cbn [i_command_line i_argument]; intros ->.
  destruct arg as [[|]|]; congruence.
Qed.

Lemma empty_names_ok ns : names_ok (empty_desc ns).
Proof.
  constructor; cbn; try (intros; discriminate); try apply wf_nil; try tauto.
  intros g s it _; rewrite get_nil; split; [discriminate|intros (gd & E & _); discriminate].
Qed.

Lemma empty_args_ok ns : args_ok (empty_desc ns).
Proof. constructor; cbn; intros; discriminate. Qed.

(** ** Building a configuration *)
Lemma foldM_mono {A S} (f f' : S -> A -> res S) l s r :
  foldM f l s = Ok r -> (forall x a b, In x l -> f a x = Ok b -> f' a x = Ok b) ->
  foldM f' l s = Ok r.
Proof.
  revert s; induction l as [|x l IH]; simpl; intros s E Hf; [assumption|].
  apply bind_Ok in E; destruct E as (s1 & E1 & E2).
  rewrite (Hf x s s1 (or_introl eq_refl) E1); cbn [bind]; apply IH; [assumption|].
  intros; apply Hf; auto.
Qed.

(** A loop that assigns one key per iteration. *)
Section FoldSet.
  Context {A : Type} (kf : A -> pkey) (vf : A -> res pyval).
  Definition fset (acc : pydict) (x : A) : res pydict := let* v := vf x in Ok (set (kf x) v acc).

  Lemma fset_get l acc c : NoDup (map kf l) -> foldM fset l acc = Ok c ->
    (forall x, In x l -> exists v, vf x = Ok v /\ get (kf x) c = Some v) /\
    (forall k, ~ In k (map kf l) -> get k c = get k acc) /\
    (wf acc -> wf c).
  Proof.
    revert acc; induction l as [|x l IH]; simpl; intros acc Hnd E.
    { injection E as <-; repeat split; tauto. }
    inversion Hnd as [|? ? Hx Hl]; subst.
    apply bind_Ok in E; destruct E as (acc1 & E1 & E2); unfold fset in E1.
    apply bind_Ok in E1; destruct E1 as (v & Ev & E1); injection E1 as <-.
    destruct (IH _ Hl E2) as (I1 & I2 & I3); split; [|split].
    - intros y [<-|Hy]; [|auto]; exists v; split; [assumption|].
      rewrite I2 by assumption; apply get_set_same.
    - intros k Hk; rewrite I2 by tauto; apply get_set_other; intros ->; tauto.
    - intros Hw; apply I3, wf_set; assumption.
  Qed.

  Lemma fset_total l acc : (forall x, In x l -> exists v, vf x = Ok v) ->
    exists c, foldM fset l acc = Ok c.
  Proof.
    revert acc; induction l as [|x l IH]; simpl; intros acc Hall; [eauto|].
    destruct (Hall x (or_introl eq_refl)) as [v Ev].
    unfold fset at 1; rewrite Ev; cbn [bind]; apply IH; auto.
  Qed.

  Lemma fset_Err l acc e : foldM fset l acc = Err e -> exists x, In x l /\ vf x = Err e.
  Proof.
    revert acc; induction l as [|x l IH]; simpl; intros acc E; [discriminate|].
    apply bind_Err in E; destruct E as [E|(acc1 & _ & E)].
    - unfold fset in E; apply bind_Err in E; destruct E as [E|(v & _ & E)]; [eauto|discriminate].
    - destruct (IH _ E) as (y & Hy & Ey); eauto.
  Qed.
End FoldSet.

Lemma foldM_ext {A S} (f f' : S -> A -> res S) l s :
  (forall x a, In x l -> f a x = f' a x) -> foldM f l s = foldM f' l s.
Proof.
  revert s; induction l as [|x l IH]; simpl; intros s Hf; [reflexivity|].
  rewrite Hf by (left; reflexivity); destruct (f' s x); cbn [bind]; [|reflexivity].
  apply IH; auto.
Qed.

Lemma foldM_filter {A S} (f : S -> A -> res S) (p : A -> bool) l s :
  foldM (fun s x => if p x then Ok s else f s x) l s = foldM f (filter (fun x => negb (p x)) l) s.
Proof.
  revert s; induction l as [|x l IH]; simpl; intros s; [reflexivity|].
  destruct (p x); cbn [negb bind]; [apply IH|]; simpl; destruct (f s x); cbn [bind]; auto.
Qed.

Lemma map_KStr_NoDup (l : list text) : NoDup l -> NoDup (map KStr l).
Proof.
  induction 1 as [|x l Hx Hl IH]; simpl; constructor; [|assumption].
  rewrite in_map_iff; intros (y & E & Hy); injection E as ->; tauto.
Qed.

Definition gval (fg : text -> text -> item -> res pyval) (g : text * dict text item) : res pyval :=
  let* gd := foldM (fset (fun p : text * item => KStr (fst p)) (fun p => fg (fst g) (fst p) (snd p)))
               (snd g) [] in Ok (VDict gd).

Definition top_items (d : desc) : list (text * item) :=
  filter (fun p => negb (is_group_name (fst p))) (d_items d).

Lemma build_eq d fg fi :
  build d (fun _ => Ok tt) fg fi =
  (let* c := foldM (fset (fun g : text * dict text item => KStr (fst g)) (gval fg)) (d_groups d) [] in
   foldM (fset (fun p : text * item => KStr (fst p)) (fun p => fi (fst p) (snd p))) (top_items d) c).
Proof.
  unfold build.
  rewrite (foldM_ext _ (fset (fun g : text * dict text item => KStr (fst g)) (gval fg)) (d_groups d) []).
  - destruct (foldM _ (d_groups d) []) as [c|e]; cbn [bind]; [|reflexivity].
    unfold top_items; rewrite <- foldM_filter; apply foldM_ext; intros [n i] a _; reflexivity.
  - intros [g gd] a _; unfold fset, gval; cbn [bind fst snd].
    destruct (foldM _ gd []); reflexivity.
Qed.

Lemma top_items_In d name it : names_ok d ->
  (In (name, it) (top_items d) <-> get name (d_items d) = Some it /\ ~ In slash name).
Proof.
  intros Hd; unfold top_items; rewrite filter_In, negb_true_iff; cbn [fst].
  rewrite get_iff by apply (ok_items _ Hd).
  rewrite <- is_group_name_In; destruct (is_group_name name); split; intros [A B]; split;
    try assumption; congruence.
Qed.

Lemma NoDup_map_filter {A B} (f : A -> B) (p : A -> bool) l : NoDup (map f l) -> NoDup (map f (filter p l)).
Proof.
  induction l as [|x l IH]; simpl; intros Hn; [constructor|].
  inversion Hn as [|? ? Hx Hl]; subst; destruct (p x); simpl; auto.
  constructor; [|auto]; intros Hin; apply Hx.
  apply in_map_iff in Hin; destruct Hin as (y & E & Hy); apply filter_In in Hy.
  apply in_map_iff; exists y; tauto.
Qed.

Lemma top_items_NoDup d : names_ok d -> NoDup (map (fun p : text * item => KStr (fst p)) (top_items d)).
Proof.
  intros Hd; rewrite <- (map_map (fun p : text * item => fst p) KStr).
  apply map_KStr_NoDup, NoDup_map_filter; exact (ok_items _ Hd).
Qed.

Lemma groups_NoDup d : names_ok d ->
  NoDup (map (fun g : text * dict text item => KStr (fst g)) (d_groups d)).
Proof.
  intros Hd; rewrite <- (map_map (fun g : text * dict text item => fst g) KStr).
  apply map_KStr_NoDup; exact (ok_groups _ Hd).
Qed.

(** What each option of a built configuration is. *)
Definition item_value (fg : text -> text -> item -> res pyval) (fi : text -> item -> res pyval)
    (name : text) (it : item) : res pyval :=
  if is_group_name name then let (g, s) := split_group name in fg g s it else fi name it.

Lemma build_get d fg fi c : names_ok d -> build d (fun _ => Ok tt) fg fi = Ok c ->
  wf c /\
  (forall g, In g (keys (d_groups d)) -> exists gd, get (KStr g) c = Some (VDict gd) /\ wf gd) /\
  forall name it, get name (d_items d) = Some it ->
    exists v, item_value fg fi name it = Ok v /\ conf_get name c = Some v.
Proof.
  intros Hd; rewrite build_eq; intros E; apply bind_Ok in E; destruct E as (c1 & E1 & E2).
  destruct (fset_get _ _ _ _ _ (groups_NoDup d Hd) E1) as (G1 & _ & G3).
  destruct (fset_get _ _ _ _ _ (top_items_NoDup d Hd) E2) as (T1 & T2 & T3).
  assert (Hgrp : forall g, In g (keys (d_groups d)) -> get (KStr g) c = get (KStr g) c1).
  { intros g Hg; apply T2; rewrite in_map_iff; intros ([n i] & En & Hn); cbn [fst] in En.
    injection En as ->; apply (top_items_In d _ _ Hd) in Hn; destruct Hn as [Hn _].
    apply (ok_disjoint _ Hd g Hg); eapply In_keys, get_In; exact Hn. }
  assert (Hgv : forall g gd, get g (d_groups d) = Some gd ->
    exists gd', get (KStr g) c = Some (VDict gd') /\
      foldM (fset (fun p : text * item => KStr (fst p)) (fun p => fg g (fst p) (snd p))) gd [] = Ok gd').
  { intros g gd Hg; destruct (G1 (g, gd) (get_In _ _ _ Hg)) as (v & Ev & Eg).
    unfold gval in Ev; apply bind_Ok in Ev; destruct Ev as (gd' & Egd & Ev); injection Ev as <-.
    cbn [fst snd] in *; exists gd'; split; [|assumption].
    rewrite Hgrp; [assumption|]; eapply In_keys, get_In; exact Hg. }
  assert (Hnd : forall g gd, get g (d_groups d) = Some gd ->
                NoDup (map (fun p : text * item => KStr (fst p)) gd)).
  { intros g gd Hg; destruct (ok_group _ Hd _ _ Hg) as [Hw _].
    rewrite <- (map_map (fun p : text * item => fst p) KStr); apply map_KStr_NoDup; exact Hw. }
  split; [apply T3, G3, wf_nil|]; split.
  { intros g Hg; apply get_Some_keys in Hg; destruct Hg as [gd Hg].
    destruct (Hgv _ _ Hg) as (gd' & E & Ef); exists gd'; split; [assumption|].
    destruct (fset_get _ _ _ _ _ (Hnd _ _ Hg) Ef) as (_ & _ & F3); apply F3, wf_nil. }
  intros name it Hname; unfold item_value, conf_get.
  destruct (is_group_name name) eqn:Egn.
  - apply is_group_name_In in Egn; destruct (split_group_spec _ Egn) as (g & s & Es & En & Hs).
    rewrite Es; rewrite En in Hname; apply (ok_sub _ Hd) in Hname; [|assumption].
    destruct Hname as (gd & Hg & Hsub); destruct (Hgv _ _ Hg) as (gd' & Egd' & Ef).
    rewrite Egd'.
    destruct (fset_get _ _ _ _ _ (Hnd _ _ Hg) Ef) as (F1 & _ & _).
    destruct (F1 (s, it) (get_In _ _ _ Hsub)) as (v & Ev & Ev'); eauto.
  - assert (Hns : ~ In slash name) by (intros Hin; apply is_group_name_In in Hin; congruence).
    destruct (T1 (name, it)) as (v & Ev & Ev'); [apply top_items_In; auto|]; eauto.
Qed.

Lemma build_total d fg fi : names_ok d ->
  (forall name it, get name (d_items d) = Some it -> exists v, item_value fg fi name it = Ok v) ->
  exists c, build d (fun _ => Ok tt) fg fi = Ok c.
Proof.
  intros Hd Hall; rewrite build_eq.
  assert (Hg : forall x, In x (d_groups d) -> exists v, gval fg x = Ok v).
  { intros [g gd] Hin; unfold gval; cbn [fst snd].
    apply In_get in Hin; [|apply (ok_groups _ Hd)].
    destruct (ok_group _ Hd _ _ Hin) as [Hw _].
    destruct (fset_total (fun p : text * item => KStr (fst p)) (fun p => fg g (fst p) (snd p)) gd [])
      as [gd' E]; [|rewrite E; cbn [bind]; eauto].
    intros [s it] Hs; apply In_get in Hs; [|assumption]; cbn [fst snd].
    pose proof (ok_subname _ Hd _ _ _ _ Hin Hs) as Hns.
    destruct (Hall (g ++ slash :: s) it) as [v Ev]; [apply (ok_sub _ Hd); eauto|].
    unfold item_value in Ev; rewrite (proj2 (is_group_name_In _) (group_name_In g s)) in Ev.
    rewrite split_group_app in Ev by assumption; eauto. }
  destruct (fset_total (fun g : text * dict text item => KStr (fst g)) (gval fg) (d_groups d) [] Hg) as [c1 E1].
  rewrite E1; cbn [bind]; apply fset_total; intros [name it] Hin.
  apply top_items_In in Hin; [|assumption]; destruct Hin as [Hin Hns]; cbn [fst snd].
  destruct (Hall name it Hin) as [v Ev]; unfold item_value in Ev.
  destruct (is_group_name name) eqn:E; [apply is_group_name_In in E; tauto|eauto].
Qed.

Lemma build_Err d fg fi e : names_ok d -> build d (fun _ => Ok tt) fg fi = Err e ->
  exists name it, get name (d_items d) = Some it /\ item_value fg fi name it = Err e.
Proof.
  intros Hd; rewrite build_eq; intros E; apply bind_Err in E; destruct E as [E|(c1 & _ & E)].
  - apply fset_Err in E; destruct E as ([g gd] & Hin & E); unfold gval in E; cbn [fst snd] in E.
    apply bind_Err in E; destruct E as [E|(x & _ & E)]; [|discriminate].
    apply fset_Err in E; destruct E as ([s it] & Hs & E); cbn [fst snd] in E.
    apply In_get in Hin; [|apply (ok_groups _ Hd)].
    destruct (ok_group _ Hd _ _ Hin) as [Hw _]; apply In_get in Hs; [|assumption].
    pose proof (ok_subname _ Hd _ _ _ _ Hin Hs) as Hns.
    exists (g ++ slash :: s), it; split; [apply (ok_sub _ Hd); eauto|].
    unfold item_value; rewrite (proj2 (is_group_name_In _) (group_name_In g s)).
    rewrite split_group_app by assumption; assumption.
  - apply fset_Err in E; destruct E as ([name it] & Hin & E); cbn [fst snd] in E.
    apply top_items_In in Hin; [|assumption]; destruct Hin as [Hin Hns].
    exists name, it; split; [assumption|]; unfold item_value.
    destruct (is_group_name name) eqn:Eg; [apply is_group_name_In in Eg; tauto|assumption].
Qed.

Lemma build_mono d fg fi fg' fi' c : names_ok d ->
  build d (fun _ => Ok tt) fg fi = Ok c ->
  (forall name it v, get name (d_items d) = Some it -> item_value fg fi name it = Ok v ->
                     item_value fg' fi' name it = Ok v) ->
  build d (fun _ => Ok tt) fg' fi' = Ok c.
Proof.
  intros Hd; rewrite !build_eq; intros E Hm; apply bind_Ok in E; destruct E as (c1 & E1 & E2).
  assert (E1' : foldM (fset (fun g : text * dict text item => KStr (fst g)) (gval fg')) (d_groups d) [] = Ok c1).
  { apply (foldM_mono _ _ _ _ _ E1); intros [g gd] a b Hin; unfold fset, gval; cbn [fst snd].
    apply In_get in Hin; [|apply (ok_groups _ Hd)]; destruct (ok_group _ Hd _ _ Hin) as [Hw _].
    intros Eb; apply bind_Ok in Eb; destruct Eb as (x & Ex & Eb); apply bind_Ok in Ex.
    destruct Ex as (gd' & Eg & Ex).
    match goal with |- context [foldM ?f gd []] =>
      assert (Eg' : foldM f gd [] = Ok gd') end.
    { apply (foldM_mono _ _ _ _ _ Eg); intros [s it] a' b' Hs; cbn [fst snd].
      apply In_get in Hs; [|assumption].
      pose proof (ok_subname _ Hd _ _ _ _ Hin Hs) as Hns.
      assert (Hit : get (g ++ slash :: s) (d_items d) = Some it) by (apply (ok_sub _ Hd); eauto).
      intros Ef; apply bind_Ok in Ef; destruct Ef as (v & Ev & Ef).
      specialize (Hm _ _ v Hit); unfold item_value in Hm.
      rewrite (proj2 (is_group_name_In _) (group_name_In g s)) in Hm.
      rewrite split_group_app in Hm by assumption; unfold fset; cbn [fst snd]; rewrite (Hm Ev); assumption. }
    rewrite Eg'; cbn [bind]; injection Ex as <-; assumption. }
  rewrite E1'; cbn [bind]; apply (foldM_mono _ _ _ _ _ E2).
  intros [name it] a b Hin; unfold fset; cbn [fst snd].
  apply top_items_In in Hin; [|assumption]; destruct Hin as [Hin Hns].
  intros Ef; apply bind_Ok in Ef; destruct Ef as (v & Ev & Ef).
  specialize (Hm _ _ v Hin); unfold item_value in Hm.
  destruct (is_group_name name) eqn:Eg; [apply is_group_name_In in Eg; tauto|].
  rewrite (Hm Ev); assumption.
Qed.

(** ** Merging *)
Lemma index_dict gd s v : index (VDict gd) s = Ok v <-> get (KStr s) gd = Some v.
Proof. unfold index, getitem; destruct (get (KStr s) gd); split; congruence. Qed.

Lemma getitem_Ok {K V} `{EqB K} (k : K) (d : dict K V) v : getitem k d = Ok v <-> get k d = Some v.
Proof. unfold getitem; destruct (get k d); split; congruence. Qed.

Lemma group_of_item d g s it : names_ok d -> ~ In slash s ->
  get (g ++ slash :: s) (d_items d) = Some it -> In g (keys (d_groups d)).
Proof.
  intros Hd Hs E; apply (ok_sub _ Hd) in E; [|assumption]; destruct E as (gd & E & _).
  eapply In_keys, get_In; exact E.
Qed.

Lemma merge_item_Ok d b r name it r' : names_ok d -> get name (d_items d) = Some it ->
  merge_item b r (name, it) = Ok r' ->
  exists x y m, conf_get name r = Some x /\ conf_get name b = Some y /\
    merge_type (i_type it) x y = Ok m /\ conf_get name r' = Some m /\
    forall name' it', get name' (d_items d) = Some it' -> name' <> name ->
      conf_get name' r' = conf_get name' r.
Proof.
  intros Hd Hit; unfold merge_item, conf_get at 1 2 3.
  destruct (is_group_name name) eqn:Egn.
  - apply is_group_name_In in Egn; destruct (split_group_spec _ Egn) as (g & s & Es & En & Hs).
    rewrite Es; intros E.
    apply bind_Ok in E; destruct E as (rg & E1 & E); apply (proj1 (getitem_Ok _ _ _)) in E1.
    apply bind_Ok in E; destruct E as (x & E2 & E).
    apply bind_Ok in E; destruct E as (bg & E3 & E); apply (proj1 (getitem_Ok _ _ _)) in E3.
    apply bind_Ok in E; destruct E as (y & E4 & E).
    apply bind_Ok in E; destruct E as (m & E5 & E).
    destruct rg as [| | | | | |gd]; try discriminate.
    destruct bg as [| | | | | |bd]; try discriminate.
    apply index_dict in E2, E4; injection E as <-.
    exists x, y, m; rewrite E1, E3, !get_set_same; do 4 (split; [assumption || reflexivity|]).
    intros name' it' Hit' Hne; unfold conf_get.
    rewrite En in Hit; pose proof (group_of_item _ _ _ _ Hd Hs Hit) as Hg.
    destruct (is_group_name name') eqn:Egn'.
    + apply is_group_name_In in Egn'; destruct (split_group_spec _ Egn') as (g' & s' & Es' & En' & Hs').
      rewrite Es', get_set; destruct (eqb_spec (KStr g') (KStr g)) as [Eg|Hn]; [|reflexivity].
      injection Eg as ->; rewrite E1; apply get_set_other; intros Eq; injection Eq as ->; congruence.
    + rewrite get_set_other; [reflexivity|]; intros Eq; injection Eq as ->.
      apply (ok_disjoint _ Hd g Hg); eapply In_keys, get_In; exact Hit'.
  - intros E.
    apply bind_Ok in E; destruct E as (x & E1 & E); apply (proj1 (getitem_Ok _ _ _)) in E1.
    apply bind_Ok in E; destruct E as (y & E2 & E); apply (proj1 (getitem_Ok _ _ _)) in E2.
    apply bind_Ok in E; destruct E as (m & E3 & E); injection E as <-.
    exists x, y, m; do 3 (split; [assumption|]); split; [apply get_set_same|].
    intros name' it' Hit' Hne; unfold conf_get.
    destruct (is_group_name name') eqn:Egn'.
    + apply is_group_name_In in Egn'; destruct (split_group_spec _ Egn') as (g' & s' & Es' & En' & Hs').
      rewrite Es', get_set_other; [reflexivity|]; intros Eq; injection Eq as ->.
      rewrite En' in Hit'; pose proof (group_of_item _ _ _ _ Hd Hs' Hit') as Hg.
      apply (ok_disjoint _ Hd _ Hg); eapply In_keys, get_In; exact Hit.
    + apply get_set_other; intros Eq; injection Eq as ->; congruence.
Qed.

Lemma merge_item_total b r name it x y m :
  conf_get name r = Some x -> conf_get name b = Some y -> merge_type (i_type it) x y = Ok m ->
  exists r', merge_item b r (name, it) = Ok r'.
Proof.
  unfold conf_get, merge_item; destruct (is_group_name name).
  - destruct (split_group name) as [g s]; intros Ex Ey Em.
    destruct (get (KStr g) r) as [[| | | | | |gd]|] eqn:Eg; try discriminate.
    destruct (get (KStr g) b) as [[| | | | | |bd]|] eqn:Eb; try discriminate.
    unfold getitem; rewrite Eg, Eb; cbn [bind index]; unfold getitem; rewrite Ex, Ey; cbn [bind].
    rewrite Em; cbn [bind]; eauto.
  - intros Ex Ey Em; unfold getitem; rewrite Ex, Ey; cbn [bind]; rewrite Em; cbn [bind]; eauto.
Qed.

Lemma merge_items_Ok d b l r r' : names_ok d ->
  (forall name it, In (name, it) l -> get name (d_items d) = Some it) -> NoDup (map fst l) ->
  foldM (merge_item b) l r = Ok r' ->
  (forall name it, In (name, it) l ->
     exists x y m, conf_get name r = Some x /\ conf_get name b = Some y /\
       merge_type (i_type it) x y = Ok m /\ conf_get name r' = Some m) /\
  (forall name it, get name (d_items d) = Some it -> ~ In name (map fst l) ->
     conf_get name r' = conf_get name r).
Proof.
  intros Hd; revert r; induction l as [|[n i] l IH]; cbn [foldM map fst]; intros r Hl Hnd E.
  { injection E as <-; split; [intros ? ? []|auto]. }
  inversion Hnd as [|? ? Hn Hnd']; subst.
  apply bind_Ok in E; destruct E as (r1 & E1 & E2).
  assert (Hni : get n (d_items d) = Some i) by (apply Hl; left; reflexivity).
  destruct (merge_item_Ok _ _ _ _ _ _ Hd Hni E1) as (x & y & m & Hx & Hy & Hm & Hm' & Hf).
  assert (Hl' : forall name it, In (name, it) l -> get name (d_items d) = Some it)
    by (intros; apply Hl; right; assumption).
  destruct (IH r1 Hl' Hnd' E2) as [I1 I2]; split.
  - intros name it [Eq|Hin].
    + injection Eq as <- <-; exists x, y, m; do 3 (split; [assumption|]).
      rewrite (I2 n i); assumption.
    + destruct (I1 _ _ Hin) as (x' & y' & m' & Hx' & Hy' & Hmm & Hr').
      exists x', y', m'; split; [|auto]; rewrite <- Hx'; symmetry.
      apply (Hf name it); [auto|]; intros ->; apply Hn, in_map_iff; exists (n, it); auto.
  - intros name it Hit Hnin; simpl in Hnin; rewrite (I2 name it); [|assumption|tauto].
    apply (Hf name it); [assumption|]; intros ->; tauto.
Qed.

Lemma merge_items_total d b l r : names_ok d ->
  (forall name it, In (name, it) l -> get name (d_items d) = Some it) -> NoDup (map fst l) ->
  (forall name it, In (name, it) l ->
     exists x y m, conf_get name r = Some x /\ conf_get name b = Some y /\
       merge_type (i_type it) x y = Ok m) ->
  exists r', foldM (merge_item b) l r = Ok r'.
Proof.
  intros Hd; revert r; induction l as [|[n i] l IH]; cbn [foldM map fst]; intros r Hl Hnd Hall; [eauto|].
  inversion Hnd as [|? ? Hn Hnd']; subst.
  destruct (Hall n i (or_introl eq_refl)) as (x & y & m & Hx & Hy & Hm).
  destruct (merge_item_total b r n i x y m Hx Hy Hm) as [r1 E1]; rewrite E1; cbn [bind].
  assert (Hni : get n (d_items d) = Some i) by (apply Hl; left; reflexivity).
  destruct (merge_item_Ok _ _ _ _ _ _ Hd Hni E1) as (_ & _ & _ & _ & _ & _ & _ & Hf).
  apply IH; [intros; apply Hl; right; assumption|assumption|].
  intros name it Hin; destruct (Hall name it (or_intror Hin)) as (x' & y' & m' & Hx' & Hy' & Hm').
  exists x', y', m'; split; [|auto]; rewrite <- Hx'; apply (Hf name it); [apply Hl; right; assumption|].
  intros ->; apply Hn, in_map_iff; exists (n, it); auto.
Qed.

Lemma items_In d name it : names_ok d -> In (name, it) (d_items d) -> get name (d_items d) = Some it.
Proof. intros Hd; apply In_get, (ok_items _ Hd). Qed.

Lemma complete_get d c : complete d c <->
  forall name it, get name (d_items d) = Some it -> exists v, conf_get name c = Some v.
Proof.
  unfold complete; split; intros Hc name it Hit; destruct (Hc name it Hit) as [v Hv]; exists v;
    apply option_at_get; assumption.
Qed.

(** Copying a complete configuration gives it back. *)
Lemma copy_config_id d c : names_ok d -> complete d c -> copy_config d c = Ok c.
Proof.
  intros Hd Hc; unfold copy_config.
  assert (Hg : forall g, In g (keys (d_groups d)) -> exists gd, get (KStr g) c = Some (VDict gd)).
  { intros g Hg; apply get_Some_keys in Hg; destruct Hg as [gd Hg].
    destruct (ok_group _ Hd _ _ Hg) as [Hw Hne].
    destruct gd as [|[s it] gd]; [congruence|].
    assert (Hs : get s ((s, it) :: gd) = Some it) by (rewrite get_cons, eqb_refl; reflexivity).
    pose proof (ok_subname _ Hd _ _ _ _ Hg Hs) as Hns.
    assert (Hit : get (g ++ slash :: s) (d_items d) = Some it) by (apply (ok_sub _ Hd); eauto).
    destruct (proj1 (complete_get d c) Hc _ _ Hit) as [v Hv].
    unfold conf_get in Hv; rewrite (proj2 (is_group_name_In _) (group_name_In g s)) in Hv.
    rewrite split_group_app in Hv by assumption.
    destruct (get (KStr g) c) as [[| | | | | |gd']|]; try discriminate; eauto. }
  revert Hg; generalize (keys (d_groups d)) as l; induction l as [|g l IH]; intros Hg; [reflexivity|].
  cbn [foldM]; destruct (Hg g (or_introl eq_refl)) as [gd Egd].
  unfold getitem; rewrite Egd; cbn [bind dict_of]; rewrite set_id by assumption.
  apply IH; intros; apply Hg; right; assumption.
Qed.

(** The value of an option after merging. *)
Lemma merge_configs_Ok d top more r : names_ok d -> complete d top ->
  merge_configs d top more = Ok r ->
  complete d r /\
  forall name it, get name (d_items d) = Some it ->
    exists x ys v, conf_get name top = Some x /\ Forall2 (fun c y => conf_get name c = Some y) more ys /\
      foldM (merge_type (i_type it)) ys x = Ok v /\ conf_get name r = Some v.
Proof.
  intros Hd Hc; unfold merge_configs; rewrite copy_config_id by assumption; cbn [bind].
  revert top Hc; induction more as [|b more IH]; cbn [foldM]; intros top Hc E.
  { injection E as <-; split; [assumption|]; intros name it Hit.
    destruct (proj1 (complete_get d top) Hc _ _ Hit) as [x Hx]; exists x, [], x.
    repeat split; auto; constructor. }
  apply bind_Ok in E; destruct E as (r1 & E1 & E2).
  assert (M : forall name it, get name (d_items d) = Some it ->
    exists x y m, conf_get name top = Some x /\ conf_get name b = Some y /\
       merge_type (i_type it) x y = Ok m /\ conf_get name r1 = Some m).
  { intros name it Hit; eapply (merge_items_Ok d b (d_items d) top r1 Hd); eauto.
    - intros; apply items_In; assumption.
    - apply (ok_items _ Hd).
    - apply get_In; assumption. }
  destruct (IH r1) as [I1 I2]; [|assumption|].
  { apply complete_get; intros name it Hit; destruct (M name it Hit) as (x & y & m & _ & _ & _ & Hm); eauto. }
  split; [assumption|]; intros name it Hit.
  destruct (M name it Hit) as (x & y & m & Hx & Hy & Hm & Hr1).
  destruct (I2 name it Hit) as (x' & ys & v & Hx' & Hys & Hf & Hv).
  assert (x' = m) by congruence; subst x'.
  exists x, (y :: ys), v; repeat split; auto; cbn [foldM]; rewrite Hm; assumption.
Qed.

Lemma merge_configs_total d top more : names_ok d -> complete d top -> Forall (complete d) more ->
  (forall name it x ys, get name (d_items d) = Some it -> conf_get name top = Some x ->
     Forall2 (fun c y => conf_get name c = Some y) more ys ->
     exists v, foldM (merge_type (i_type it)) ys x = Ok v) ->
  exists r, merge_configs d top more = Ok r.
Proof.
  intros Hd Hc; unfold merge_configs; rewrite copy_config_id by assumption; cbn [bind].
  revert top Hc; induction more as [|b more IH]; cbn [foldM]; intros top Hc Hmore Hall; [eauto|].
  inversion Hmore as [|? ? Hb Hmore']; subst.
  assert (Hys : forall name it, get name (d_items d) = Some it ->
     exists ys, Forall2 (fun c y => conf_get name c = Some y) more ys).
  { intros name it Hit; clear - Hmore' Hit; induction Hmore' as [|c more Hcc _ [ys Hys]]; [exists []; constructor|].
    destruct (proj1 (complete_get d c) Hcc _ _ Hit) as [y Hy]; exists (y :: ys); constructor; assumption. }
  destruct (merge_items_total d b (d_items d) top Hd) as [r1 E1].
  - intros; apply items_In; assumption.
  - apply (ok_items _ Hd).
  - intros name it Hin; apply items_In in Hin; [|assumption].
    destruct (proj1 (complete_get d top) Hc _ _ Hin) as [x Hx].
    destruct (proj1 (complete_get d b) Hb _ _ Hin) as [y Hy].
    destruct (Hys _ _ Hin) as [ys Hys'].
    destruct (Hall name it x (y :: ys) Hin Hx) as [v Hv]; [constructor; assumption|].
    cbn [foldM] in Hv; apply bind_Ok in Hv; destruct Hv as (m & Hm & _); exists x, y, m; auto.
  - rewrite E1; cbn [bind].
    assert (M : forall name it, get name (d_items d) = Some it ->
      exists x y m, conf_get name top = Some x /\ conf_get name b = Some y /\
         merge_type (i_type it) x y = Ok m /\ conf_get name r1 = Some m).
    { intros name it Hit; eapply (merge_items_Ok d b (d_items d) top r1 Hd); eauto.
      - intros; apply items_In; assumption.
      - apply (ok_items _ Hd).
      - apply get_In; assumption. }
    apply IH; [|assumption|].
    + apply complete_get; intros name it Hit; destruct (M name it Hit) as (x & y & m & _ & _ & _ & Hm); eauto.
    + intros name it x' ys Hit Hx' Hys'; destruct (M name it Hit) as (x & y & m & Hx & Hy & Hm & Hr1).
      assert (x' = m) by congruence; subst x'.
      destruct (Hall name it x (y :: ys) Hit Hx) as [v Hv]; [constructor; assumption|].
      cbn [foldM] in Hv; rewrite Hm in Hv; eauto.
Qed.

(** ** Merging the values of one option *)
Lemma merge_values_first t ys x v :
  match t with TMerging _ _ => False | _ => True end ->
  foldM (merge_type t) ys x = Ok v ->
  (exists l1 l2, x :: ys = l1 ++ v :: l2 /\ v <> VNone /\ Forall (eq VNone) l1) \/
  (v = VNone /\ Forall (eq VNone) (x :: ys)).
Proof.
  intros Ht.
  assert (Hm : forall x y, merge_type t x y = Ok (if is_unset t x then y else x))
    by (destruct t; simpl in Ht; tauto || reflexivity).
  revert x; induction ys as [|y ys IH]; cbn [foldM]; intros x E.
  - injection E as <-; destruct (eqb_spec x VNone) as [->|Hn]; [right; split; [reflexivity|]; constructor; [reflexivity|constructor]|].
    left; exists [], []; split; [reflexivity|]; split; [assumption|constructor].
  - rewrite Hm in E; cbn [bind] in E; destruct (is_unset t x) eqn:Eu.
    + apply is_unset_none in Eu; [|assumption]; subst x.
      destruct (IH y E) as [(l1 & l2 & El & Hv & Hl)|[Hv Hl]].
      * left; exists (VNone :: l1), l2; rewrite El; split; [reflexivity|]; split; [assumption|constructor; auto].
      * right; split; [assumption|]; constructor; [reflexivity|assumption].
    + assert (Hx : x <> VNone) by (intros ->; rewrite (proj2 (is_unset_none t VNone Ht) eq_refl) in Eu; discriminate).
      left; destruct (IH x E) as [(l1 & l2 & El & Hv & Hl)|[_ Hl]]; [|inversion Hl; congruence].
      destruct l1 as [|z l1]; [|inversion Hl as [|? ? Hz _]; subst; exfalso; apply Hx; injection El; congruence].
      injection El as <- El; exists [], (y :: ys); split; [reflexivity|]; split; [assumption|constructor].
Qed.

(** A value that, if it is a dict, has unique keys. *)
Definition top_wf (v : pyval) : Prop := forall d, v = VDict d -> wf d.

Lemma merge_values_keys k e ys x v :
  Forall top_wf (x :: ys) -> foldM (merge_type (TMerging k e)) ys x = Ok v ->
  (exists d, x = VDict d) ->
  exists d ds, v = VDict d /\ map VDict ds = x :: ys /\ wf d /\
    forall k, get k d = fold_right (fun e r => orelse (get k e) r) None ds.
Proof.
  revert x; induction ys as [|y ys IH]; cbn [foldM]; intros x Hw E [dx ->].
  - injection E as <-; exists dx, [dx]; inversion Hw as [|? ? Hx _]; subst.
    specialize (Hx dx eq_refl).
    repeat split; auto; intros k0; simpl; symmetry; apply orelse_None_r.
  - apply bind_Ok in E; destruct E as (m & Em & E); cbn [merge_type] in Em.
    destruct y as [| | | | | |dy]; try discriminate; injection Em as <-.
    inversion Hw as [|? ? Hx Hw']; subst; inversion Hw' as [|? ? Hy Hys]; subst.
    specialize (Hx dx eq_refl); specialize (Hy dy eq_refl).
    assert (Hu : top_wf (VDict (update dy dx)))
      by (intros d0 E0; injection E0 as <-; apply wf_update; assumption).
    destruct (IH (VDict (update dy dx))) as (d & ds & -> & Eds & Hd & Hg); [constructor; assumption|assumption|eauto|].
    destruct ds as [|d0 ds]; [discriminate|]; cbn [map] in Eds; injection Eds as -> Eds.
    exists d, (dx :: dy :: ds); split; [reflexivity|]; split; [cbn [map]; rewrite Eds; reflexivity|].
    split; [assumption|]; intros k0; rewrite Hg; cbn [fold_right].
    rewrite get_update by assumption; rewrite orelse_assoc; reflexivity.
Qed.

Lemma merge_values_combined t ys x v :
  match t with TMerging _ _ => Forall top_wf (x :: ys) | _ => True end ->
  has_type t x -> foldM (merge_type t) ys x = Ok v -> combined t (x :: ys) v.
Proof.
  intros Hw Ht E; destruct t as [| | |e|k e|k e|];
    try (apply merge_values_first with (2 := E); exact I).
  simpl in Ht; destruct Ht as (d & Hx & _).
  destruct (merge_values_keys _ _ _ _ _ Hw E) as (d' & ds & Hv & Hds & _ & Hg); [eauto|].
  exists d', ds; auto.
Qed.

(** Merging values of a type gives a value of the type. *)
Lemma merge_type_typed t x y : has_type t x -> has_type t y ->
  exists m, merge_type t x y = Ok m /\ has_type t m.
Proof.
  intros Hx Hy; destruct t as [| | |e|k e|k e|]; cbn [merge_type];
    try (destruct (is_unset _ x); eauto; fail).
  simpl in Hx, Hy; destruct Hx as (dx & -> & Hx), Hy as (dy & -> & Hy).
  exists (VDict (update dy dx)); split; [reflexivity|]; exists (update dy dx); split; [reflexivity|].
  apply Forall_forall; intros p Hp; apply In_update in Hp; rewrite Forall_forall in Hx, Hy; destruct Hp; auto.
Qed.

Lemma merge_values_typed t ys x : Forall (has_type t) (x :: ys) ->
  exists v, foldM (merge_type t) ys x = Ok v /\ has_type t v.
Proof.
  revert x; induction ys as [|y ys IH]; intros x H; inversion H as [|? ? Hx H']; subst; cbn [foldM]; [eauto|].
  inversion H' as [|? ? Hy Hys]; subst; destruct (merge_type_typed t x y Hx Hy) as (m & Em & Hm).
  rewrite Em; cbn [bind]; apply IH; constructor; assumption.
Qed.

(** ** Defaults *)
Definition default_step (r : pydict) (p : text * item) : res pydict :=
  let (name, it) := p in
  if is_group_name name then
    let (group, subname) := split_group name in
    let r' := if has (KStr group) r then r else set (KStr group) (VDict []) r in
    match get (KStr group) r' with
    | Some (VDict gd) => Ok (set (KStr group) (VDict (set (KStr subname) (i_default it) gd)) r')
    | _ => Err TypeError
    end
  else Ok (set (KStr name) (i_default it) r).

Lemma default_step_Ok d r name it : names_ok d -> get name (d_items d) = Some it ->
  groups_are_mappings d r ->
  exists r', default_step r (name, it) = Ok r' /\ groups_are_mappings d r' /\
    conf_get name r' = Some (i_default it) /\
    forall name' it', get name' (d_items d) = Some it' -> name' <> name ->
      conf_get name' r' = conf_get name' r.
Proof.
  intros Hd Hit Hg; unfold default_step, conf_get at 1.
  destruct (is_group_name name) eqn:Egn.
  - apply is_group_name_In in Egn; destruct (split_group_spec _ Egn) as (g & s & Es & En & Hs).
    rewrite Es; rewrite En in Hit; pose proof (group_of_item _ _ _ _ Hd Hs Hit) as Hgin.
    set (r1 := if has (KStr g) r then r else set (KStr g) (VDict []) r).
    assert (Hr1 : exists gd, get (KStr g) r1 = Some (VDict gd) /\
                    (get (KStr g) r = Some (VDict gd) \/ (get (KStr g) r = None /\ gd = [])) /\
                    forall k, k <> KStr g -> get k r1 = get k r).
    { unfold r1, has; destruct (Hg g Hgin) as [E|[gd E]]; rewrite E.
      - exists []; rewrite get_set_same; repeat split; auto.
        intros k Hk; apply get_set_other; assumption.
      - exists gd; auto. }
    destruct Hr1 as (gd & E1 & E2 & E3); rewrite E1; eexists; split; [reflexivity|].
    split; [|split].
    + intros g' Hg'; rewrite get_set; destruct (eqb_spec (KStr g') (KStr g)) as [_|Hn]; [eauto|].
      rewrite E3 by assumption; apply Hg; assumption.
    + rewrite !get_set_same; reflexivity.
    + intros name' it' Hit' Hne; unfold conf_get.
      destruct (is_group_name name') eqn:Egn'.
      * apply is_group_name_In in Egn'; destruct (split_group_spec _ Egn') as (g' & s' & Es' & En' & Hs').
        rewrite Es', get_set; destruct (eqb_spec (KStr g') (KStr g)) as [Eg|Hn].
        -- injection Eg as ->; rewrite get_set_other by (intros Eq; injection Eq as ->; congruence).
           destruct E2 as [E2|[E2 ->]]; rewrite E2; reflexivity.
        -- rewrite E3 by assumption; reflexivity.
      * assert (Hk : KStr name' <> KStr g).
        { intros Eq; injection Eq as ->; apply (ok_disjoint _ Hd g Hgin); eapply In_keys, get_In; exact Hit'. }
        rewrite get_set_other by assumption; apply E3; assumption.
  - eexists; split; [reflexivity|]; split; [|split; [apply get_set_same|]].
    + intros g Hgin; rewrite get_set_other; [apply Hg; assumption|].
      intros Eq; injection Eq as ->; apply (ok_disjoint _ Hd _ Hgin); eapply In_keys, get_In; exact Hit.
    + intros name' it' Hit' Hne; unfold conf_get.
      destruct (is_group_name name') eqn:Egn'.
      * apply is_group_name_In in Egn'; destruct (split_group_spec _ Egn') as (g' & s' & Es' & En' & Hs').
        rewrite Es', get_set_other; [reflexivity|]; intros Eq; injection Eq as ->.
        rewrite En' in Hit'; pose proof (group_of_item _ _ _ _ Hd Hs' Hit') as Hgin.
        apply (ok_disjoint _ Hd _ Hgin); eapply In_keys, get_In; exact Hit.
      * apply get_set_other; intros Eq; injection Eq as ->; congruence.
Qed.

Lemma defaults_Ok d : names_ok d ->
  exists c, config_from_defaults d = Ok c /\
    forall name it, get name (d_items d) = Some it -> conf_get name c = Some (i_default it).
Proof.
  intros Hd; unfold config_from_defaults; change (fun (r : pydict) (p : text * item) => _) with default_step.
  cut (forall l r, (forall name it, In (name, it) l -> get name (d_items d) = Some it) ->
        NoDup (map fst l) -> groups_are_mappings d r ->
        exists c, foldM default_step l r = Ok c /\
          (forall name it, In (name, it) l -> conf_get name c = Some (i_default it)) /\
          (forall name it, get name (d_items d) = Some it -> ~ In name (map fst l) ->
             conf_get name c = conf_get name r)).
  { intros Hcut; destruct (Hcut (d_items d) []) as (c & E & H1 & _).
    - intros; apply items_In; assumption.
    - apply (ok_items _ Hd).
    - intros g _; left; reflexivity.
    - exists c; split; [exact E|]; intros name it Hit; apply H1, get_In; assumption. }
  induction l as [|[n i] l IH]; intros r Hl Hnd Hg.
  { exists r; split; [reflexivity|]; split; [intros ? ? []|auto]. }
  cbn [map fst] in Hnd; inversion Hnd as [|? ? Hn Hnd']; subst.
  assert (Hni : get n (d_items d) = Some i) by (apply Hl; left; reflexivity).
  destruct (default_step_Ok d r n i Hd Hni Hg) as (r1 & E1 & Hg1 & Hv & Hf).
  destruct (IH r1) as (c & E & I1 & I2); [intros; apply Hl; right; assumption|assumption|assumption|].
  exists c; cbn [foldM]; rewrite E1; cbn [bind]; split; [assumption|]; split.
  - intros name it [Eq|Hin]; [injection Eq as <- <-; rewrite (I2 n i); assumption|auto].
  - intros name it Hit Hnin; simpl in Hnin; rewrite (I2 name it); [|assumption|tauto].
    apply (Hf name it); [assumption|]; intros ->; tauto.
Qed.

(** ** Parsed files *)
Section Parsed.
  Variable env : penv.

  Definition parsed_value (data : pydict) : text -> item -> res pyval :=
    item_value (fun g s it => yaml_value env (match get (KStr g) data with
                                              | Some v => v | None => VDict [] end) s it)
               (fun n it => yaml_value env (VDict data) n it).

  Lemma file_gives_get name data v :
    file_gives name data v <-> v = match conf_get name data with Some w => w | None => VNone end.
  Proof.
    unfold file_gives; destruct (conf_get name data) as [w|] eqn:E; split.
    - intros [H|[H _]]; [apply option_at_get in H; congruence|].
      exfalso; apply (H w), option_at_get; assumption.
    - intros ->; left; apply option_at_get; assumption.
    - intros [H|[_ H]]; [apply option_at_get in H; congruence|assumption].
    - intros ->; right; split; [|reflexivity]; intros w H; apply option_at_get in H; congruence.
  Qed.

  Lemma file_gives_ex name data : exists v, file_gives name data v.
  Proof. eexists; apply file_gives_get; reflexivity. Qed.

  Lemma parsed_value_eq data name it raw : file_gives name data raw ->
    parsed_value data name it = from_yaml env (i_type it) raw \/
    (parsed_value data name it = Err AttributeError /\
     exists g s v, name = g ++ slash :: s /\ ~ In slash s /\ get (KStr g) data = Some v /\
       forall gd, v <> VDict gd).
  Proof.
    intros Hf; apply file_gives_get in Hf; subst raw.
    unfold parsed_value, item_value, conf_get, yaml_value.
    destruct (is_group_name name) eqn:Egn; [|left; reflexivity].
    apply is_group_name_In in Egn; destruct (split_group_spec _ Egn) as (g & s & Es & En & Hs); rewrite Es.
    destruct (get (KStr g) data) as [v|] eqn:E; [|left; reflexivity].
    destruct v as [| | | | | |gd];
      try (right; split; [reflexivity|]; eexists g, s, _; repeat split; eauto; intros; congruence).
    left; reflexivity.
  Qed.

  Lemma parsed_value_mapping d data name it raw : names_ok d -> groups_are_mappings d data ->
    get name (d_items d) = Some it -> file_gives name data raw ->
    parsed_value data name it = from_yaml env (i_type it) raw.
  Proof.
    intros Hd Hg Hit Hf; destruct (parsed_value_eq data name it raw Hf) as [E|(_ & g & s & v & En & Hs & Hv & Hn)];
      [assumption|exfalso].
    rewrite En in Hit; pose proof (group_of_item _ _ _ _ Hd Hs Hit) as Hgin.
    destruct (Hg g Hgin) as [E|[gd E]]; rewrite Hv in E; [discriminate|].
    injection E as ->; apply (Hn gd); reflexivity.
  Qed.

  Lemma entries_acc k t d a d0 : foldM (entry_step env k t) d a = Ok d0 ->
    forall acc, exists d', foldM (entry_step env k t) d acc = Ok d'.
  Proof.
    revert d0 a; induction d as [|p d IH]; intros d0 a E0 acc; cbn [foldM] in *; [eauto|].
    apply bind_Ok in E0; destruct E0 as (a1 & E1 & E0); unfold entry_step in E1 |- * at 1.
    apply bind_Ok in E1; destruct E1 as (x1 & Ex1 & E1); rewrite Ex1; cbn [bind].
    apply bind_Ok in E1; destruct E1 as (k1 & Ek1 & E1); rewrite Ek1; cbn [bind]; eauto.
  Qed.

  Lemma entries_total k t :
    (forall v, yaml_ok t v <-> exists w, from_yaml env t v = Ok w) ->
    forall d, Forall (fun p => key_has_type k (fst p) /\ yaml_ok t (snd p)) d <->
              exists d', foldM (entry_step env k t) d [] = Ok d'.
  Proof.
    intros IH.
    enough (H : forall d, Forall (fun p => key_has_type k (fst p) /\ yaml_ok t (snd p)) d <->
              forall acc, exists d', foldM (entry_step env k t) d acc = Ok d').
    { intros d; rewrite H; split; [auto|]; intros [d' E]; eapply entries_acc; exact E. }
    induction d as [|[k0 v0] d IHd]; [split; [intros _ acc; simpl; eauto|constructor]|].
    rewrite Forall_cons_iff, IHd; cbn [fst snd foldM]; split.
    - intros [[Hk Hv] Hd] acc; apply IH in Hv; destruct Hv as [x Ex].
      assert (exists k', key_from_yaml env k k0 = Ok k') as [k' Ek].
      { destruct k; simpl in *; [eauto| |]; destruct Hk as [->|[s ->]]; eauto. }
      unfold entry_step at 1; cbn [fst snd]; rewrite Ex, Ek; cbn [bind]; apply Hd.
    - intros Hall.
      assert (Hk : exists x k', from_yaml env t v0 = Ok x /\ key_from_yaml env k k0 = Ok k').
      { destruct (Hall []) as [d' E]; apply bind_Ok in E; destruct E as (a & E & _).
        unfold entry_step in E; cbn [fst snd] in E; apply bind_Ok in E; destruct E as (x & Ex & E).
        apply bind_Ok in E; destruct E as (k' & Ek & _); eauto. }
      destruct Hk as (x & k' & Ex & Ek); split.
      + split; [|apply IH; eauto].
        destruct k, k0; simpl in *; try discriminate; eauto.
      + destruct (Hall []) as [d0 E0]; unfold entry_step at 1 in E0; cbn [fst snd] in E0.
        rewrite Ex, Ek in E0; cbn [bind] in E0; eapply entries_acc; exact E0.
  Qed.

  (** Exactly the YAML values of the type's structure are accepted. *)
  Lemma from_yaml_total t v : yaml_ok t v <-> exists w, from_yaml env t v = Ok w.
  Proof.
    revert v; induction t as [| | |t IH|k t IH|k t IH|]; intros v; cbn [yaml_ok from_yaml].
    - split; [intros _; destruct v; simpl; eauto|auto].
    - split; [intros [->|[s ->]]; simpl; eauto|].
      intros [w E]; destruct v; simpl in E; try discriminate; eauto.
    - split; [intros [->|[s ->]]; simpl; eauto|].
      intros [w E]; destruct v; simpl in E; try discriminate; eauto.
    - split.
      + intros [->|(l & -> & Hl)]; [eauto|].
        assert (Hm : exists l', mapM (from_yaml env t) l = Ok l').
        { induction Hl as [|x l Hx Hl [l' El]]; [simpl; eauto|].
          apply IH in Hx; destruct Hx as [y Ey]; exists (y :: l'); cbn [mapM]; rewrite Ey, El; reflexivity. }
        destruct Hm as [l' El]; rewrite El; cbn [bind].
        exists (VList l'); apply verify_type_spec; right; exists l'; split; [reflexivity|].
        apply mapM_Ok in El; clear - El; induction El as [|x y l l' Exy]; constructor; [|assumption].
        eapply from_yaml_typed; exact Exy.
      + intros [w E]; destruct v as [| | | | |l|]; try discriminate; [auto|right].
        exists l; split; [reflexivity|]; apply bind_Ok in E; destruct E as (l' & El & _).
        apply mapM_Ok in El; clear - El IH; induction El as [|x y l l' Exy]; constructor; [|assumption].
        apply IH; eauto.
    - split.
      + intros [->|(d & -> & Hl)]; [eauto|].
        apply (entries_total k t IH) in Hl; destruct Hl as [d' E]; fold (entry_step env k t); rewrite E; cbn [bind].
        exists (VDict d'); apply verify_type_spec; right; exists d'; split; [reflexivity|].
        apply Forall_forall; intros p Hp; destruct (entries_result _ _ _ _ _ _ E p Hp) as [[]|(q & _ & E1 & E2)].
        split; [eapply key_from_yaml_typed; exact E2|eapply from_yaml_typed; exact E1].
      + intros [w E]; destruct v as [| | | | | |d]; try discriminate; [auto|right].
        exists d; split; [reflexivity|]; apply (entries_total k t IH).
        apply bind_Ok in E; destruct E as (d' & Ed & _); exists d'; exact Ed.
    - split.
      + intros [->|(d & -> & Hl)]; [eauto|].
        apply (entries_total k t IH) in Hl; destruct Hl as [d' E]; fold (entry_step env k t); rewrite E; cbn [bind].
        exists (VDict d'); apply verify_type_spec; exists d'; split; [reflexivity|].
        apply Forall_forall; intros p Hp; destruct (entries_result _ _ _ _ _ _ E p Hp) as [[]|(q & _ & E1 & E2)].
        split; [eapply key_from_yaml_typed; exact E2|eapply from_yaml_typed; exact E1].
      + intros [w E]; destruct v as [| | | | | |d]; try discriminate; [auto|right].
        exists d; split; [reflexivity|]; apply (entries_total k t IH).
        apply bind_Ok in E; destruct E as (d' & Ed & _); exists d'; exact Ed.
    - split; [intros [->|[s ->]]; simpl; eauto|].
      intros [w E]; destruct v; simpl in E; try discriminate; eauto.
  Qed.

  (** Parsed values contain only proper python dicts if the YAML value does. *)
  Lemma from_yaml_wf t v w : wfval v -> from_yaml env t v = Ok w -> wfval w.
  Proof.
    revert v w; induction t as [| | |t IH|k t IH|k t IH|]; intros v w Hv E; cbn [from_yaml] in E.
    1-3: destruct v; try (apply verify_Ok_eq in E; destruct E as [-> _]; exact Hv);
      injection E as <-; exact I.
    - destruct v as [| | | | |l|]; try discriminate; [injection E as <-; exact I|].
      apply bind_Ok in E; destruct E as (l' & El & E); apply verify_Ok_eq in E; destruct E as [-> _].
      apply wfval_list in Hv; apply wfval_list; apply mapM_Ok in El.
      induction El as [|x y l l' Exy El IHl]; constructor; inversion Hv; subst; eauto.
    - destruct v as [| | | | | |d]; try discriminate; [injection E as <-; exact I|].
      apply bind_Ok in E; destruct E as (d' & Ed & E); apply verify_Ok_eq in E; destruct E as [-> _].
      apply wfval_dict in Hv; destruct Hv as [_ Hv]; apply wfval_dict.
      change (foldM (entry_step env k t) d [] = Ok d') in Ed.
      split; [apply (entries_wf _ _ _ _ _ _ Ed), wf_nil|].
      apply Forall_forall; intros p Hp; rewrite Forall_forall in Hv.
      destruct (entries_result _ _ _ _ _ _ Ed p Hp) as [[]|(q & Hq & E1 & _)].
      eapply IH; [apply Hv; exact Hq|exact E1].
    - destruct v as [| | | | | |d]; try discriminate; [injection E as <-; apply wfval_dict; split; [apply wf_nil|constructor]|].
      apply bind_Ok in E; destruct E as (d' & Ed & E); apply verify_Ok_eq in E; destruct E as [-> _].
      apply wfval_dict in Hv; destruct Hv as [_ Hv]; apply wfval_dict.
      change (foldM (entry_step env k t) d [] = Ok d') in Ed.
      split; [apply (entries_wf _ _ _ _ _ _ Ed), wf_nil|].
      apply Forall_forall; intros p Hp; rewrite Forall_forall in Hv.
      destruct (entries_result _ _ _ _ _ _ Ed p Hp) as [[]|(q & Hq & E1 & _)].
      eapply IH; [apply Hv; exact Hq|exact E1].
    - destruct v; try discriminate; cbn in E; injection E as <-; exact I.
  Qed.

  Lemma parsed_eq data d :
    config_from_parsed_yaml env data d false =
    build d (fun _ => Ok tt)
      (fun g s it => yaml_value env (match get (KStr g) data with Some v => v | None => VDict [] end) s it)
      (fun n it => yaml_value env (VDict data) n it).
  Proof. unfold config_from_parsed_yaml; destruct (build d _ _ _); reflexivity. Qed.

  Lemma parsed_Ok data d c : names_ok d -> config_from_parsed_yaml env data d false = Ok c ->
    complete d c /\
    forall name it, get name (d_items d) = Some it ->
      exists raw v, file_gives name data raw /\ from_yaml env (i_type it) raw = Ok v /\
                    conf_get name c = Some v.
  Proof.
    intros Hd; rewrite parsed_eq; intros E; destruct (build_get _ _ _ _ Hd E) as (_ & _ & Hg).
    assert (H : forall name it, get name (d_items d) = Some it ->
      exists raw v, file_gives name data raw /\ from_yaml env (i_type it) raw = Ok v /\
                    conf_get name c = Some v).
    { intros name it Hit; destruct (Hg name it Hit) as (v & Ev & Hv).
      destruct (file_gives_ex name data) as [raw Hraw]; exists raw, v; split; [assumption|].
      split; [|assumption]; change (parsed_value data name it = Ok v) in Ev.
      destruct (parsed_value_eq data name it raw Hraw) as [E1|[E1 _]]; congruence. }
    split; [|assumption].
    apply complete_get; intros name it Hit; destruct (H name it Hit) as (raw & v & _ & _ & Hv); eauto.
  Qed.
End Parsed.

(** ** Loading *)
Lemma build_complete d fg fi c : names_ok d -> build d (fun _ => Ok tt) fg fi = Ok c -> complete d c.
Proof.
  intros Hd E; destruct (build_get _ _ _ _ Hd E) as (_ & _ & Hg).
  apply complete_get; intros name it Hit; destruct (Hg name it Hit) as (v & _ & Hv); eauto.
Qed.

Lemma item_value_const f name it : item_value (fun _ _ it => f it) (fun _ it => f it) name it = f it.
Proof. unfold item_value; destruct (is_group_name name); [destruct (split_group name)|]; reflexivity. Qed.

Lemma defaults_complete d c : names_ok d -> config_from_defaults d = Ok c -> complete d c.
Proof.
  intros Hd E; destruct (defaults_Ok d Hd) as (c' & E' & Hv); rewrite E in E'; injection E' as <-.
  apply complete_get; eauto.
Qed.

Lemma Forall2_exists {A B} (P : A -> B -> Prop) l : (forall x, In x l -> exists y, P x y) ->
  exists l', Forall2 P l l'.
Proof.
  induction l as [|x l IH]; intros Hall; [exists []; constructor|].
  destruct (Hall x (or_introl eq_refl)) as [y Hy]; destruct IH as [l' Hl']; [auto with datatypes|].
  exists (y :: l'); constructor; assumption.
Qed.

(** The values of one option in the loaded configuration and in its layers. *)
Lemma load_config_values env yaml file args d tool c :
  names_ok d -> load_config env yaml file args d tool = Ok c ->
  complete d c /\
  forall name it, get name (d_items d) = Some it ->
    exists vcl vfs v,
      arg_value env yaml args it = Ok vcl /\
      Forall2 (fun dir vf => exists data raw,
                 load_config_file_yaml yaml file (path_join dir (d_namespace d)) = Ok data /\
                 file_gives name data raw /\ from_yaml env (i_type it) raw = Ok vf)
        (config_dirs env args tool) vfs /\
      foldM (merge_type (i_type it)) (vfs ++ [i_default it]) vcl = Ok v /\
      conf_get name c = Some v.
Proof.
  intros Hd E; unfold load_config in E.
  apply bind_Ok in E; destruct E as (a & Ea & E); apply bind_Ok in E; destruct E as (fs & Ef & E).
  apply bind_Ok in E; destruct E as (df & Edf & E).
  unfold config_from_args in Ea.
  pose proof (build_complete _ _ _ _ Hd Ea) as Hca.
  destruct (merge_configs_Ok _ _ _ _ Hd Hca E) as [Hc Hv]; split; [assumption|].
  intros name it Hit; destruct (Hv name it Hit) as (x & ys & v & Hx & Hys & Hm & Hcv).
  destruct (build_get _ _ _ _ Hd Ea) as (_ & _ & Hga); destruct (Hga name it Hit) as (vcl & Evcl & Hvcl).
  rewrite item_value_const in Evcl.
  assert (x = vcl) by congruence; subst x.
  apply Forall2_app_inv_l in Hys; destruct Hys as (vfs & ds & Hvfs & Hds & ->).
  inversion Hds as [|? y ? l Hy Hl]; subst; inversion Hl; subst.
  destruct (defaults_Ok d Hd) as (df' & Edf' & Hdv); rewrite Edf in Edf'; injection Edf' as <-.
  rewrite (Hdv name it Hit) in Hy; injection Hy as <-.
  exists vcl, vfs, v; repeat split; try assumption.
  apply mapM_Ok in Ef; clear - Hd Hit Ef Hvfs; revert vfs Hvfs.
  induction Ef as [|dir f dirs fs Edir Ef IH]; intros vfs Hvfs; inversion Hvfs as [|? vf ? vfs' Hvf Hvfs']; subst;
    constructor; [|apply IH; assumption].
  unfold config_from_file in Edir; apply bind_Ok in Edir; destruct Edir as (data & Edata & Edir).
  destruct (parsed_Ok _ _ _ _ Hd Edir) as [_ Hp]; destruct (Hp name it Hit) as (raw & w & Hraw & Hw & Hcw).
  exists data, raw; repeat split; auto; congruence.
Qed.

Lemma from_command_line_typed env yaml t v w : from_command_line env yaml t v = Ok w -> has_type t w.
Proof.
  destruct v as [|s|l]; [intros E; injection E as <-; apply unset_has_type| |];
    destruct t as [| | |e|k e|k e|]; cbn [from_command_line]; intros E; try discriminate;
    try (apply from_yaml_typed in E; exact E);
    apply bind_Ok in E; destruct E as (r & _ & E); apply from_yaml_typed in E; exact E.
Qed.

Lemma arg_value_typed env yaml args it v : arg_value env yaml args it = Ok v -> has_type (i_type it) v.
Proof.
  unfold arg_value; destruct (i_command_line it); [|intros E; injection E as <-; apply unset_has_type].
  destruct (i_argument it); [|discriminate]; intros E; apply bind_Ok in E; destruct E as (r & _ & E).
  eapply from_command_line_typed; exact E.
Qed.

Lemma from_yaml_top_wf env k e v w : from_yaml env (TMerging k e) v = Ok w -> top_wf w.
Proof.
  cbn [from_yaml]; destruct v as [| | | | | |d]; intros E; try discriminate.
  - injection E as <-; intros d E; injection E as <-; apply wf_nil.
  - apply bind_Ok in E; destruct E as (d' & Ed & E); apply verify_Ok_eq in E; destruct E as [-> _].
    intros d0 E0; injection E0 as <-; apply (entries_wf env k e _ _ _ Ed), wf_nil.
Qed.

Lemma from_command_line_top_wf env yaml k e v w :
  from_command_line env yaml (TMerging k e) v = Ok w -> top_wf w.
Proof.
  destruct v as [|s|l]; cbn [from_command_line]; intros E.
  - injection E as <-; intros d E; injection E as <-; apply wf_nil.
  - apply bind_Ok in E; destruct E as (d & _ & E); apply from_yaml_top_wf in E; exact E.
  - apply bind_Ok in E; destruct E as (d & _ & E); apply from_yaml_top_wf in E; exact E.
Qed.

Lemma arg_value_top_wf env yaml args it k e v :
  i_type it = TMerging k e -> arg_value env yaml args it = Ok v -> top_wf v.
Proof.
  unfold arg_value; intros Et; rewrite Et; destruct (i_command_line it).
  - destruct (i_argument it); [|discriminate]; intros E; apply bind_Ok in E; destruct E as (r & _ & E).
    eapply from_command_line_top_wf; exact E.
  - intros E; injection E as <-; intros d E; injection E as <-; apply wf_nil.
Qed.

(** Errors of [from_command_line]. *)
Lemma parse_single_list_err yaml s e : (forall s e, yaml s = Err e -> e = YAMLError) ->
  parse_single_list yaml s = Err e -> e = ConfigValueError.
Proof.
  intros Hy; unfold parse_single_list, try_yaml, cfg_yaml; intros E.
  apply bind_Err in E; destruct E as [E|(r & _ & E)].
  - destruct (yaml s) as [v|e'] eqn:Ey; [discriminate|]; rewrite (Hy _ _ Ey) in E; discriminate.
  - assert (H : forall x, (let* r' := match yaml x with
                    | Ok a => Ok a
                    | Err e0 => if is_YAMLError e0 then Err ConfigValueError else Err e0
                    end in match r' with VList l => Ok l | _ => Err ConfigValueError end) = Err e ->
                    e = ConfigValueError).
    { intros x; destruct (yaml x) as [v|e'] eqn:Ey; [|rewrite (Hy _ _ Ey); simpl; congruence].
      cbn [bind]; destruct v; congruence. }
    destruct r; try (eapply H; exact E); discriminate.
Qed.

Lemma parse_single_dict_err yaml s e : (forall s e, yaml s = Err e -> e = YAMLError) ->
  parse_single_dict yaml s = Err e -> e = ConfigValueError.
Proof.
  intros Hy; unfold parse_single_dict, try_yaml, cfg_yaml; intros E.
  apply bind_Err in E; destruct E as [E|(r & _ & E)].
  - destruct (yaml s) as [v|e'] eqn:Ey; [discriminate|]; rewrite (Hy _ _ Ey) in E; discriminate.
  - assert (H : forall x, (let* r' := match yaml x with
                    | Ok a => Ok a
                    | Err e0 => if is_YAMLError e0 then Err ConfigValueError else Err e0
                    end in match r' with VDict l => Ok l | _ => Err ConfigValueError end) = Err e ->
                    e = ConfigValueError).
    { intros x; destruct (yaml x) as [v|e'] eqn:Ey; [|rewrite (Hy _ _ Ey); simpl; congruence].
      cbn [bind]; destruct v; congruence. }
    destruct r; try (eapply H; exact E); discriminate.
Qed.

Lemma from_command_line_err env yaml t v e : (forall s e, yaml s = Err e -> e = YAMLError) ->
  (cl_multiple t = true \/ t = TString \/ t = TPath \/ forall l, v <> CLList l) ->
  from_command_line env yaml t v = Err e -> e = ConfigValueError.
Proof.
  intros Hy Hmul E.
  assert (Hd : forall t0 args, (let* d := foldM (fun acc s =>
                           let* d := parse_single_dict yaml s in
                           if existsb (fun k => has k acc) (keys d) then Err ConfigValueError
                           else Ok (update acc d)) args [] in from_yaml env t0 (VDict d)) = Err e ->
                           e = ConfigValueError).
  { intros t0 args E0; apply bind_Err in E0; destruct E0 as [E0|(d & _ & E0)]; [|eapply from_yaml_err; exact E0].
    apply (foldM_Err _ (fun e => e = ConfigValueError)) in E0; [assumption|].
    intros s a e0 _ E1; apply bind_Err in E1; destruct E1 as [E1|(d & _ & E1)];
      [eapply parse_single_dict_err; eauto|]; destruct (existsb _ _); congruence. }
  destruct v as [|s|l]; [discriminate| |];
    destruct t as [| | |t|k t|k t|]; cbn [from_command_line] in E;
    try (eapply from_yaml_err; exact E);
    try (apply (Hd (TDict k t)) in E; exact E); try (apply (Hd (TMerging k t)) in E; exact E);
    try (exfalso; destruct Hmul as [H|[H|[H|H]]]; try discriminate H; apply (H l); reflexivity);
    try (apply bind_Err in E; destruct E as [E|(r & _ & E)];
      [apply mapM_Err in E; destruct E as (x & _ & E); eapply parse_single_list_err; eauto
      |eapply from_yaml_err; exact E]);
    (apply bind_Err in E; destruct E as [E|(r & _ & E)]; [|eapply from_yaml_err; exact E];
     unfold cfg_yaml in E; destruct (yaml s) as [x|e'] eqn:Ey; [discriminate|];
     rewrite (Hy _ _ Ey) in E; simpl in E; congruence).
Qed.
