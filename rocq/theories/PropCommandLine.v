(** Properties C92-C94: from the command line and the environment to the configuration. *)
From Verif Require Import Base Dict PyVal RulesDict Verify Paths Sources Config XylemConfig Commands CommandLine.
From Verif Require CacheProofs.
From Coq Require Import Lia.
Notation S := Datatypes.S.

Local Opaque expand_input_path.

(** ** Dicts with the same keys *)
Section Rel.
  Context {V : Type}.
  Implicit Types (ns : dict text V) (E : text -> Prop).

  (** Same keys in the same order, and same values except at keys in [E]. *)
  Definition rel E ns ns' := Forall2 (fun p q => fst p = fst q /\ (E (fst p) \/ snd p = snd q)) ns ns'.

  Lemma rel_refl E ns : rel E ns ns.
  Proof. induction ns as [|[k v] ns IH]; constructor; [split; [reflexivity|right; reflexivity]|exact IH]. Qed.

  Lemma rel_keys E ns ns' : rel E ns ns' -> keys ns = keys ns'.
  Proof. unfold keys; induction 1 as [|p q l l' [Hk _] _ IH]; [reflexivity|]; simpl; congruence. Qed.

  Lemma rel_get E ns ns' k : rel E ns ns' -> ~ E k -> get k ns = get k ns'.
  Proof.
    intros H Hk; induction H as [|[k1 v1] [k2 v2] l l' [Hk1 Hv] _ IH]; [reflexivity|]; cbn [fst snd] in *; subst k2.
    rewrite !get_cons; destruct (eqb_spec k k1) as [<-|_]; [|exact IH].
    destruct Hv as [Hv| ->]; [contradiction|reflexivity].
  Qed.

  Lemma rel_set E ns ns' k v v' : rel E ns ns' -> (E k \/ v = v') -> rel E (set k v ns) (set k v' ns').
  Proof.
    intros H Hv; induction H as [|[k1 v1] [k2 v2] l l' [Hk1 Hv1] Hl IH]; cbn [fst snd] in *.
    - rewrite !set_nil; constructor; [split; [reflexivity|exact Hv]|constructor].
    - subst k2; rewrite !Dict.set_cons; destruct (eqb_spec k k1) as [<-|_]; constructor; auto.
  Qed.

  Lemma rel_eq ns ns' : rel (fun _ => False) ns ns' -> ns = ns'.
  Proof.
    induction 1 as [|[k1 v1] [k2 v2] l l' [Hk1 [[]|Hv]] _ IH]; [reflexivity|]; cbn [fst snd] in *; congruence.
  Qed.

  Lemma rel_sym E ns ns' : rel E ns ns' -> rel E ns' ns.
  Proof.
    induction 1 as [|[k1 v1] [k2 v2] l l' [Hk1 Hv] _ IH]; constructor; [|exact IH]; cbn [fst snd] in *; subst k2.
    split; [reflexivity|]; destruct Hv as [Hv| ->]; auto.
  Qed.

  Lemma rel_impl (E E' : text -> Prop) ns ns' : (forall k, E k -> E' k) -> rel E ns ns' -> rel E' ns ns'.
  Proof.
    intros HE; induction 1 as [|p q l l' [Hk1 Hv] _ IH]; constructor; [|exact IH].
    split; [exact Hk1|]; destruct Hv as [Hv|Hv]; auto.
  Qed.

  Lemma rel_set_r (E : text -> Prop) ns k v : E k -> In k (keys ns) -> rel E ns (set k v ns).
  Proof.
    intros Hk; unfold keys; induction ns as [|[k1 v1] ns IH]; [intros []|]; intros Hin.
    rewrite Dict.set_cons; destruct (eqb_spec k k1) as [<-|Hn].
    - constructor; [split; [reflexivity|left; exact Hk]|apply rel_refl].
    - constructor; [split; [reflexivity|right; reflexivity]|]; apply IH.
      destruct Hin as [Hin|Hin]; [cbn [fst] in Hin; congruence|exact Hin].
  Qed.

  Lemma rel_of_keys ns ns' : wf ns -> keys ns = keys ns' -> (forall k, get k ns = get k ns') -> rel (fun _ => False) ns ns'.
  Proof.
    intros Hw; revert ns'; unfold keys; induction ns as [|[k v] ns IH]; intros [|[k' v'] ns'] Hk Hg; try discriminate; [constructor|].
    cbn [map fst] in Hk; injection Hk as <- Hk; apply wf_cons in Hw; destruct Hw as [Hn Hw].
    constructor; [split; [reflexivity|right]|].
    - specialize (Hg k); rewrite !get_cons, eqb_refl in Hg; cbn [snd]; congruence.
    - apply IH; [exact Hw|exact Hk|]; intros k0; destruct (eqb_spec k0 k) as [->|Hk0].
      + rewrite Hn; symmetry; apply get_None; unfold keys; rewrite <- Hk; apply (proj1 (get_None _ _)) in Hn; exact Hn.
      + specialize (Hg k0); rewrite !get_cons in Hg; destruct (eqb_spec k0 k); [contradiction|exact Hg].
  Qed.

  Lemma dict_ext ns ns' : wf ns -> keys ns = keys ns' -> (forall k, get k ns = get k ns') -> ns = ns'.
  Proof. intros; apply rel_eq, rel_of_keys; assumption. Qed.

  Lemma keys_set_in ns k v : In k (keys ns) -> keys (set k v ns) = keys ns.
  Proof. intros H; rewrite keys_set; apply has_keys in H; rewrite H; reflexivity. Qed.

  Lemma set_comm ns k k' v v' : k <> k' -> In k (keys ns) -> In k' (keys ns) ->
    set k v (set k' v' ns) = set k' v' (set k v ns).
  Proof.
    intros Hn; unfold keys; induction ns as [|[k0 v0] ns IH]; [intros []|]; intros H1 H2.
    rewrite !Dict.set_cons; destruct (eqb_spec k k0) as [->|N1].
    - destruct (eqb_spec k' k0) as [->|N2]; [contradiction|]; rewrite !Dict.set_cons, eqb_refl.
      destruct (eqb_spec k' k0); [contradiction|reflexivity].
    - destruct (eqb_spec k' k0) as [->|N2]; rewrite !Dict.set_cons.
      + destruct (eqb_spec k k0); [contradiction|]; rewrite eqb_refl; reflexivity.
      + destruct (eqb_spec k k0); [contradiction|]; destruct (eqb_spec k' k0); [contradiction|].
        rewrite IH; [reflexivity|destruct H1; [cbn [fst] in *; congruence|assumption]|destruct H2; [cbn [fst] in *; congruence|assumption]].
  Qed.

  Lemma set_comm_fresh ns k k' v v' : k <> k' -> In k (keys ns) -> set k' v' (set k v ns) = set k v (set k' v' ns).
  Proof.
    intros Hn; unfold keys; induction ns as [|[k0 v0] ns IH]; [intros []|]; intros H1.
    rewrite !Dict.set_cons; destruct (eqb_spec k k0) as [->|N1].
    - destruct (eqb_spec k' k0) as [->|N2]; [contradiction|]; rewrite !Dict.set_cons, eqb_refl.
      destruct (eqb_spec k' k0); [contradiction|reflexivity].
    - destruct H1 as [H1|H1]; [cbn [fst] in H1; congruence|].
      destruct (eqb_spec k' k0) as [->|N2]; rewrite !Dict.set_cons.
      + destruct (eqb_spec k k0); [contradiction|]; rewrite eqb_refl; reflexivity.
      + destruct (eqb_spec k k0); [contradiction|]; destruct (eqb_spec k' k0); [contradiction|].
        rewrite IH by exact H1; reflexivity.
  Qed.
End Rel.

(** ** argparse *)
(** An occurrence that fits the declaration of its flag. *)
Definition declared (p : list opt) (oc : occurrence) : Prop :=
  exists o, In o p /\ o_flag o = fst oc /\ (o_action o = StoreTrue <-> snd oc = None).

Lemma find_In p f o : find (fun o => eqb (o_flag o) f) p = Some o -> In o p /\ o_flag o = f.
Proof.
  intros H; apply find_some in H; destruct H as [Hin He]; split; [exact Hin|].
  destruct (eqb_spec (o_flag o) f); [assumption|discriminate].
Qed.

Lemma find_unique p o : NoDup (map o_flag p) -> In o p -> find (fun x => eqb (o_flag x) (o_flag o)) p = Some o.
Proof.
  induction p as [|x p IH]; [intros _ []|]; intros Hn [->|Hin]; cbn [find].
  - rewrite eqb_refl; reflexivity.
  - cbn [map] in Hn; inversion Hn as [|y l Hy Hn']; subst.
    destruct (eqb_spec (o_flag x) (o_flag o)) as [He|_]; [|apply IH; assumption].
    exfalso; apply Hy; rewrite He; apply in_map; exact Hin.
Qed.

Lemma take_cases p ns oc :
  take p ns oc = Err (SystemExit 2) \/
  exists o v, In o p /\ o_flag o = fst oc /\ find (fun o => eqb (o_flag o) (fst oc)) p = Some o /\ take p ns oc = Ok (set (o_dest o) v ns).
Proof.
  unfold take; destruct (find (fun o => eqb (o_flag o) (fst oc)) p) as [o|] eqn:Ef; [|left; reflexivity].
  destruct (find_In _ _ _ Ef) as [Hin Hfl].
  destruct (o_action o), (snd oc) as [w|]; try (left; reflexivity); right; exists o; eexists; repeat split; eassumption.
Qed.

Definition has_dests (p : list opt) (ns : namespace) : Prop := forall o, In o p -> In (o_dest o) (keys ns).

Lemma take_keys p ns oc ns' : has_dests p ns -> take p ns oc = Ok ns' -> keys ns' = keys ns.
Proof.
  intros Hd H; destruct (take_cases p ns oc) as [E|(o & v & Hin & _ & _ & E)]; [congruence|].
  rewrite E in H; injection H as <-; apply keys_set_in, Hd, Hin.
Qed.

Lemma keys_eq_has_dests p (ns ns' : namespace) : keys ns' = keys ns -> has_dests p ns -> has_dests p ns'.
Proof. intros E H o Hin; rewrite E; apply H, Hin. Qed.

Lemma takes_keys p occs ns ns' : has_dests p ns -> foldM (take p) occs ns = Ok ns' -> keys ns' = keys ns.
Proof.
  revert ns; induction occs as [|oc occs IH]; intros ns Hd H; cbn [foldM] in H; [congruence|].
  apply bind_Ok in H; destruct H as (ns1 & E1 & H); pose proof (take_keys _ _ _ _ Hd E1) as Hk.
  rewrite (IH ns1 (keys_eq_has_dests _ _ _ Hk Hd) H); exact Hk.
Qed.

Lemma add_defaults_keeps p ns k v : get k ns = Some v -> get k (add_defaults p ns) = Some v.
Proof.
  unfold add_defaults; revert ns; induction p as [|o p IH]; intros ns H; [exact H|]; cbn [fold_left]; apply IH.
  destruct (get (o_dest o) ns) eqn:E; [exact H|]; rewrite get_set.
  destruct (eqb_spec k (o_dest o)); [congruence|exact H].
Qed.

Lemma add_defaults_has p ns : has_dests p (add_defaults p ns).
Proof.
  intros o Hin; revert ns; induction p as [|x p IH]; [destruct Hin|]; intros ns; destruct Hin as [->|Hin].
  - apply get_Some_keys; unfold add_defaults; cbn [fold_left].
    destruct (get (o_dest o) ns) as [v|] eqn:E.
    + exists v; apply add_defaults_keeps; exact E.
    + eexists; apply add_defaults_keeps; apply get_set_same.
  - apply IH; exact Hin.
Qed.

Lemma add_defaults_wf p ns : wf ns -> wf (add_defaults p ns).
Proof.
  unfold add_defaults; revert ns; induction p as [|o p IH]; intros ns H; [exact H|]; cbn [fold_left]; apply IH.
  destruct (get (o_dest o) ns); [exact H|apply wf_set; exact H].
Qed.

Lemma take_rel E p ns ns' oc : rel E ns ns' ->
  (take p ns oc = Err (SystemExit 2) /\ take p ns' oc = Err (SystemExit 2)) \/
  exists m m', take p ns oc = Ok m /\ take p ns' oc = Ok m' /\ rel E m m'.
Proof.
  intros R; unfold take; destruct (find (fun o => eqb (o_flag o) (fst oc)) p) as [o|]; [|left; split; reflexivity].
  destruct (o_action o), (snd oc) as [w|]; try (left; split; reflexivity); right; do 2 eexists; (split; [reflexivity|split; [reflexivity|]]).
  - apply rel_set; [exact R|right; reflexivity].
  - apply rel_set; [exact R|right; reflexivity].
  - clear -R; assert (D : E (o_dest o) \/ get (o_dest o) ns = get (o_dest o) ns').
    { induction R as [|[k1 v1] [k2 v2] l l' [Hk Hv] _ IH]; [right; reflexivity|]; cbn [fst snd] in *; subst k2.
      rewrite !get_cons; destruct (eqb_spec (o_dest o) k1) as [<-|_]; [|exact IH].
      destruct Hv as [Hv| ->]; auto. }
    apply rel_set; [exact R|]; destruct D as [D| ->]; auto.
Qed.

Lemma takes_rel E p occs ns ns' : rel E ns ns' ->
  (foldM (take p) occs ns = Err (SystemExit 2) /\ foldM (take p) occs ns' = Err (SystemExit 2)) \/
  exists m m', foldM (take p) occs ns = Ok m /\ foldM (take p) occs ns' = Ok m' /\ rel E m m'.
Proof.
  revert ns ns'; induction occs as [|oc occs IH]; intros ns ns' R; cbn [foldM]; [right; eauto|].
  destruct (take_rel E p ns ns' oc R) as [[E1 E2]|(m & m' & E1 & E2 & R')]; rewrite E1, E2; cbn [bind]; [left; auto|].
  apply IH; exact R'.
Qed.

(** Copying one namespace over another. *)
Definition copy_over (sns ns : namespace) : namespace := fold_left (fun ns q => set (fst q) (snd q) ns) sns ns.

Lemma copy_over_get sns ns k : wf sns -> get k (copy_over sns ns) = match get k sns with Some v => Some v | None => get k ns end.
Proof.
  unfold copy_over; revert ns; induction sns as [|[k1 v1] sns IH]; intros ns Hw; [reflexivity|]; cbn [fold_left fst snd].
  apply wf_cons in Hw; destruct Hw as [Hn Hw]; rewrite IH by exact Hw; rewrite get_cons, get_set.
  destruct (eqb_spec k k1) as [->|_]; [rewrite Hn; reflexivity|reflexivity].
Qed.

Lemma copy_over_keys sns sns' ns ns' : keys sns = keys sns' -> keys ns = keys ns' -> keys (copy_over sns ns) = keys (copy_over sns' ns').
Proof.
  unfold copy_over; revert sns' ns ns'; induction sns as [|[k1 v1] sns IH]; intros [|[k2 v2] sns'] ns ns' Hs Hn;
    unfold keys in Hs; cbn [map fst] in Hs; try discriminate; [exact Hn|].
  injection Hs as <- Hs; cbn [fold_left fst snd]; apply IH; [exact Hs|].
  rewrite !keys_set; unfold has; destruct (get k1 ns) eqn:E1, (get k1 ns') eqn:E2; rewrite ?Hn; try reflexivity; exfalso.
  - apply (proj1 (get_None _ _)) in E2; apply E2; rewrite <- Hn; apply get_Some_keys; eauto.
  - apply (proj1 (get_None _ _)) in E1; apply E1; rewrite Hn; apply get_Some_keys; eauto.
Qed.

Lemma copy_over_wf sns ns : wf ns -> wf (copy_over sns ns).
Proof. unfold copy_over; revert ns; induction sns as [|q sns IH]; intros ns H; [exact H|]; apply IH, wf_set, H. Qed.

Lemma wf_of_keys (ns ns' : namespace) : keys ns = keys ns' -> wf ns -> wf ns'.
Proof. unfold wf; congruence. Qed.

(** What precedes the command does not matter for a parser that starts afresh. *)
Lemma parse_before top sub before after ns :
  (forall o, In o top -> In o sub) -> parse_into top before [] = Ok ns ->
  parse_command_line true top sub before after = parse_command_line true top sub [] after.
Proof.
  intros Hsub E; unfold parse_command_line; rewrite E; change (parse_into top [] []) with (Ok (add_defaults top [])); cbn [bind]; unfold call_subparser.
  destruct (parse_into sub after []) as [sns|e] eqn:Es; cbn [bind]; [|reflexivity]; f_equal; change (copy_over sns ns = copy_over sns (add_defaults top [])).
  pose proof (add_defaults_has sub []) as Hh; unfold parse_into in E, Es.
  pose proof (takes_keys _ _ _ _ Hh Es) as Ks; pose proof (takes_keys _ _ _ _ (add_defaults_has top []) E) as Kn.
  assert (Ws : wf sns) by (eapply wf_of_keys; [symmetry; exact Ks|apply add_defaults_wf; exact wf_nil]).
  assert (Wn : wf ns) by (eapply wf_of_keys; [symmetry; exact Kn|apply add_defaults_wf; exact wf_nil]).
  apply dict_ext; [apply copy_over_wf, Wn|apply copy_over_keys; [reflexivity|exact Kn]|].
  intros k; rewrite !copy_over_get by exact Ws.
  destruct (get k sns) as [v|] eqn:Eg; [reflexivity|].
  assert (Hk : forall m : namespace, keys m = keys (add_defaults top []) -> get k m = None).
  { intros m Hm; apply get_None; rewrite Hm; intros Hin; apply (proj1 (get_None _ _)) in Eg; apply Eg; rewrite Ks.
    assert (Hd : forall p ns0, In k (keys (add_defaults p ns0)) -> In k (keys ns0) \/ exists o, In o p /\ o_dest o = k).
    { unfold add_defaults; clear; induction p as [|o p IH]; intros ns0 H; [left; exact H|]; cbn [fold_left] in H; apply IH in H.
      destruct H as [H|(o' & H1 & H2)]; [|right; exists o'; split; [right; exact H1|exact H2]].
      destruct (get (o_dest o) ns0); [left; exact H|]; apply in_keys_set in H; destruct H as [->|H]; [right; exists o; split; [left; reflexivity|reflexivity]|left; exact H]. }
    destruct (Hd _ _ Hin) as [[]|(o & Ho & <-)]; apply Hh, Hsub, Ho. }
  rewrite (Hk ns Kn), (Hk (add_defaults top []) eq_refl); reflexivity.
Qed.

Lemma takes_declared p occs ns : NoDup (map o_flag p) ->
  (Forall (declared p) occs -> exists ns', foldM (take p) occs ns = Ok ns') /\
  (~ Forall (declared p) occs -> foldM (take p) occs ns = Err (SystemExit 2)).
Proof.
  intros Hn; revert ns; induction occs as [|oc occs IH]; intros ns; cbn [foldM].
  - split; [eauto|]; intros H; exfalso; apply H; constructor.
  - destruct (take_cases p ns oc) as [E|(o & v & Hin & Hfl & Hf & E)]; rewrite E; cbn [bind].
    + split; [|reflexivity]; intros H; inversion H as [|? ? (o & Hin & Hfl & Ha) _]; subst; exfalso.
      unfold take in E; rewrite <- Hfl, (find_unique p o Hn Hin) in E.
      destruct (o_action o), (snd oc) as [w|]; try discriminate E; destruct Ha as [Ha1 Ha2];
        try (specialize (Ha1 eq_refl); discriminate); specialize (Ha2 eq_refl); discriminate.
    + destruct (IH (set (o_dest o) v ns)) as [IH1 IH2]; split.
      * intros H; apply IH1; inversion H; assumption.
      * intros H; apply IH2; intros Hr; apply H; constructor; [|exact Hr].
        exists o; split; [exact Hin|split; [exact Hfl|]]; unfold take in E; rewrite Hf in E.
        destruct (o_action o), (snd oc); try discriminate E; split; intros; congruence.
Qed.

(** With a shared namespace, options before the command are as good as options after it. *)
Lemma add_default_set p (ns : namespace) k v : In k (keys ns) -> add_defaults p (set k v ns) = set k v (add_defaults p ns).
Proof.
  unfold add_defaults; revert ns; induction p as [|o p IH]; intros ns Hk; [reflexivity|]; cbn [fold_left].
  rewrite get_set; destruct (eqb_spec (o_dest o) k) as [Ed|Hn].
  - rewrite <- Ed in *; apply (proj2 (get_Some_keys _ _)) in Hk; destruct Hk as [w Hw]; rewrite Hw.
    apply IH; apply get_Some_keys; eauto.
  - destruct (get (o_dest o) ns) eqn:E; [apply IH; exact Hk|].
    rewrite <- IH by (apply in_keys_set; right; exact Hk); f_equal.
    apply set_comm_fresh; [intros Heq; apply Hn; symmetry; exact Heq|exact Hk].
Qed.

Lemma take_commute p (ns : namespace) oc ns' : has_dests p ns -> take p ns oc = Ok ns' ->
  forall q, (forall o, find (fun o => eqb (o_flag o) (fst oc)) p = Some o -> find (fun o => eqb (o_flag o) (fst oc)) q = Some o) ->
  forall r, take q (add_defaults r ns) oc = Ok (add_defaults r ns').
Proof.
  intros Hd E q Hq r; unfold take in E |- *; destruct (find (fun o => eqb (o_flag o) (fst oc)) p) as [o|] eqn:Ef; [|discriminate].
  rewrite (Hq o eq_refl); destruct (find_In _ _ _ Ef) as [Hin _]; pose proof (Hd o Hin) as Hk.
  destruct (o_action o), (snd oc) as [w|]; try discriminate E; injection E as <-; rewrite add_default_set by exact Hk; try reflexivity.
  apply (proj2 (get_Some_keys _ _)) in Hk; destruct Hk as [v Hv]; rewrite Hv, (add_defaults_keeps r ns _ v Hv); reflexivity.
Qed.

Lemma takes_commute p occs (ns : namespace) ns' : has_dests p ns -> foldM (take p) occs ns = Ok ns' ->
  forall q, (forall f o, find (fun o => eqb (o_flag o) f) p = Some o -> find (fun o => eqb (o_flag o) f) q = Some o) ->
  forall r, foldM (take q) occs (add_defaults r ns) = Ok (add_defaults r ns').
Proof.
  intros Hd E q Hq r; revert ns Hd E; induction occs as [|oc occs IH]; intros ns Hd E; cbn [foldM] in E |- *; [congruence|].
  apply bind_Ok in E; destruct E as (ns1 & E1 & E); rewrite (take_commute p ns oc ns1 Hd E1 q (Hq _) r); cbn [bind].
  apply IH; [|exact E]; eapply keys_eq_has_dests; [eapply take_keys; eassumption|exact Hd].
Qed.

(** After the command, every occurrence acts on the common namespace, whatever argparse. *)
Definition start (fresh : bool) (top sub : list opt) : namespace :=
  if fresh then copy_over (add_defaults sub []) (add_defaults top []) else add_defaults sub (add_defaults top []).

Lemma start_has fresh top sub : has_dests sub (start fresh top sub).
Proof.
  destruct fresh; cbn [start]; [|apply add_defaults_has].
  intros o Ho; apply get_Some_keys; rewrite copy_over_get by (apply add_defaults_wf; exact wf_nil).
  destruct (proj2 (get_Some_keys _ _) (add_defaults_has sub [] o Ho)) as [v ->]; eauto.
Qed.

Lemma parse_after fresh top sub after : parse_command_line fresh top sub [] after = foldM (take sub) after (start fresh top sub).
Proof.
  unfold parse_command_line; change (parse_into top [] []) with (Ok (add_defaults top [])); cbn [bind]; unfold call_subparser.
  destruct fresh; [|reflexivity]; unfold parse_into, start.
  assert (W0 : wf (add_defaults sub [])) by (apply add_defaults_wf; exact wf_nil).
  pose proof (add_defaults_has sub []) as H0; revert W0 H0; generalize (add_defaults sub []), (add_defaults top []).
  induction after as [|oc after IH]; intros sns ns W0 H0; cbn [foldM]; [reflexivity|].
  assert (Hc : take sub (copy_over sns ns) oc = (let* sns' := take sub sns oc in Ok (copy_over sns' ns))).
  { unfold take; destruct (find (fun o => eqb (o_flag o) (fst oc)) sub) as [o|] eqn:Ef; [|reflexivity].
    destruct (find_In _ _ _ Ef) as [Hin _]; pose proof (H0 o Hin) as Hk.
    assert (Hs : forall v, set (o_dest o) v (copy_over sns ns) = copy_over (set (o_dest o) v sns) ns).
    { intros v; revert W0 Hk; clear; unfold copy_over; revert ns; induction sns as [|[k1 v1] sns IH]; intros ns W0 Hk; [destruct Hk|].
      rewrite Dict.set_cons; apply wf_cons in W0; destruct W0 as [Hn W0].
      assert (Hcs : forall m (ns : namespace) k w, get k m = None -> In k (keys ns) ->
                fold_left (fun ns q => set (fst q) (snd q) ns) m (set k w ns) = set k w (fold_left (fun ns q => set (fst q) (snd q) ns) m ns)).
      { clear; induction m as [|[k0 v0] m IH]; intros ns k w Hg Hk; [reflexivity|]; cbn [fold_left fst snd].
        rewrite get_cons in Hg; destruct (eqb_spec k k0) as [|N]; [discriminate|].
        rewrite set_comm_fresh by assumption; apply IH; [exact Hg|apply in_keys_set; right; exact Hk]. }
      destruct (eqb_spec (o_dest o) k1) as [->|N]; cbn [fold_left fst snd].
      - rewrite <- (Hcs sns (set k1 v1 ns) k1 v Hn) by (apply in_keys_set; left; reflexivity); rewrite set_set; reflexivity.
      - apply IH; [exact W0|]; unfold keys in Hk; destruct Hk as [Hk|Hk]; [cbn [fst] in Hk; congruence|exact Hk]. }
    destruct (o_action o), (snd oc) as [w|]; try reflexivity; cbn [bind]; rewrite ?Hs; try reflexivity.
    rewrite copy_over_get by exact W0; destruct (proj2 (get_Some_keys _ _) Hk) as [v ->]; reflexivity. }
  rewrite Hc; destruct (take sub sns oc) as [sns'|e] eqn:Et; cbn [bind]; [|reflexivity].
  pose proof (take_keys _ _ _ _ H0 Et) as Kt; rewrite <- IH; [reflexivity|eapply wf_of_keys; [symmetry; exact Kt|exact W0]|eapply keys_eq_has_dests; eassumption].
Qed.

Lemma NoDup_app_right {A} (l l' : list A) : NoDup (l ++ l') -> NoDup l'.
Proof. induction l as [|x l IH]; [auto|]; intros H; inversion H; subst; auto. Qed.

(** ** C93: options before the command *)
Section Runs.
  Variables (env : penv) (yaml : text -> res pyval) (dump : pydict -> text).

  Lemma main_in_command d own o : In o (main_options d) -> In o (command_options d own).
  Proof. intros H; unfold command_options; apply in_app_iff; right; exact H. Qed.

  (** Python 2.7.9 and later: an option given before the command has no effect whatsoever
      (but a wrong one is reported). *)
  Theorem C93_before_command_ignored environ file d own func before after :
    NoDup (map o_flag (main_options d)) ->
    (Forall (declared (main_options d)) before ->
       xylem_main env environ yaml file true d own dump func before after =
       xylem_main env environ yaml file true d own dump func [] after) /\
    (~ Forall (declared (main_options d)) before ->
       xylem_main env environ yaml file true d own dump func before after = ([], SystemExit 2)).
  Proof.
    intros Hn; split; intros H; unfold xylem_main.
    - destruct (proj1 (takes_declared _ before (add_defaults (main_options d) []) Hn) H) as [ns E].
      rewrite (parse_before _ _ before after ns (main_in_command d own) E); reflexivity.
    - pose proof (proj2 (takes_declared _ before (add_defaults (main_options d) []) Hn) H) as E.
      unfold parse_command_line, parse_into; rewrite E; reflexivity.
  Qed.

  (** Before python 2.7.9: the same effect before and after the command. *)
  Theorem C93_old_argparse_partial environ file d own func before after :
    NoDup (map o_flag (command_options d own)) ->
    Forall (declared (main_options d)) before ->
    xylem_main env environ yaml file false d own dump func before after =
    xylem_main env environ yaml file false d own dump func [] (before ++ after).
  Proof.
    intros Hn Hb; assert (Hm : NoDup (map o_flag (main_options d))).
    { unfold command_options in Hn; rewrite map_app in Hn; apply NoDup_app_right in Hn; exact Hn. }
    unfold xylem_main; rewrite parse_after, foldM_app.
    destruct (proj1 (takes_declared _ before (add_defaults (main_options d) []) Hm) Hb) as [ns E].
    unfold start; rewrite (takes_commute _ _ _ _ (add_defaults_has _ _) E (command_options d own)).
    - cbn [bind]; unfold parse_command_line, parse_into at 1; rewrite E; reflexivity.
    - intros f o Ef; destruct (find_In _ _ _ Ef) as [Hin <-]; apply find_unique; [exact Hn|apply main_in_command, Hin].
  Qed.

  (** ** Facts about the final namespace *)
  (** No two arguments of the parser of the command share a flag or a destination (argparse
      itself rejects equal flags). *)
  Definition clean (d : desc) (own : list opt) : Prop :=
    NoDup (map o_flag (command_options d own)) /\ NoDup (map o_dest (command_options d own)).

  Lemma same_dest p o o' : NoDup (map o_dest p) -> In o p -> In o' p -> o_dest o = o_dest o' -> o = o'.
  Proof.
    induction p as [|x p IH]; [intros _ []|]; cbn [map]; intros Hn H1 H2 He; inversion Hn as [|y l Hy Hn']; subst.
    destruct H1 as [->|H1], H2 as [->|H2]; [reflexivity| | |auto].
    - exfalso; apply Hy; rewrite He; apply in_map; exact H2.
    - exfalso; apply Hy; rewrite <- He; apply in_map; exact H1.
  Qed.

  Definition fits (o : opt) (oc : occurrence) : Prop :=
    fst oc = o_flag o /\ (o_action o = StoreTrue <-> snd oc = None).

  Lemma take_other p o oc ns ns' : NoDup (map o_flag p) -> NoDup (map o_dest p) -> In o p -> ~ fits o oc ->
    take p ns oc = Ok ns' -> get (o_dest o) ns' = get (o_dest o) ns.
  Proof.
    intros Hf Hd Hin Hno E; unfold take in E; destruct (find (fun o => eqb (o_flag o) (fst oc)) p) as [o'|] eqn:Ef; [|discriminate].
    destruct (find_In _ _ _ Ef) as [Hin' Hfl].
    destruct (eqb_spec (o_dest o) (o_dest o')) as [He|Hn].
    - exfalso; apply Hno; rewrite (same_dest p o o' Hd Hin Hin' He); split; [auto|].
      destruct (o_action o'), (snd oc); try discriminate E; split; intros; congruence.
    - destruct (o_action o'), (snd oc); try discriminate E; injection E as <-; rewrite get_set;
        (destruct (eqb_spec (o_dest o) (o_dest o')); [contradiction|reflexivity]).
  Qed.

  Lemma takes_other p o occs ns ns' : NoDup (map o_flag p) -> NoDup (map o_dest p) -> In o p ->
    (forall oc, In oc occs -> ~ fits o oc) ->
    foldM (take p) occs ns = Ok ns' -> get (o_dest o) ns' = get (o_dest o) ns.
  Proof.
    intros Hf Hd Hin; revert ns; induction occs as [|oc occs IH]; intros ns Hno E; cbn [foldM] in E; [congruence|].
    apply bind_Ok in E; destruct E as (ns1 & E1 & E).
    rewrite (IH ns1 (fun oc' H => Hno oc' (or_intror H)) E); eapply take_other; eauto; apply Hno; left; reflexivity.
  Qed.

  Lemma take_own p o ns v : NoDup (map o_flag p) -> In o p -> o_action o <> Append ->
    take p ns (o_flag o, v) =
    match o_action o, v with
    | StoreTrue, None => Ok (set (o_dest o) (NFlag true) ns)
    | Store, Some t => Ok (set (o_dest o) (NVal (CLText t)) ns)
    | _, _ => Err (SystemExit 2)
    end.
  Proof.
    intros Hf Hin Ha; unfold take; cbn [fst snd]; rewrite (find_unique p o Hf Hin).
    destruct (o_action o), v; try reflexivity; congruence.
  Qed.

  (** A property of the value that every fitting occurrence establishes. *)
  Lemma takes_set p o (P : nsval -> Prop) occs ns ns' : NoDup (map o_flag p) -> NoDup (map o_dest p) -> In o p -> o_action o <> Append ->
    (o_action o = StoreTrue -> P (NFlag true)) -> (o_action o = Store -> forall t, P (NVal (CLText t))) ->
    (exists v, get (o_dest o) ns = Some v /\ P v) \/ (exists v, In (o_flag o, v) occs) ->
    foldM (take p) occs ns = Ok ns' -> exists v, get (o_dest o) ns' = Some v /\ P v.
  Proof.
    intros Hf Hd Hin Ha P1 P2; revert ns; induction occs as [|oc occs IH]; intros ns H E; cbn [foldM] in E.
    - injection E as <-; destruct H as [H|(v & [])]; exact H.
    - apply bind_Ok in E; destruct E as (ns1 & E1 & E); apply (IH ns1); [|exact E].
      destruct (eqb_spec (fst oc) (o_flag o)) as [Hfl|Hn].
      + left; destruct oc as [f v]; cbn [fst] in Hfl; subst f; rewrite (take_own p o ns v Hf Hin Ha) in E1.
        destruct (o_action o) eqn:Eo, v as [t|]; try discriminate E1; injection E1 as <-; rewrite get_set_same;
          (eexists; split; [reflexivity|auto]).
      + destruct H as [(v & Hv & Pv)|(v & [Hoc|Hv])].
        * left; exists v; split; [|exact Pv]; rewrite <- Hv; eapply take_other; eauto; intros [Hx _]; contradiction.
        * subst oc; contradiction Hn; reflexivity.
        * right; eauto.
  Qed.

  Lemma add_defaults_other p ns k : (forall o, In o p -> o_dest o <> k) -> get k (add_defaults p ns) = get k ns.
  Proof.
    unfold add_defaults; revert ns; induction p as [|o p IH]; intros ns H; [reflexivity|]; cbn [fold_left].
    rewrite IH by (intros o' Ho; apply H; right; exact Ho).
    destruct (get (o_dest o) ns); [reflexivity|]; apply get_set_other; intros Hk; apply (H o (or_introl eq_refl)); symmetry; exact Hk.
  Qed.

  Lemma add_defaults_get p ns o : NoDup (map o_dest p) -> In o p -> get (o_dest o) ns = None ->
    get (o_dest o) (add_defaults p ns) = Some (default_value (o_action o)).
  Proof.
    unfold add_defaults; revert ns; induction p as [|x p IH]; intros ns Hn Hin Hg; [destruct Hin|]; cbn [fold_left].
    cbn [map] in Hn; inversion Hn as [|y l Hy Hn']; subst; destruct Hin as [->|Hin].
    - rewrite Hg; apply add_defaults_keeps, get_set_same.
    - apply IH; [exact Hn'|exact Hin|].
      destruct (get (o_dest x) ns); [exact Hg|]; rewrite get_set_other; [exact Hg|].
      intros He; apply Hy; rewrite <- He; apply in_map; exact Hin.
  Qed.

  Lemma start_get fresh top sub o : NoDup (map o_dest sub) -> (forall o, In o top -> In o sub) -> NoDup (map o_dest top) -> In o sub ->
    get (o_dest o) (start fresh top sub) = Some (default_value (o_action o)).
  Proof.
    intros Hn Hs Ht Hin; destruct fresh; cbn [start].
    - rewrite copy_over_get by (apply add_defaults_wf; exact wf_nil); rewrite add_defaults_get by auto; reflexivity.
    - destruct (get (o_dest o) (add_defaults top [])) as [v|] eqn:E.
      + assert (Ho : In o top).
        { destruct (existsb (fun o' => eqb (o_dest o') (o_dest o)) top) eqn:Ex.
          - apply existsb_exists in Ex; destruct Ex as (o' & Ho' & He); destruct (eqb_spec (o_dest o') (o_dest o)) as [He'|]; [|discriminate].
            rewrite <- (same_dest sub o' o Hn (Hs _ Ho') Hin He'); exact Ho'.
          - rewrite add_defaults_other in E; [discriminate|]; intros o' Ho' He.
            apply Bool.not_true_iff_false in Ex; apply Ex, existsb_exists; exists o'; split; [exact Ho'|]; rewrite He; apply eqb_refl. }
        apply add_defaults_keeps, add_defaults_get; auto.
      + apply add_defaults_get; assumption.
  Qed.

  Definition dir_option : opt := {| o_flag := u "xylem-dir"; o_dest := u "config_dir"; o_action := Store |}.
  Definition prefix_option : opt := {| o_flag := u "prefix"; o_dest := u "prefix"; o_action := Store |}.
  Definition print_option : opt := {| o_flag := u "print-config"; o_dest := u "print_config"; o_action := StoreTrue |}.
  Definition no_user_option : opt := {| o_flag := u "no-user-config"; o_dest := u "no_user_config"; o_action := StoreTrue |}.

  Lemma dir_in d own : In dir_option (command_options d own).
  Proof. unfold command_options; apply in_app_iff; right; apply in_app_iff; right; vm_compute; tauto. Qed.
  Lemma prefix_in d own : In prefix_option (command_options d own).
  Proof. unfold command_options; apply in_app_iff; right; apply in_app_iff; right; vm_compute; tauto. Qed.
  Lemma print_in d own : In print_option (command_options d own).
  Proof. unfold command_options; apply in_app_iff; right; apply in_app_iff; right; vm_compute; tauto. Qed.
  Lemma no_user_in d own : In no_user_option (command_options d own).
  Proof. unfold command_options; apply in_app_iff; right; apply in_app_iff; right; vm_compute; tauto. Qed.

  (** What happens once the command line is parsed. *)
  Definition rest environ file d func (ns0 : namespace) : list output * exn :=
    let ns := handle_global_config_arguments env environ ns0 in
    match effective_config env yaml file d ns with
    | Err e => ([], e)
    | Ok c => if ns_flag ns (u "print_config") then ([Line (dump c)], SystemExit 0)
              else main (Ok tt) (func ns c)
    end.

  Lemma run_after environ file fresh d own func after :
    xylem_main env environ yaml file fresh d own dump func [] after =
    match foldM (take (command_options d own)) after (start fresh (main_options d) (command_options d own)) with
    | Err e => ([], e)
    | Ok ns0 => rest environ file d func ns0
    end.
  Proof. unfold xylem_main; rewrite parse_after; reflexivity. Qed.

  Lemma final_has fresh d own after ns :
    foldM (take (command_options d own)) after (start fresh (main_options d) (command_options d own)) = Ok ns ->
    has_dests (command_options d own) ns.
  Proof. intros E; eapply keys_eq_has_dests; [eapply takes_keys; [apply start_has|exact E]|apply start_has]. Qed.

  Lemma main_dests d own : NoDup (map o_dest (command_options d own)) -> NoDup (map o_dest (main_options d)).
  Proof. unfold command_options; rewrite map_app; apply NoDup_app_right. Qed.

  Lemma not_given fresh d own after ns o : clean d own -> In o (command_options d own) ->
    foldM (take (command_options d own)) after (start fresh (main_options d) (command_options d own)) = Ok ns ->
    (forall v, ~ In (o_flag o, v) after) -> get (o_dest o) ns = Some (default_value (o_action o)).
  Proof.
    intros [Hf Hd] Hin E Hno; rewrite (takes_other _ o after _ ns Hf Hd Hin) with (2 := E).
    - apply start_get; [exact Hd|apply main_in_command|eapply main_dests; exact Hd|exact Hin].
    - intros [f v] Hoc [Hx _]; cbn [fst] in Hx; subst f; exact (Hno v Hoc).
  Qed.

  Lemma given_text fresh d own after ns o v : clean d own -> In o (command_options d own) -> o_action o = Store ->
    foldM (take (command_options d own)) after (start fresh (main_options d) (command_options d own)) = Ok ns ->
    In (o_flag o, v) after -> exists t, get (o_dest o) ns = Some (NVal (CLText t)).
  Proof.
    intros [Hf Hd] Hin Ha E Hv.
    assert (Hna : o_action o <> Append) by congruence.
    assert (H1 : o_action o = StoreTrue -> exists t, NFlag true = NVal (CLText t)) by congruence.
    assert (H2 : o_action o = Store -> forall t, exists t', NVal (CLText t) = NVal (CLText t')) by eauto.
    destruct (takes_set _ o (fun x => exists t, x = NVal (CLText t)) after _ ns Hf Hd Hin Hna H1 H2 (or_intror (ex_intro _ v Hv)) E) as (x & Hx & t & ->).
    eauto.
  Qed.

  (** ** C92: where the configuration is looked for *)
  (** XYLEM_DIR stands for the option --xylem-dir, and XYLEM_PREFIX (or /, if unset) for
      --prefix. *)
  Theorem C92_variables_stand_for_options environ file fresh d own func after :
    clean d own ->
    (forall D, get (u "XYLEM_DIR") environ = Some D -> (forall v, ~ In (u "xylem-dir", v) after) ->
       xylem_main env environ yaml file fresh d own dump func [] after =
       xylem_main env environ yaml file fresh d own dump func [] (after ++ [(u "xylem-dir", Some D)])) /\
    (forall P, get (u "XYLEM_PREFIX") environ = Some P -> (forall v, ~ In (u "prefix", v) after) ->
       xylem_main env environ yaml file fresh d own dump func [] after =
       xylem_main env environ yaml file fresh d own dump func [] (after ++ [(u "prefix", Some P)])) /\
    (get (u "XYLEM_PREFIX") environ = None -> (forall v, ~ In (u "prefix", v) after) ->
       xylem_main env environ yaml file fresh d own dump func [] after =
       xylem_main env environ yaml file fresh d own dump func [] (after ++ [(u "prefix", Some (u "/"))])).
  Proof.
    intros Hc; pose proof Hc as [Hf Hd].
    assert (Hp : forall P, (match get (u "XYLEM_PREFIX") environ with Some p => p | None => u "/" end) = P ->
       (forall v, ~ In (u "prefix", v) after) ->
       xylem_main env environ yaml file fresh d own dump func [] after =
       xylem_main env environ yaml file fresh d own dump func [] (after ++ [(u "prefix", Some P)])).
    { intros P HP Hno; rewrite !run_after, foldM_app.
      destruct (foldM (take (command_options d own)) after (start fresh (main_options d) (command_options d own))) as [ns|e] eqn:E; cbn [bind]; [|reflexivity].
      cbn [foldM]; pose proof (take_own (command_options d own) prefix_option ns (Some P) Hf (prefix_in d own) ltac:(discriminate)) as Ht.
      cbn [o_flag o_action prefix_option] in Ht; rewrite Ht; cbn [bind o_dest prefix_option dir_option].
      pose proof (not_given fresh d own after ns prefix_option Hc (prefix_in d own) E Hno) as Hg.
      pose proof (final_has fresh d own after ns E) as Hh.
      unfold rest; enough (He : handle_global_config_arguments env environ (set (u "prefix") (NVal (CLText P)) ns) = handle_global_config_arguments env environ ns) by (rewrite He; reflexivity).
      unfold handle_global_config_arguments, ns_text; rewrite get_set_same, get_set_other by discriminate.
      change (get (u "prefix") ns) with (get (o_dest prefix_option) ns); rewrite Hg; cbn [default_value o_action prefix_option o_dest]; rewrite HP.
      rewrite (set_comm ns (u "config_dir") (u "prefix")); [|discriminate|exact (Hh _ (dir_in d own))|exact (Hh _ (prefix_in d own))].
      rewrite set_set; reflexivity. }
    split; [|split].
    - intros D HD Hno; rewrite !run_after, foldM_app.
      destruct (foldM (take (command_options d own)) after (start fresh (main_options d) (command_options d own))) as [ns|e] eqn:E; cbn [bind]; [|reflexivity].
      cbn [foldM]; pose proof (take_own (command_options d own) dir_option ns (Some D) Hf (dir_in d own) ltac:(discriminate)) as Ht.
      cbn [o_flag o_action dir_option] in Ht; rewrite Ht; cbn [bind o_dest prefix_option dir_option].
      pose proof (not_given fresh d own after ns dir_option Hc (dir_in d own) E Hno) as Hg.
      unfold rest; enough (He : handle_global_config_arguments env environ (set (u "config_dir") (NVal (CLText D)) ns) = handle_global_config_arguments env environ ns) by (rewrite He; reflexivity).
      unfold handle_global_config_arguments, ns_text; rewrite get_set_same, get_set_other by discriminate.
      change (get (u "config_dir") ns) with (get (o_dest dir_option) ns); rewrite Hg; cbn [default_value o_action dir_option o_dest or_else]; rewrite HD.
      rewrite set_set; reflexivity.
    - intros P HP Hno; apply Hp; [rewrite HP; reflexivity|exact Hno].
    - intros HP Hno; apply Hp; [rewrite HP; reflexivity|exact Hno].
  Qed.

  (** An option given on the command line makes its variable irrelevant; other variables
      never matter here. *)
  Theorem C92_options_win environ environ' file fresh d own func after :
    clean d own ->
    get (u "XYLEM_DIR") environ = get (u "XYLEM_DIR") environ' \/ (exists v, In (u "xylem-dir", v) after) ->
    get (u "XYLEM_PREFIX") environ = get (u "XYLEM_PREFIX") environ' \/ (exists v, In (u "prefix", v) after) ->
    xylem_main env environ yaml file fresh d own dump func [] after =
    xylem_main env environ' yaml file fresh d own dump func [] after.
  Proof.
    intros Hc H1 H2; rewrite !run_after.
    destruct (foldM (take (command_options d own)) after (start fresh (main_options d) (command_options d own))) as [ns|e] eqn:E; [|reflexivity].
    unfold rest; enough (He : handle_global_config_arguments env environ ns = handle_global_config_arguments env environ' ns) by (rewrite He; reflexivity).
    unfold handle_global_config_arguments.
    assert (D : or_else (ns_text ns (u "config_dir")) (get (u "XYLEM_DIR") environ) = or_else (ns_text ns (u "config_dir")) (get (u "XYLEM_DIR") environ')).
    { destruct H1 as [->|(v & Hv)]; [reflexivity|].
      destruct (given_text fresh d own after ns dir_option v Hc (dir_in d own) eq_refl E Hv) as [t Ht]; cbn [o_dest dir_option] in Ht.
      unfold ns_text; rewrite Ht; reflexivity. }
    rewrite D; destruct H2 as [->|(v & Hv)]; [reflexivity|].
    destruct (given_text fresh d own after ns prefix_option v Hc (prefix_in d own) eq_refl E Hv) as [t Ht]; cbn [o_dest prefix_option] in Ht.
    unfold ns_text; rewrite !Ht; reflexivity.
  Qed.

  (** Directories may be given relative to the working directory or with ~: the same as
      giving them in full. *)
  Theorem C92_directories_expanded environ file fresh d own func after D :
    clean d own -> env_ok env ->
    normal_abs (expand_input_path env D) /\
    xylem_main env environ yaml file fresh d own dump func [] (after ++ [(u "xylem-dir", Some D)]) =
    xylem_main env environ yaml file fresh d own dump func [] (after ++ [(u "xylem-dir", Some (expand_input_path env D))]) /\
    xylem_main env environ yaml file fresh d own dump func [] (after ++ [(u "prefix", Some D)]) =
    xylem_main env environ yaml file fresh d own dump func [] (after ++ [(u "prefix", Some (expand_input_path env D))]).
  Proof.
    intros Hc He; pose proof Hc as [Hf Hd]; pose proof (expand_input_path_normal env D He) as Hn; split; [exact Hn|].
    pose proof (expand_input_path_id env _ Hn) as Hi.
    split; rewrite !run_after, !foldM_app;
      (destruct (foldM (take (command_options d own)) after (start fresh (main_options d) (command_options d own))) as [ns|e] eqn:E; cbn [bind]; [|reflexivity]).
    - cbn [foldM]; pose proof (fun v => take_own (command_options d own) dir_option ns (Some v) Hf (dir_in d own) ltac:(discriminate)) as Ht.
      cbn [o_flag o_action dir_option] in Ht; rewrite !Ht; cbn [bind o_dest prefix_option dir_option]; unfold rest.
      match goal with |- context [handle_global_config_arguments env environ ?a] => match goal with |- _ = ?r => match r with context [handle_global_config_arguments env environ ?b] =>
        enough (Hq : handle_global_config_arguments env environ a = handle_global_config_arguments env environ b) by (rewrite Hq; reflexivity) end end end.
      unfold handle_global_config_arguments, ns_text; rewrite !get_set_same, !get_set_other by discriminate; cbn [or_else option_map]; rewrite Hi, !set_set; reflexivity.
    - cbn [foldM]; pose proof (fun v => take_own (command_options d own) prefix_option ns (Some v) Hf (prefix_in d own) ltac:(discriminate)) as Ht.
      cbn [o_flag o_action prefix_option] in Ht; rewrite !Ht; cbn [bind o_dest prefix_option dir_option]; unfold rest.
      pose proof (final_has fresh d own after ns E) as Hh.
      match goal with |- context [handle_global_config_arguments env environ ?a] => match goal with |- _ = ?r => match r with context [handle_global_config_arguments env environ ?b] =>
        enough (Hq : handle_global_config_arguments env environ a = handle_global_config_arguments env environ b) by (rewrite Hq; reflexivity) end end end.
      unfold handle_global_config_arguments, ns_text; rewrite !get_set_same, !get_set_other by discriminate; rewrite Hi.
      rewrite !(set_comm ns (u "config_dir") (u "prefix")); try discriminate; try exact (Hh _ (dir_in d own)); try exact (Hh _ (prefix_in d own)).
      rewrite !set_set; reflexivity.
  Qed.

  Lemma config_dests_clean d own : clean d own -> forall o, In o global_options -> ~ In (o_dest o) (config_dests d).
  Proof.
    intros [_ Hd] o Ho Hin; unfold command_options in Hd; rewrite !map_app in Hd; apply NoDup_app_right in Hd.
    assert (Hc : map o_dest (config_options d) = config_dests d) by (unfold config_options, config_dests; rewrite map_map; reflexivity).
    rewrite Hc in Hd; revert Hd Hin; apply (in_map o_dest) in Ho; revert Ho; generalize (map o_dest global_options); clear.
    intros g Ho; induction (config_dests d) as [|x l IH]; intros Hd Hin; [destruct Hin|].
    cbn [app] in Hd; inversion Hd as [|y m Hy Hd']; subst; destruct Hin as [->|Hin]; [|auto].
    apply Hy, in_app_iff; right; exact Ho.
  Qed.

  Lemma ns_values_rel (E : text -> Prop) d (ns ns' : namespace) : (forall k, E k -> ~ In k (config_dests d)) -> rel E ns ns' -> ns_values d ns = ns_values d ns'.
  Proof.
    intros HE; unfold ns_values; induction 1 as [|[k v] [k' v'] l l' [Hk Hv] _ IH]; [reflexivity|]; cbn [flat_map fst snd] in *; subst k'.
    rewrite IH; f_equal; destruct Hv as [Hv| ->]; [|reflexivity].
    destruct (existsb (eqb k) (config_dests d)) eqn:Ex; [|destruct v, v'; reflexivity].
    exfalso; apply (HE k Hv); apply existsb_exists in Ex; destruct Ex as (x & Hx & He).
    destruct (eqb_spec k x); [subst; exact Hx|discriminate].
  Qed.

  Lemma ns_flag_rel (E : text -> Prop) (ns ns' : namespace) k : rel E ns ns' -> ~ E k -> ns_flag ns k = ns_flag ns' k.
  Proof. intros R Hk; unfold ns_flag; rewrite (rel_get E ns ns' k R Hk); reflexivity. Qed.
  Lemma ns_text_rel (E : text -> Prop) (ns ns' : namespace) k : rel E ns ns' -> ~ E k -> ns_text ns k = ns_text ns' k.
  Proof. intros R Hk; unfold ns_text; rewrite (rel_get E ns ns' k R Hk); reflexivity. Qed.

  (** With a configuration directory, nothing else matters. *)
  Lemma effective_config_dir file file' d ns ns' D :
    ns_text ns (u "config_dir") = Some D -> ns_text ns' (u "config_dir") = Some D -> D <> [] ->
    ns_values d ns = ns_values d ns' ->
    file (path_join D (d_namespace d)) = file' (path_join D (d_namespace d)) ->
    effective_config env yaml file d ns = effective_config env yaml file' d ns'.
  Proof.
    intros H1 H2 Hne Hv Hfile; unfold effective_config, clargs_of; rewrite H1, H2, Hv.
    assert (Hl : forall p p' b b', load_config env yaml file {| a_config_dir := Some D; a_prefix := p; a_no_user_config := b; a_values := ns_values d ns' |} d xylem_tool
              = load_config env yaml file' {| a_config_dir := Some D; a_prefix := p'; a_no_user_config := b'; a_values := ns_values d ns' |} d xylem_tool).
    { intros p p' b b'; unfold load_config, config_dirs; cbn [a_config_dir mapM]; unfold config_from_file, load_config_file_yaml; rewrite Hfile; reflexivity. }
    rewrite (Hl _ (match ns_text ns' (u "prefix") with Some p => p | None => [] end) _ (ns_flag ns' (u "no_user_config"))); destruct (load_config env yaml file' _ d xylem_tool) as [c|e]; cbn [bind]; [|reflexivity].
    unfold process_config; cbn [a_config_dir a_prefix]; destruct D as [|x D]; [contradiction|]; reflexivity.
  Qed.

  (** A configuration directory replaces system and user configuration: a command that gets
      the configuration only behaves the same whatever prefix, user configuration and other
      files there are. *)
  Theorem C92_directory_isolates environ environ' file file' fresh d own func extra after D :
    clean d own -> env_ok env ->
    Forall (fun oc => (exists P, oc = (u "prefix", Some P)) \/ oc = (u "no-user-config", None)) extra ->
    file (path_join (expand_input_path env D) (d_namespace d)) = file' (path_join (expand_input_path env D) (d_namespace d)) ->
    xylem_main env environ yaml file fresh d own dump (fun _ => func) [] (after ++ [(u "xylem-dir", Some D)]) =
    xylem_main env environ' yaml file' fresh d own dump (fun _ => func) [] (extra ++ after ++ [(u "xylem-dir", Some D)]).
  Proof.
    intros Hc He Hex Hfile; pose proof Hc as [Hf Hd].
    set (E := fun k => k = u "prefix" \/ k = u "no_user_config").
    rewrite !run_after, (foldM_app (take _) extra).
    assert (Hx : exists ns1, foldM (take (command_options d own)) extra (start fresh (main_options d) (command_options d own)) = Ok ns1 /\
                 rel E (start fresh (main_options d) (command_options d own)) ns1).
    { generalize (start_has fresh (main_options d) (command_options d own)); generalize (start fresh (main_options d) (command_options d own)).
      clear -Hf Hex; induction Hex as [|oc extra Hoc Hex IH]; intros ns Hh; cbn [foldM]; [exists ns; split; [reflexivity|apply rel_refl]|].
      assert (Ho : exists k v, take (command_options d own) ns oc = Ok (set k v ns) /\ E k /\ In k (keys ns)).
      { destruct Hoc as [(P & ->)| ->].
        - pose proof (take_own (command_options d own) prefix_option ns (Some P) Hf (prefix_in d own) ltac:(discriminate)) as Ht.
          cbn [o_flag o_action prefix_option o_dest] in Ht; do 2 eexists; split; [exact Ht|split; [left; reflexivity|exact (Hh _ (prefix_in d own))]].
        - pose proof (take_own (command_options d own) no_user_option ns None Hf (no_user_in d own) ltac:(discriminate)) as Ht.
          cbn [o_flag o_action no_user_option o_dest] in Ht; do 2 eexists; split; [exact Ht|split; [right; reflexivity|exact (Hh _ (no_user_in d own))]]. }
      destruct Ho as (k & v & -> & HE & Hk); cbn [bind].
      destruct (IH (set k v ns)) as (ns1 & E1 & R1).
      { eapply keys_eq_has_dests; [apply keys_set_in; exact Hk|exact Hh]. }
      exists ns1; split; [exact E1|]; clear -R1 HE Hk; pose proof (rel_set_r E ns k v HE Hk) as R0.
      revert R0 R1; generalize (set k v ns); clear; intros m R0; revert ns1; unfold rel in *.
      induction R0 as [|p q l l' [Hk Hv] R0 IH]; intros ns1 R1; inversion R1 as [|p' q' m' m1 [Hk' Hv'] R1']; subst; constructor; [|apply IH; exact R1'].
      split; [congruence|]; destruct Hv as [Hv|Hv]; [left; exact Hv|]; destruct Hv' as [Hv'|Hv']; [left; congruence|right; congruence]. }
    destruct Hx as (ns1 & -> & R1); cbn [bind].
    destruct (takes_rel E (command_options d own) (after ++ [(u "xylem-dir", Some D)]) _ _ R1) as [[-> ->]|(m & m' & Em & Em' & R)]; [reflexivity|].
    rewrite Em, Em'; unfold rest.
    assert (Hm : get (u "config_dir") m = Some (NVal (CLText D))).
    { rewrite foldM_app in Em; apply bind_Ok in Em; destruct Em as (n & _ & Em); cbn [foldM] in Em.
      pose proof (take_own (command_options d own) dir_option n (Some D) Hf (dir_in d own) ltac:(discriminate)) as Ht.
      cbn [o_flag o_action dir_option] in Ht; rewrite Ht in Em; cbn [bind o_dest dir_option] in Em; injection Em as <-; apply get_set_same. }
    assert (Hm' : get (u "config_dir") m' = Some (NVal (CLText D))).
    { rewrite <- (rel_get E m m' (u "config_dir") R); [exact Hm|]; intros [Hx|Hx]; discriminate Hx. }
    set (h := handle_global_config_arguments env environ m); set (h' := handle_global_config_arguments env environ' m').
    assert (Hr : rel E h h').
    { unfold h, h', handle_global_config_arguments, ns_text; rewrite Hm, Hm'; cbn [or_else].
      apply rel_set; [|left; left; reflexivity]; apply rel_set; [exact R|right; reflexivity]. }
    assert (Hd1 : ns_text h (u "config_dir") = Some (expand_input_path env D)).
    { unfold h, handle_global_config_arguments, ns_text; rewrite get_set_other by discriminate; rewrite get_set_same, Hm; reflexivity. }
    assert (Hd2 : ns_text h' (u "config_dir") = Some (expand_input_path env D)).
    { unfold h', handle_global_config_arguments, ns_text; rewrite get_set_other by discriminate; rewrite get_set_same, Hm'; reflexivity. }
    rewrite (effective_config_dir file file' d h h' _ Hd1 Hd2).
    - rewrite (ns_flag_rel E h h' (u "print_config") Hr); [reflexivity|]; intros [Hx|Hx]; discriminate Hx.
    - pose proof (expand_input_path_normal env D He) as Hn; intros H0; rewrite H0 in Hn; clear -Hn.
      destruct Hn as (ini & comps & [-> | ->] & _ & Hx); discriminate Hx.
    - apply (ns_values_rel E); [|exact Hr]; intros k [-> | ->].
      + exact (config_dests_clean d own Hc prefix_option ltac:(vm_compute; tauto)).
      + exact (config_dests_clean d own Hc no_user_option ltac:(vm_compute; tauto)).
    - exact Hfile.
  Qed.

  (** ** C94: --print-config *)
  Definition without_print (occs : list occurrence) : list occurrence :=
    filter (fun oc => negb (eqb (fst oc) (u "print-config") && match snd oc with None => true | Some _ => false end)) occs.

  Lemma takes_without d own occs (ns ns' : namespace) : clean d own -> has_dests (command_options d own) ns ->
    rel (fun k => k = u "print_config") ns ns' ->
    (foldM (take (command_options d own)) occs ns = Err (SystemExit 2) /\
     foldM (take (command_options d own)) (without_print occs) ns' = Err (SystemExit 2)) \/
    exists m m', foldM (take (command_options d own)) occs ns = Ok m /\
      foldM (take (command_options d own)) (without_print occs) ns' = Ok m' /\ rel (fun k => k = u "print_config") m m'.
  Proof.
    intros [Hf Hd]; revert ns ns'; induction occs as [|oc occs IH]; intros ns ns' Hh R; cbn [foldM without_print filter]; [right; eauto|].
    destruct (eqb_spec (fst oc) (u "print-config")) as [Hfl|Hfl]; [destruct (snd oc) as [w|] eqn:Es|]; cbn [andb negb].
    1,3: cbn [foldM]; destruct (take_rel _ (command_options d own) ns ns' oc R) as [[E1 E2]|(m & m' & E1 & E2 & R')]; rewrite E1, E2; cbn [bind]; [left; auto|];
      apply IH; [eapply keys_eq_has_dests; [eapply take_keys; eassumption|exact Hh]|exact R'].
    destruct oc as [f v]; cbn [fst snd] in Hfl, Es; subst f v.
    pose proof (take_own (command_options d own) print_option ns None Hf (print_in d own) ltac:(discriminate)) as Ht.
    cbn [o_flag o_action print_option o_dest] in Ht; rewrite Ht; cbn [bind]; apply IH.
    - eapply keys_eq_has_dests; [apply keys_set_in; exact (Hh _ (print_in d own))|exact Hh].
    - clear -R Hh; pose proof (Hh _ (print_in d own)) as Hk; cbn [o_dest print_option] in Hk.
      assert (R0 : rel (fun k => k = u "print_config") (set (u "print_config") (NFlag true) ns) ns)
        by (apply rel_sym, rel_set_r; [reflexivity|exact Hk]).
      revert R0 R; generalize (set (u "print_config") (NFlag true) ns); clear; intros m R0; revert ns'.
      induction R0 as [|p q l l' [Hk Hv] R0 IH]; intros ns1 R1; inversion R1 as [|p' q' m' m1 [Hk' Hv'] R1']; subst; constructor; [|apply IH; exact R1'].
      split; [congruence|]; destruct Hv as [Hv|Hv]; [left; exact Hv|]; destruct Hv' as [Hv'|Hv']; [left; congruence|right; congruence].
  Qed.

  (** Given after the command, the flag prints the very configuration the command would have
      run with and the command is not run; a configuration error is the same with and without
      the flag. *)
  Theorem C94_print_config environ file fresh d own after :
    clean d own -> In (u "print-config", None) after ->
    (exists e, forall func,
       xylem_main env environ yaml file fresh d own dump func [] after = ([], e) /\
       xylem_main env environ yaml file fresh d own dump func [] (without_print after) = ([], e)) \/
    (exists ns c, forall func,
       xylem_main env environ yaml file fresh d own dump func [] after = ([Line (dump c)], SystemExit 0) /\
       xylem_main env environ yaml file fresh d own dump func [] (without_print after) = main (Ok tt) (func ns c)).
  Proof.
    intros Hc Hin; pose proof Hc as [Hf Hd].
    destruct (takes_without d own after _ _ Hc (start_has fresh (main_options d) (command_options d own)) (rel_refl _ _)) as [[E1 E2]|(m & m' & E1 & E2 & R)].
    - left; exists (SystemExit 2); intros func; rewrite !run_after, E1, E2; auto.
    - set (E := fun k => k = u "print_config") in R.
      set (h := handle_global_config_arguments env environ m); set (h' := handle_global_config_arguments env environ m').
      assert (N1 : ~ E (u "config_dir")) by (intros Hx; discriminate Hx).
      assert (N2 : ~ E (u "prefix")) by (intros Hx; discriminate Hx).
      assert (N3 : ~ E (u "no_user_config")) by (intros Hx; discriminate Hx).
      assert (Hr : rel E h h').
      { unfold h, h', handle_global_config_arguments; rewrite (ns_text_rel E m m' _ R N1), (ns_text_rel E m m' _ R N2).
        apply rel_set; [|right; reflexivity]; apply rel_set; [exact R|right; reflexivity]. }
      assert (Hec : effective_config env yaml file d h = effective_config env yaml file d h').
      { unfold effective_config; enough (Hcl : clargs_of d h = clargs_of d h') by (rewrite Hcl; reflexivity).
        unfold clargs_of; rewrite (ns_text_rel E h h' _ Hr N1), (ns_text_rel E h h' _ Hr N2), (ns_flag_rel E h h' _ Hr N3).
        rewrite (ns_values_rel E d h h'); [reflexivity| |exact Hr].
        intros k ->; exact (config_dests_clean d own Hc print_option ltac:(vm_compute; tauto)). }
      assert (P1 : ns_flag h (u "print_config") = true).
      { unfold h, handle_global_config_arguments, ns_flag; rewrite !get_set_other by discriminate.
        assert (H1 : o_action print_option = StoreTrue -> NFlag true = NFlag true) by reflexivity.
        assert (H2 : o_action print_option = Store -> forall t, NVal (CLText t) = NFlag true) by discriminate.
        assert (H3 : o_action print_option <> Append) by discriminate.
        destruct (takes_set _ print_option (fun x => x = NFlag true) after _ m Hf Hd (print_in d own) H3 H1 H2 (or_intror (ex_intro _ None Hin)) E1) as (x & Hx & ->).
        cbn [o_dest print_option] in Hx; rewrite Hx; reflexivity. }
      assert (P2 : ns_flag h' (u "print_config") = false).
      { unfold h', handle_global_config_arguments, ns_flag; rewrite !get_set_other by discriminate.
        change (u "print_config") with (o_dest print_option).
        rewrite (takes_other _ print_option (without_print after) _ m' Hf Hd (print_in d own)) with (2 := E2).
        - rewrite start_get; [reflexivity|exact Hd|apply main_in_command|eapply main_dests; exact Hd|apply print_in].
        - intros oc Hoc [Hx Hy]; apply filter_In in Hoc; destruct Hoc as [_ Hoc]; rewrite Hx in Hoc; destruct Hy as [Hy _].
          specialize (Hy eq_refl); rewrite Hy in Hoc; cbn [o_flag print_option] in Hoc; rewrite eqb_refl in Hoc; discriminate. }
      destruct (effective_config env yaml file d h') as [c|e] eqn:Ec.
      + right; exists h', c; intros func; rewrite !run_after, E1, E2; unfold rest; fold h h'; rewrite Hec, Ec, P1, P2; auto.
      + left; exists e; intros func; rewrite !run_after, E1, E2; unfold rest; fold h h'; rewrite Hec, Ec; auto.
  Qed.
End Runs.

(** ** Examples and refutations *)
Section Examples.
  Definition xd : desc := match build_config_description with Ok d => d | Err _ => empty_desc [] end.
  Definition x_env : penv := {| home := fun user => match user with [] => Some (u "/home/me") | _ => None end; cwd := u "/work" |}.
  Definition no_file : text -> option (res text) := fun _ => None.
  Definition x_yaml : text -> res pyval := fun t => Ok (VStr t).
  Definition x_dump : pydict -> text := fun _ => u "printed".
  (** A command that shows one option of its configuration. *)
  Definition show (name : text) : namespace -> pydict -> run_of unit := fun _ c =>
    ([Line (match get (KStr name) c with
            | Some (VStr t) => t
            | Some (VList (VStr t :: _)) => t
            | _ => u "-"
            end)], Ok tt).
  Definition x_run environ file fresh own := xylem_main x_env environ x_yaml file fresh xd own x_dump.

  Ltac dec_nodup := apply (proj1 (CacheProofs.distinct_NoDup _)); vm_compute; reflexivity.

  (** No clash among the arguments of the bundled commands. *)
  Example bundled_clean : clean xd install_options /\ clean xd resolve_options /\ clean xd update_options /\
    clean xd compact_options /\ clean xd [].
  Proof. repeat split; dec_nodup. Qed.

  Example C92_nonvacuous :
    x_run [(u "XYLEM_DIR", u "conf")] no_file true [] (show (u "cache_dir")) [] [] = ([Line (u "/work/conf/cache")], SystemExit 0) /\
    x_run [(u "XYLEM_DIR", u "conf")] no_file true [] (show (u "cache_dir")) [] [(u "xylem-dir", Some (u "~/x")); (u "prefix", Some (u "/p"))]
      = ([Line (u "/home/me/x/cache")], SystemExit 0) /\
    x_run [(u "XYLEM_PREFIX", u "/usr/local")] no_file false [] (show (u "sources_dir")) [] [] = ([Line (u "/usr/local/etc/xylem/sources.d")], SystemExit 0) /\
    x_run [(u "XYLEM_PREFIX", u "/usr/local")] no_file false [] (show (u "cache_dir")) [] [(u "prefix", Some (u "~"))]
      = ([Line (u "/home/me/var/cache/xylem")], SystemExit 0) /\
    x_run [] no_file true [] (show (u "cache_dir")) [] [] = ([Line (u "/var/cache/xylem")], SystemExit 0) /\
    env_ok x_env.
  Proof. vm_compute; repeat split. Qed.

  (** A variable that is set to the empty text is not treated as unset. *)
  Theorem C92_empty_variable_refuted :
    ~ (forall env environ yaml file fresh d own dump func after, clean d own -> env_ok env ->
       get (u "XYLEM_DIR") environ = Some [] ->
       xylem_main env environ yaml file fresh d own dump func [] after =
       xylem_main env (del (u "XYLEM_DIR") environ) yaml file fresh d own dump func [] after).
  Proof.
    intros H; specialize (H x_env [(u "XYLEM_DIR", [])] x_yaml no_file true xd [] x_dump (show (u "cache_dir")) []
      (proj2 (proj2 (proj2 (proj2 bundled_clean)))) eq_refl eq_refl).
    vm_compute in H; discriminate.
  Qed.

  Lemma os_declared : declared (main_options xd) (u "os", Some (u "ubuntu:precise")).
  Proof.
    exists {| o_flag := u "os"; o_dest := u "os"; o_action := Store |}.
    split; [vm_compute; tauto|split; [reflexivity|split; discriminate]].
  Qed.

  Example C93_nonvacuous :
    NoDup (map o_flag (main_options xd)) /\
    Forall (declared (main_options xd)) [(u "os", Some (u "ubuntu:precise")); (u "verbose", None)] /\
    ~ Forall (declared (main_options xd)) [(u "dry-run", None)] /\
    x_run [] no_file true update_options (show (u "os_override")) [] [(u "os", Some (u "ubuntu:precise")); (u "dry-run", None)]
      = ([Line (u "ubuntu")], SystemExit 0).
  Proof.
    split; [dec_nodup|]; split; [|split].
    - constructor; [exact os_declared|constructor; [|constructor]].
      exists {| o_flag := u "verbose"; o_dest := u "verbose"; o_action := StoreTrue |}.
      split; [vm_compute; tauto|split; [reflexivity|split; reflexivity]].
    - intros H; inversion H as [|oc l (o & Hin & Hfl & _) _]; subst; vm_compute in Hin, Hfl.
      repeat (destruct Hin as [<-|Hin]; [discriminate Hfl|]); exact Hin.
    - vm_compute; reflexivity.
  Qed.

  (** [xylem --os ubuntu:precise resolve] and [xylem resolve --os ubuntu:precise]. *)
  Theorem C93_position_refuted :
    ~ (forall env environ yaml file d own dump func occs, clean d own -> Forall (declared (main_options d)) occs ->
       xylem_main env environ yaml file true d own dump func occs [] =
       xylem_main env environ yaml file true d own dump func [] occs).
  Proof.
    intros H; specialize (H x_env [] x_yaml no_file xd [] x_dump (show (u "os_override")) [(u "os", Some (u "ubuntu:precise"))]
      (proj2 (proj2 (proj2 (proj2 bundled_clean))))).
    assert (D : Forall (declared (main_options xd)) [(u "os", Some (u "ubuntu:precise"))]).
    { constructor; [exact os_declared|constructor]. }
    specialize (H D); vm_compute in H; discriminate.
  Qed.

  (** In particular --print-config before the command does not keep the command from running. *)
  Theorem C94_before_command_refuted :
    ~ (forall env environ yaml file d own dump after, clean d own ->
       exists out e, forall func,
         xylem_main env environ yaml file true d own dump func [(u "print-config", None)] after = (out, e)).
  Proof.
    intros H; destruct (H x_env [] x_yaml no_file xd update_options x_dump [] (proj1 (proj2 (proj2 bundled_clean)))) as (out & e & Hf).
    pose proof (Hf (show (u "cache_dir"))) as H1; pose proof (Hf (show (u "sources_dir"))) as H2.
    pose proof (eq_trans H1 (eq_sym H2)) as H3; clear -H3; vm_compute in H3; discriminate.
  Qed.

  Example C94_nonvacuous :
    x_run [] no_file true update_options (show (u "cache_dir")) [] [(u "dry-run", None); (u "print-config", None)] = ([Line (u "printed")], SystemExit 0) /\
    x_run [] (fun _ => Some (Ok (u "not a mapping"))) true update_options (show (u "cache_dir")) [] [(u "print-config", None)]
      = ([], ConfigValueError).
  Proof. vm_compute; split; reflexivity. Qed.
End Examples.

Print Assumptions C92_variables_stand_for_options.
Print Assumptions C92_options_win.
Print Assumptions C92_directories_expanded.
Print Assumptions C92_directory_isolates.
Print Assumptions C92_empty_variable_refuted.
Print Assumptions C93_before_command_ignored.
Print Assumptions C93_old_argparse_partial.
Print Assumptions C93_position_refuted.
Print Assumptions C94_print_config.
Print Assumptions C94_before_command_refuted.
