(** In place expansion of a document whose dicts are used at one level only gives what the
    expansion of its value gives (Expand.v). *)
From Verif Require Import Base Dict PyVal RulesDict Verify Expand ExpandSpec ExpandProofs Heap HeapSpec HeapProofs HeapExpand HeapExpandSpec.
From Coq Require Import Lia.
Notation S := Datatypes.S.

(** ** Values *)
Definition wraps (n : nat) (k : pkey) (x : pyval) : bool := Nat.eqb n 2 && any_os_installers k x.

Definition E (n : nat) (k : pkey) (x : pyval) : res pyval :=
  match n with
  | 0 => expand_definition x
  | 1 => expand_installer_definition x
  | 2 => expand_os_version_definition k x
  | 3 => wrap_err (expand_os_definition x)
  | _ => expand_rules x
  end.

Definition skeys (x y : pyval) : Prop :=
  match x with VDict d => exists d', y = VDict d' /\ keys d' = keys d | _ => y = x end.

(** [y] is [x] with some parts expanded already. *)
Definition prog (n : nat) (k : pkey) (x y : pyval) : Prop :=
  E n k y = E n k x /\ (E n k x = Ok x -> y = x) /\ (0 < n -> skeys x y).

Lemma skeys_refl x : skeys x x.
Proof. destruct x; simpl; eauto. Qed.
Lemma skeys_trans x y z : skeys x y -> skeys y z -> skeys x z.
Proof.
  destruct x; simpl; intros H; try (subst; simpl; auto; fail).
  destruct H as (d' & -> & Ek); simpl; intros (d2 & -> & Ek2); exists d2; split; [reflexivity|congruence].
Qed.
Lemma prog_refl n k x : prog n k x x.
Proof. split; [reflexivity|]; split; [auto|]; intros _; apply skeys_refl. Qed.
Lemma prog_trans n k x y z : prog n k x y -> prog n k y z -> prog n k x z.
Proof.
  intros (E1 & F1 & S1) (E2 & F2 & S2); split; [congruence|]; split.
  - intros Hx; specialize (F1 Hx); subst y; apply F2; exact Hx.
  - intros Hn; eapply skeys_trans; eauto.
Qed.

Lemma has_keys_eq (k : pkey) (d d' : pydict) : keys d' = keys d -> has k d' = has k d.
Proof.
  intros Ek; destruct (has k d) eqn:Eh.
  - apply has_keys; rewrite Ek; apply has_keys; exact Eh.
  - destruct (has k d') eqn:Eh'; [|reflexivity]; apply has_keys in Eh'; rewrite Ek in Eh'; apply has_keys in Eh'; congruence.
Qed.

Lemma wraps_skeys n k x y : skeys x y -> wraps n k y = wraps n k x.
Proof.
  unfold wraps, any_os_installers; destruct x as [| | | | | |d]; simpl; intros H; subst; try reflexivity.
  destruct H as (d' & -> & Ek); now rewrite (has_keys_eq _ d d' Ek).
Qed.

Notation fprog F := (fun p q : pkey * pyval =>
  fst p = fst q /\ F (fst p) (snd q) = F (fst p) (snd p) /\ (F (fst p) (snd p) = Ok (snd p) -> snd q = snd p)).

Lemma map_items_cons f k x d :
  map_items f ((k, x) :: d) = let* y := f k x in let* d' := map_items f d in Ok ((k, y) :: d').
Proof. unfold map_items; cbn [mapM fst snd]; destruct (f k x); reflexivity. Qed.

Lemma map_items_prog (F : pkey -> pyval -> res pyval) ps ps' : Forall2 (fprog F) ps ps' ->
  map_items F ps' = map_items F ps /\ (map_items F ps = Ok ps -> ps' = ps).
Proof.
  intros H; induction H as [|[k x] [k' y] ps ps' (Hk & He & Hf) H [IH1 IH2]]; [auto|]; cbn [fst snd] in *; subst k'.
  rewrite !map_items_cons, He, IH1; split; [reflexivity|].
  destruct (F k x) as [z|]; cbn [bind]; [|discriminate].
  destruct (map_items F ps) as [qs|]; cbn [bind]; [|discriminate].
  intros Heq; inversion Heq; subst; f_equal; [f_equal; auto|auto].
Qed.

Lemma Forall2_keys (R : pkey -> pyval -> pyval -> Prop) (ps ps' : pydict) :
  Forall2 (fun p q => fst p = fst q /\ R (fst p) (snd p) (snd q)) ps ps' -> keys ps' = keys ps.
Proof.
  intros H; induction H as [|[k x] [k' y] ps ps' (Hk & _) H IH]; [reflexivity|]; unfold keys in *; simpl in *; now rewrite IH, Hk.
Qed.

Definition special_ok (k : pkey) (d : pydict) : bool :=
  if eqb k (KStr any_os) then Nat.eqb (List.length d) 1 else true.

Lemma E_dict n k d : n <= 3 -> wraps (S n) k (VDict d) = false ->
  E (S n) k (VDict d) =
  match n with
  | 1 => if special_ok k d then let* d' := map_items (E n) d in Ok (VDict d') else Err ValueError
  | 2 => wrap_err (let* d' := map_items (E n) d in Ok (VDict d'))
  | _ => let* d' := map_items (E n) d in Ok (VDict d')
  end.
Proof.
  intros Hn Hw; destruct n as [|[|[|[|n]]]]; [| | | |lia]; try reflexivity.
  cbn [E]; rewrite expand_version_unfold; unfold version_items, items_of; cbn [up_convert].
  unfold special_items, special_ok; unfold wraps, any_os_installers in Hw; cbn [Nat.eqb andb] in Hw.
  destruct (eqb k (KStr any_os)); [|reflexivity]; cbn [andb] in Hw.
  destruct (has (KStr any_version) d); [|discriminate].
  destruct (Nat.eqb (List.length d) 1); reflexivity.
Qed.

Lemma cong n k ps ps' : n <= 3 -> wraps (S n) k (VDict ps) = false ->
  Forall2 (fprog (E n)) ps ps' -> prog (S n) k (VDict ps) (VDict ps').
Proof.
  intros Hn Hw HF.
  pose proof (Forall2_keys (fun k x y => E n k y = E n k x /\ (E n k x = Ok x -> y = x)) ps ps' HF) as Ek.
  assert (Hs : skeys (VDict ps) (VDict ps')) by (simpl; eauto).
  assert (Hw' : wraps (S n) k (VDict ps') = false) by (rewrite (wraps_skeys _ _ _ _ Hs); exact Hw).
  destruct (map_items_prog (E n) ps ps' HF) as [Em Ef].
  split; [|split; [|intros _; exact Hs]].
  - rewrite !E_dict by assumption; unfold special_ok; rewrite Em.
    assert (El : List.length ps' = List.length ps).
    { apply (f_equal (@List.length _)) in Ek; unfold keys in Ek; now rewrite !map_length in Ek. }
    now rewrite El.
  - intros Hfix; rewrite E_dict in Hfix by assumption; f_equal; apply Ef.
    destruct n as [|[|[|[|n]]]]; [| | | |lia]; cbv beta iota in Hfix.
    + destruct (map_items (E 0) ps); cbn [bind] in Hfix; [injection Hfix as ->; reflexivity|discriminate].
    + destruct (special_ok k ps); [|discriminate]; destruct (map_items (E 1) ps); cbn [bind] in Hfix; [injection Hfix as ->; reflexivity|discriminate].
    + apply (proj1 (wrap_err_Ok _ _)) in Hfix; destruct (map_items (E 2) ps); cbn [bind] in Hfix; [injection Hfix as ->; reflexivity|discriminate].
    + destruct (map_items (E 3) ps); cbn [bind] in Hfix; [injection Hfix as ->; reflexivity|discriminate].
Qed.

Lemma E2_wraps k d : wraps 2 k (VDict d) = true ->
  E 2 k (VDict d) = let* y := expand_installer_definition (VDict d) in Ok (VDict [(KStr any_version, y)]).
Proof.
  unfold wraps, any_os_installers; cbn [Nat.eqb andb]; intros Hw; apply andb_prop in Hw; destruct Hw as [Ho Hv].
  cbn [E]; rewrite expand_version_unfold; unfold version_items, items_of; cbn [up_convert]; unfold special_items.
  rewrite Ho; destruct (has (KStr any_version) d); [discriminate|].
  rewrite map_items_cons; destruct (expand_installer_definition (VDict d)); reflexivity.
Qed.

Lemma wraps_prog k k' x y : wraps 2 k x = true -> prog 1 k' x y -> wraps 2 k y = true /\ prog 2 k x y.
Proof.
  intros Hw (He & _ & Hs); specialize (Hs ltac:(lia)).
  assert (Hw' : wraps 2 k y = true) by (rewrite (wraps_skeys _ _ _ _ Hs); exact Hw).
  split; [exact Hw'|].
  destruct x as [| | | | | |d]; try (unfold wraps, any_os_installers in Hw; rewrite andb_false_r in Hw; discriminate).
  simpl in Hs; destruct Hs as (d' & -> & Ek); cbn [E] in He.
  split; [rewrite !E2_wraps by assumption; now rewrite He|].
  split; [|intros _; simpl; eauto].
  intros Hfix; exfalso; rewrite E2_wraps in Hfix by assumption.
  destruct (expand_installer_definition (VDict d)); cbn [bind] in Hfix; [|discriminate].
  inversion Hfix; subst d; unfold wraps, any_os_installers in Hw; cbn [Nat.eqb andb] in Hw.
  apply andb_prop in Hw; destruct Hw as [_ Hw]; discriminate.
Qed.

Lemma E_idem n k x y : wfval x -> E n k x = Ok y -> E n k y = Ok y.
Proof.
  intros Hw He; destruct n as [|[|[|[|n]]]]; cbn [E] in *.
  - eapply expand_definition_idem; eassumption.
  - eapply expand_installer_idem; eassumption.
  - eapply expand_version_idem; eassumption.
  - apply (proj1 (wrap_err_Ok _ _)) in He; apply (proj2 (wrap_err_Ok _ _)); eapply expand_os_idem; eassumption.
  - eapply expand_rules_idem; eassumption.
Qed.

Lemma E2_not_wraps k x y : E 2 k x = Ok y -> wraps 2 k y = false.
Proof.
  cbn [E]; rewrite expand_version_unfold; intros He.
  destruct (version_items k x) as [d|] eqn:Ed; [|discriminate].
  apply bind_Ok in He; destruct He as (d' & Em & He); injection He as <-.
  unfold wraps, any_os_installers; cbn [Nat.eqb andb].
  destruct (eqb k (KStr any_os)) eqn:Ek; [|reflexivity]; cbn [andb].
  destruct (map_items_In _ _ _ Em) as [_ HK]; rewrite (has_keys_eq _ d d' HK).
  unfold version_items in Ed; destruct (items_of any_version x) as [d0|]; [|discriminate].
  unfold special_items in Ed; rewrite Ek in Ed; destruct (has (KStr any_version) d0) eqn:Eh.
  - destruct (Nat.eqb _ 1); [|discriminate]; injection Ed as <-; now rewrite Eh.
  - injection Ed as <-; reflexivity.
Qed.

Lemma not_wraps n k x y : E n k x = Ok y -> wraps n k y = false.
Proof.
  unfold wraps; destruct (Nat.eqb_spec n 2) as [->|]; [|reflexivity]; exact (E2_not_wraps k x y).
Qed.

(** ** Typed values in a heap *)
Definition T (n : nat) : levels -> heap -> hval -> pyval -> Prop :=
  match n with 0 => is_rule | 1 => is_installers | 2 => is_versions | 3 => is_oses | _ => is_file end.
Definition child (n : nat) (k : pkey) (lv : levels) (h : heap) (v : hval) (x : pyval) : Prop :=
  if wraps n k x then is_installers lv h v x else T n lv h v x.
(** Entries of dicts of level [n]. *)
Definition ent (n : nat) : pkey -> levels -> heap -> hval -> pyval -> Prop :=
  match n with 0 => fun _ lv h v x => wfval x /\ plain lv h v x | S m => child m end.
Notation ents n lv h := (Forall2 (fun p q => fst p = fst q /\ ent n (fst p) lv h (snd p) (snd q))).

Lemma T_node n : n <= 4 -> T n = node n (ent n).
Proof. intros Hn; destruct n as [|[|[|[|[|n]]]]]; [reflexivity..|lia]. Qed.

Lemma Forall2_impl {A B} (P Q : A -> B -> Prop) l m : (forall x y, P x y -> Q x y) -> Forall2 P l m -> Forall2 Q l m.
Proof. intros H F; induction F; constructor; auto. Qed.

Definition keeps (S : option nat -> Prop) (lv : levels) (h : heap) (lv' : levels) (h' : heap) : Prop :=
  forall a, a < List.length h -> S (lv a) -> lv' a = lv a /\ nth_error h' a = nth_error h a.
Definition below (n : nat) (o : option nat) : Prop := match o with None => True | Some m => m <= n end.
Definition is_none (o : option nat) : Prop := o = None.

Lemma keeps_impl (S S' : option nat -> Prop) lv h lv' h' : (forall o, S' o -> S o) -> keeps S lv h lv' h' -> keeps S' lv h lv' h'.
Proof. intros H K a Ha Hs; apply K; auto. Qed.

Lemma plain_keep lv h lv' h' v x : keeps is_none lv h lv' h' -> plain lv h v x -> plain lv' h' v x.
Proof.
  intros K; revert v x; fix IH 3; intros v x H; destruct H as [|b|z|t|t|a l vs Hl Hn HF|a d ps Hl Hn HF].
  - constructor.
  - constructor.
  - constructor.
  - constructor.
  - constructor.
  - destruct (K a (nth_error_lt _ _ _ Hn) Hl) as [Hl' Hn'].
    apply PList with (l := l); [congruence|congruence|].
    clear Hn Hn'; induction HF as [|y z l vs Hy HF IHF]; [constructor|]; constructor; [apply IH; exact Hy|exact IHF].
  - destruct (K a (nth_error_lt _ _ _ Hn) Hl) as [Hl' Hn'].
    apply PDict with (d := d); [congruence|congruence|].
    clear Hn Hn'; induction HF as [|y z d ps [Hk Hy] HF IHF]; [constructor|]; constructor; [split; [exact Hk|apply IH; exact Hy]|exact IHF].
Qed.

Lemma node_keep n (P : pkey -> levels -> heap -> hval -> pyval -> Prop) lv h lv' h' v x :
  keeps (fun o => o = None \/ o = Some n) lv h lv' h' ->
  (forall k v x, P k lv h v x -> P k lv' h' v x) -> node n P lv h v x -> node n P lv' h' v x.
Proof.
  intros K HP [(Hd & Hw & H)|(a & d & ps & -> & -> & Hl & Hn & Hw & HF)].
  - left; split; [exact Hd|]; split; [exact Hw|]; eapply plain_keep; [|exact H]; eapply keeps_impl; [|exact K].
    intros o Ho; left; exact Ho.
  - right; exists a, d, ps; destruct (K a (nth_error_lt _ _ _ Hn) (or_intror Hl)) as [Hl' Hn'].
    split; [reflexivity|]; split; [reflexivity|]; split; [congruence|]; split; [congruence|]; split; [exact Hw|].
    eapply Forall2_impl; [|exact HF]; intros p q [Hk Hp]; split; [exact Hk|apply HP; exact Hp].
Qed.

Lemma T_child_keep lv h lv' h' : forall n, n <= 4 -> keeps (below n) lv h lv' h' ->
  (forall v x, T n lv h v x -> T n lv' h' v x) /\ (forall k v x, child n k lv h v x -> child n k lv' h' v x).
Proof.
  assert (HT : forall n, n <= 4 -> keeps (below n) lv h lv' h' -> forall v x, T n lv h v x -> T n lv' h' v x).
  { enough (Hall : forall m n, n <= m -> n <= 4 -> keeps (below n) lv h lv' h' -> forall v x, T n lv h v x -> T n lv' h' v x) by eauto.
    induction m as [|m IH]; intros n Hm Hn K v x; rewrite !T_node by exact Hn; apply node_keep.
    - eapply keeps_impl; [|exact K]; intros o [-> | ->]; simpl; auto.
    - assert (n = 0) as -> by lia; intros k w y [Hw Hp]; split; [exact Hw|].
      eapply plain_keep; [|exact Hp]; eapply keeps_impl; [|exact K]; intros o ->; simpl; auto.
    - eapply keeps_impl; [|exact K]; intros o [-> | ->]; simpl; auto.
    - destruct n as [|n]; cbn [ent].
      + intros k w y [Hw Hp]; split; [exact Hw|].
        eapply plain_keep; [|exact Hp]; eapply keeps_impl; [|exact K]; intros o ->; simpl; auto.
      + intros k w y; unfold child; destruct (wraps n k y) eqn:Ew.
        * unfold wraps in Ew; destruct (Nat.eqb_spec n 2) as [->|]; [|discriminate].
          apply (IH 1); [lia|lia|]; eapply keeps_impl; [|exact K]; intros [o|]; simpl; lia.
        * apply (IH n); [lia|lia|]; eapply keeps_impl; [|exact K]; intros [o|]; simpl; lia. }
  intros n Hn K; split; [apply HT; assumption|]; intros k v x; unfold child; destruct (wraps n k x) eqn:Ew.
  - unfold wraps in Ew; destruct (Nat.eqb_spec n 2) as [->|]; [|discriminate].
    apply (HT 1); [lia|]; eapply keeps_impl; [|exact K]; intros [o|]; simpl; lia.
  - apply HT; assumption.
Qed.

Lemma ent_keep n k lv h lv' h' v x : n <= 4 ->
  keeps (fun o => match o with None => True | Some m => m < n end) lv h lv' h' -> ent n k lv h v x -> ent n k lv' h' v x.
Proof.
  intros Hn K; destruct n as [|n]; cbn [ent].
  - intros [Hw Hp]; split; [exact Hw|]; eapply plain_keep; [|exact Hp]; eapply keeps_impl; [|exact K]; intros o ->; simpl; auto.
  - apply T_child_keep; [lia|]; eapply keeps_impl; [|exact K]; intros [o|]; simpl; lia.
Qed.

(** Reading. *)
Lemma plain_reads lv h v x : plain lv h v x -> reads h v x.
Proof.
  revert v x; fix IH 3; intros v x H; destruct H as [|b|z|t|t|a l vs Hl Hn HF|a d ps Hl Hn HF].
  - constructor.
  - constructor.
  - constructor.
  - constructor.
  - constructor.
  - apply RList with (l := l); [exact Hn|].
    clear Hn; induction HF as [|y z l vs Hy HF IHF]; [constructor|]; constructor; [apply IH; exact Hy|exact IHF].
  - apply RDict with (d := d); [exact Hn|].
    clear Hn; induction HF as [|y z d ps [Hk Hy] HF IHF]; [constructor|]; constructor; [split; [exact Hk|apply IH; exact Hy]|exact IHF].
Qed.

Lemma reads_det h v x : reads h v x -> forall y, reads h v y -> x = y.
Proof.
  revert v x; fix IH 3; intros v x H; destruct H as [|b|z|t|t|a l vs Hn HF|a d ps Hn HF]; intros y Hy;
    inversion Hy as [| | | | |a' l' vs' Hn' HF'|a' d' ps' Hn' HF']; subst; try reflexivity; try congruence.
  - rewrite Hn in Hn'; inversion Hn'; subst l'; f_equal.
    clear Hn Hn' Hy; revert vs' HF'; induction HF as [|w z l vs Hw HF IHF]; intros vs' HF'; inversion HF'; subst; [reflexivity|].
    f_equal; [eapply IH; eassumption|apply IHF; assumption].
  - rewrite Hn in Hn'; inversion Hn'; subst d'; f_equal.
    clear Hn Hn' Hy; revert ps' HF'; induction HF as [|w z d ps [Hk Hw] HF IHF]; intros ps' HF'; inversion HF' as [|w' z' ? ? [Hk' Hw']]; subst; [reflexivity|].
    f_equal; [destruct z, z'; simpl in *; f_equal; [congruence|eapply IH; eassumption]|apply IHF; assumption].
Qed.

Lemma T_reads_wf lv h : forall m n v x, n <= m -> n <= 4 -> T n lv h v x -> reads h v x /\ wfval x.
Proof.
  induction m as [|m IH]; intros n v x Hm Hn; rewrite T_node by exact Hn; intros [(_ & Hw & H)|(a & d & ps & -> & -> & Hl & Hnth & Hw & HF)].
  1, 3: split; [eapply plain_reads; exact H|exact Hw].
  all: assert (HF' : Forall2 (fun p q => fst p = fst q /\ (reads h (snd p) (snd q) /\ wfval (snd q))) d ps).
  1, 3: eapply Forall2_impl; [|exact HF]; intros p q [Hk Hp]; split; [exact Hk|].
  - assert (n = 0) as -> by lia; destruct Hp as [Hwp Hp]; split; [eapply plain_reads; exact Hp|exact Hwp].
  - destruct n as [|n]; cbn [ent] in Hp.
    + destruct Hp as [Hwp Hp]; split; [eapply plain_reads; exact Hp|exact Hwp].
    + unfold child in Hp; destruct (wraps n (fst p) (snd q)) eqn:Ew.
      * unfold wraps in Ew; destruct (Nat.eqb_spec n 2) as [->|]; [|discriminate].
        apply (IH 1); [lia|lia|exact Hp].
      * apply (IH n); [lia|lia|exact Hp].
  - split.
    + apply RDict with (d := d); [exact Hnth|]; eapply Forall2_impl; [|exact HF']; intros p q (Hk & Hr & _); auto.
    + apply wfval_dict; split.
      * clear -Hw HF'; unfold wf in *; replace (keys ps) with (keys d); [exact Hw|].
        clear Hw; induction HF' as [|p q d ps (Hk & _) HF IH]; [reflexivity|]; unfold keys in *; simpl; congruence.
      * clear -HF'; induction HF' as [|p q d ps (_ & _ & Hq) HF IH]; constructor; auto.
  - split.
    + apply RDict with (d := d); [exact Hnth|]; eapply Forall2_impl; [|exact HF']; intros p q (Hk & Hr & _); auto.
    + apply wfval_dict; split.
      * clear -Hw HF'; unfold wf in *; replace (keys ps) with (keys d); [exact Hw|].
        clear Hw; induction HF' as [|p q d ps (Hk & _) HF IH]; [reflexivity|]; unfold keys in *; simpl; congruence.
      * clear -HF'; induction HF' as [|p q d ps (_ & _ & Hq) HF IH]; constructor; auto.
Qed.

Lemma child_reads_wf n k lv h v x : n <= 4 -> child n k lv h v x -> reads h v x /\ wfval x.
Proof.
  intros Hn; unfold child; destruct (wraps n k x); intros H.
  - apply (T_reads_wf lv h 4 1); [lia|lia|exact H].
  - apply (T_reads_wf lv h 4 n); [exact Hn|exact Hn|exact H].
Qed.

(** ** Progress of everything when something is expanded *)
Definition Tprog (n : nat) lv h lv' h' : Prop :=
  forall k v x, wraps n k x = false -> T n lv h v x -> exists y, T n lv' h' v y /\ prog n k x y.
Definition Cprog (n : nat) lv h lv' h' : Prop :=
  forall k v x, child n k lv h v x -> exists y, child n k lv' h' v y /\ prog n k x y.

Lemma prog_plain n k x y lv h v : T n lv h v x -> (forall d, x <> VDict d) -> prog n k x y -> 0 < n -> y = x.
Proof.
  intros _ Hd (_ & _ & Hs) Hn; specialize (Hs Hn); destruct x; simpl in Hs; try exact Hs.
  exfalso; eapply Hd; reflexivity.
Qed.

Lemma Cprog_of_T n lv h lv' h' : Tprog n lv h lv' h' -> (n = 2 -> Tprog 1 lv h lv' h') -> Cprog n lv h lv' h'.
Proof.
  intros HT H1 k v x; unfold child; destruct (wraps n k x) eqn:Ew; intros H.
  - assert (n = 2) as -> by (unfold wraps in Ew; destruct (Nat.eqb_spec n 2); [assumption|discriminate]).
    destruct (H1 eq_refl k v x eq_refl H) as (y & Hy & Hp).
    destruct (wraps_prog k k x y Ew Hp) as [Ew' Hp2].
    exists y; rewrite Ew'; auto.
  - destruct (HT k v x Ew H) as (y & Hy & Hp); exists y; split; [|exact Hp].
    enough (Ew' : wraps n k y = false) by (rewrite Ew'; exact Hy).
    destruct Hp as (_ & _ & Hs); destruct n as [|n]; [reflexivity|].
    rewrite (wraps_skeys _ _ _ _ (Hs ltac:(lia))); exact Ew.
Qed.

Lemma lift_prog n lv h lv' h' : n <= 3 -> Cprog n lv h lv' h' ->
  keeps (fun o => o = None \/ o = Some (S n)) lv h lv' h' -> Tprog (S n) lv h lv' h'.
Proof.
  intros Hn HC K k v x Ew; rewrite T_node by lia; intros [(Hd & Hw & H)|(a & d & ps & -> & -> & Hl & Hnth & Hw & HF)].
  - exists x; split; [|apply prog_refl]; left; split; [exact Hd|]; split; [exact Hw|].
    eapply plain_keep; [|exact H]; eapply keeps_impl; [|exact K]; intros o Ho; left; exact Ho.
  - destruct (K a (nth_error_lt _ _ _ Hnth) (or_intror Hl)) as [Hl' Hn'].
    assert (HX : exists ps', ents (S n) lv' h' d ps' /\
              Forall2 (fprog (E n)) ps ps').
    { clear -HF HC; induction HF as [|[k w] [k' x] d ps [Hk Hp] HF (ps' & IH1 & IH2)].
      - exists []; split; constructor.
      - cbn [fst snd ent] in *; subst k'; destruct (HC k w x Hp) as (y & Hy & He & Hf & _).
        exists ((k, y) :: ps'); split; constructor; cbn [fst snd]; auto. }
    destruct HX as (ps' & HF' & HP).
    exists (VDict ps'); split; [|apply cong; assumption].
    right; exists a, d, ps'; split; [reflexivity|]; split; [reflexivity|]; split; [congruence|]; split; [congruence|]; auto.
Qed.

Definition above (n : nat) (o : option nat) : Prop := match o with None => True | Some m => n < m end.

(** Only dicts of level [n] and lower have changed, in the way of an expansion. *)
Definition ext (n : nat) lv h lv' h' : Prop :=
  List.length h <= List.length h' /\ (forall a, a < List.length h -> lv' a = lv a) /\
  keeps (above n) lv h lv' h' /\ forall m, m <= 4 -> Cprog m lv h lv' h'.

Lemma keeps_trans (P : option nat -> Prop) lv h lv1 h1 lv2 h2 : List.length h <= List.length h1 ->
  keeps P lv h lv1 h1 -> keeps P lv1 h1 lv2 h2 -> keeps P lv h lv2 h2.
Proof.
  intros L K1 K2 a Ha Hp; destruct (K1 a Ha Hp) as [E1 N1]; destruct (K2 a ltac:(lia)) as [E2 N2]; [now rewrite E1|].
  split; congruence.
Qed.

Lemma ext_trans n lv h lv1 h1 lv2 h2 : ext n lv h lv1 h1 -> ext n lv1 h1 lv2 h2 -> ext n lv h lv2 h2.
Proof.
  intros (L1 & V1 & K1 & P1) (L2 & V2 & K2 & P2); split; [lia|]; split.
  - intros a Ha; rewrite V2 by lia; apply V1; exact Ha.
  - split; [eapply keeps_trans; eassumption|].
    intros m Hm k v x H; destruct (P1 m Hm k v x H) as (y & Hy & Hp); destruct (P2 m Hm k v y Hy) as (z & Hz & Hq).
    exists z; split; [exact Hz|eapply prog_trans; eassumption].
Qed.

Lemma ext_weaken n m lv h lv' h' : n <= m -> ext n lv h lv' h' -> ext m lv h lv' h'.
Proof.
  intros Hm (L & V & K & P); split; [exact L|]; split; [exact V|]; split; [|exact P].
  eapply keeps_impl; [|exact K]; intros [o|]; simpl; lia.
Qed.

Lemma ext_refl n lv h : ext n lv h lv h.
Proof.
  split; [lia|]; split; [auto|]; split; [intros a _ _; auto|].
  intros m _ k v x H; exists x; split; [exact H|apply prog_refl].
Qed.

(** New objects. *)
Definition with_new (lv : levels) (h : heap) (o : option nat) : levels :=
  fun b => if Nat.eqb b (List.length h) then o else lv b.
Lemma ext_alloc n lv h o (x : obj) : ext n lv h (with_new lv h o) (h ++ [x]).
Proof.
  assert (K : keeps (fun _ => True) lv h (with_new lv h o) (h ++ [x])).
  { intros a Ha _; unfold with_new; destruct (Nat.eqb_spec a (List.length h)); [lia|].
    split; [reflexivity|]; apply nth_error_app1; exact Ha. }
  split; [rewrite app_length; simpl; lia|]; split; [intros a Ha; apply K; auto|]; split; [eapply keeps_impl; [|exact K]; intros ? ?; exact I|].
  intros m Hm k v y H; exists y; split; [|apply prog_refl].
  eapply (proj2 (T_child_keep lv h _ _ m Hm ltac:(eapply keeps_impl; [|exact K]; intros ? ?; exact I))); exact H.
Qed.
Lemma with_new_eq lv h o : with_new lv h o (List.length h) = o.
Proof. unfold with_new; now rewrite Nat.eqb_refl. Qed.
Lemma nth_new (h : heap) (x : obj) : nth_error (h ++ [x]) (List.length h) = Some x.
Proof. rewrite nth_error_app2, Nat.sub_diag by lia; reflexivity. Qed.

(** One object of level [n] changes. *)
Lemma ext_write n lv h a d d' : n <= 4 -> lv a = Some n -> nth_error h a = Some (ODict d) -> wf d' ->
  (forall k qs, ents n lv h d qs -> wraps n k (VDict qs) = false ->
     exists qs', ents n lv h d' qs' /\ prog n k (VDict qs) (VDict qs')) ->
  ext n lv h lv (update_nth h a (ODict d')).
Proof.
  intros Hn Hl Hnth Hw H; set (h' := update_nth h a (ODict d')).
  assert (K : keeps (fun o => o <> Some n) lv h lv h').
  { intros b Hb Ho; split; [reflexivity|]; unfold h'; rewrite nth_update; destruct (Nat.eqb_spec a b); [congruence|reflexivity]. }
  split; [unfold h'; rewrite length_update; lia|]; split; [auto|]; split.
  { eapply keeps_impl; [|exact K]; intros o Ho ->; simpl in Ho; lia. }
  assert (HT : forall i m, m <= i -> m <= 4 -> Tprog m lv h lv h').
  { induction i as [|i IH]; intros m Hi Hm; (destruct (Nat.eq_dec n m) as [<-|Hne];
      [clear IH || idtac|]).
    1, 3: intros k v x Ew; rewrite T_node by exact Hn;
      intros [(Hd & Hwx & Hp)|(b & e & ps & -> & -> & Hlb & Hnb & Hwe & HF)];
      [exists x; split; [|apply prog_refl]; left; split; [exact Hd|]; split; [exact Hwx|];
       eapply plain_keep; [|exact Hp]; eapply keeps_impl; [|exact K]; intros o ->; discriminate
      |destruct (Nat.eq_dec a b) as [->|Hab];
       [rewrite Hnth in Hnb; inversion Hnb; subst e;
        destruct (H k ps HF Ew) as (qs' & HF' & Hp); exists (VDict qs'); split; [|exact Hp];
        right; exists b, d', qs'; split; [reflexivity|]; split; [reflexivity|]; split; [exact Hlb|];
        split; [unfold h'; rewrite nth_update, Nat.eqb_refl, Hnth; reflexivity|]; split; [exact Hw|];
        eapply Forall2_impl; [|exact HF']
       |exists (VDict ps); split; [|apply prog_refl];
        right; exists b, e, ps; split; [reflexivity|]; split; [reflexivity|]; split; [exact Hlb|];
        split; [unfold h'; rewrite nth_update; destruct (Nat.eqb_spec a b); [contradiction|exact Hnb]|]; split; [exact Hwe|];
        eapply Forall2_impl; [|exact HF]]; 
       intros p q [Hk Hq]; (split; [exact Hk|]);
       (eapply ent_keep; [exact Hn| |exact Hq]); (eapply keeps_impl; [|exact K]);
       (intros [o|] Ho; [intros Heq; inversion Heq; lia|discriminate])].
    - assert (m = 0) as -> by lia.
      intros k v x Ew HTx; exists x; split; [|apply prog_refl].
      eapply (proj1 (T_child_keep lv h lv h' 0 ltac:(lia) ltac:(eapply keeps_impl; [|exact K]; intros [o|] Ho; [simpl in Ho; intros Heq; inversion Heq; lia|discriminate]))); exact HTx.
    - destruct m as [|m].
      + apply IH; [lia|exact Hm].
      + apply lift_prog; [lia| |].
        * apply Cprog_of_T; [apply IH; lia|intros ->; apply IH; lia].
        * eapply keeps_impl; [|exact K]; intros o [-> | ->]; congruence. }
  intros m Hm; apply Cprog_of_T; [apply (HT 4); lia|intros _; apply (HT 4); lia].
Qed.

(** ** The loops *)
Definition f (n : nat) (k : pkey) (v : hval) : hm hval :=
  match n with
  | 0 => h_expand_definition v
  | 1 => h_expand_installer_definition v
  | 2 => h_expand_os_version_definition k v
  | 3 => h_wrap_err (h_expand_os_definition v)
  | _ => h_expand_rules v
  end.

Definition Sim (n : nat) : Prop := forall k lv h v x, child n k lv h v x ->
  match E n k x with
  | Ok y => exists lv' h' v', f n k v h = (Ok v', h') /\ ext n lv h lv' h' /\ T n lv' h' v' y
  | Err e => exists h', f n k v h = (Err e, h')
  end.

Lemma set_mid {V} (k : pkey) (v w : V) (pre rest : dict pkey V) : wf (pre ++ (k, w) :: rest) ->
  set k v (pre ++ (k, w) :: rest) = pre ++ (k, v) :: rest.
Proof.
  induction pre as [|[k1 v1] pre IH]; intros Hw; simpl in *.
  - rewrite Dict.set_cons; destruct (eqb_spec k k) as [_|Hne]; [reflexivity|contradiction].
  - rewrite Dict.set_cons; inversion Hw as [|? ? Hin Hw']; subst.
    destruct (eqb_spec k k1) as [Heq|Hne].
    + exfalso; apply Hin; subst; unfold keys; rewrite map_app; apply in_or_app; right; left; reflexivity.
    + f_equal; apply IH; exact Hw'.
Qed.

Lemma ents_prog n lv h lv' h' d ps : Cprog n lv h lv' h' -> ents (S n) lv h d ps ->
  exists ps', ents (S n) lv' h' d ps' /\ Forall2 (fprog (E n)) ps ps'.
Proof.
  intros HC HF; induction HF as [|[k w] [k' x] d ps [Hk Hp] HF (ps' & IH1 & IH2)].
  - exists []; split; constructor.
  - cbn [fst snd ent] in *; subst k'; destruct (HC k w x Hp) as (y & Hy & He & Hf & _).
    exists ((k, y) :: ps'); split; constructor; cbn [fst snd]; auto.
Qed.

Lemma fprog_fixed (F : pkey -> pyval -> res pyval) ps ps' : Forall2 (fprog F) ps ps' ->
  (forall k y, In (k, y) ps -> F k y = Ok y) -> ps' = ps.
Proof.
  intros H; induction H as [|[k x] [k' y] ps ps' (Hk & _ & Hf) H IH]; intros Hfix; [reflexivity|]; cbn [fst snd] in *; subst k'.
  rewrite (Hf (Hfix k x (or_introl eq_refl))), IH; [reflexivity|].
  intros k0 y0 Hin; apply Hfix; right; exact Hin.
Qed.

Lemma loop_sim n a : n <= 3 -> Sim n -> forall rest pre zpre zs lv h,
  lv a = Some (S n) -> nth_error h a = Some (ODict (pre ++ rest)) -> wf (pre ++ rest) ->
  ents (S n) lv h pre zpre -> (forall k y, In (k, y) zpre -> E n k y = Ok y) -> ents (S n) lv h rest zs ->
  match map_items (E n) zs with
  | Ok zs' => exists lv' h' d',
      hfor rest (fun p => do x <- f n (fst p) (snd p); hset (HRef a) (fst p) x) h = (Ok tt, h') /\
      ext (S n) lv h lv' h' /\ lv' a = Some (S n) /\ nth_error h' a = Some (ODict d') /\ wf d' /\
      ents (S n) lv' h' d' (zpre ++ zs')
  | Err e => exists h', hfor rest (fun p => do x <- f n (fst p) (snd p); hset (HRef a) (fst p) x) h = (Err e, h')
  end.
Proof.
  intros Hn HS; induction rest as [|[k w] rest IH]; intros pre zpre zs lv h Hl Hnth Hw Hpre Hfix Hrest.
  - inversion Hrest; subst; exists lv, h, pre; rewrite app_nil_r in *; split; [reflexivity|]; split; [apply ext_refl|]; auto.
  - inversion Hrest as [|? [k' z] ? zs0 [Hk Hc] Hrest0]; subst; cbn [fst snd ent] in *; subst k'.
    rewrite map_items_cons; pose proof (HS k lv h w z Hc) as Hsim.
    destruct (child_reads_wf n k lv h w z ltac:(lia) Hc) as [_ Hwz].
    destruct (E n k z) as [y|e] eqn:Ey; cbn [bind].
    + destruct Hsim as (lv1 & h1 & v' & Ef & Hext & HT).
      pose proof Hext as (L1 & V1 & K1 & P1).
      destruct (K1 a (nth_error_lt _ _ _ Hnth)) as [Hl1 Hnth1]; [rewrite Hl; simpl; lia|].
      rewrite Hl in Hl1; rewrite Hnth in Hnth1.
      destruct (ents_prog n lv h lv1 h1 pre zpre (P1 n ltac:(lia)) Hpre) as (zpre1 & Hpre1 & Hfp).
      pose proof (fprog_fixed (E n) zpre zpre1 Hfp Hfix) as ->.
      destruct (ents_prog n lv h lv1 h1 rest zs0 (P1 n ltac:(lia)) Hrest0) as (zs1 & Hrest1 & Hzs).
      destruct (map_items_prog (E n) zs0 zs1 Hzs) as [Em _].
      destruct (P1 n ltac:(lia) k w z Hc) as (z1 & Hc1 & Ez1 & _ & _).
      assert (Hc' : child n k lv1 h1 v' y) by (unfold child; rewrite (not_wraps n k z y Ey); exact HT).
      pose proof (E_idem n k z y Hwz Ey) as Eyy.
      set (d1 := pre ++ (k, v') :: rest).
      assert (Hw1 : wf d1).
      { unfold wf, d1, keys in *; rewrite map_app in *; exact Hw. }
      set (h2 := update_nth h1 a (ODict d1)).
      assert (Hext2 : ext (S n) lv1 h1 lv1 h2).
      { apply (ext_write (S n) lv1 h1 a (pre ++ (k, w) :: rest) d1); [lia|exact Hl1|exact Hnth1|exact Hw1|].
        intros k0 qs Hqs Hwr; apply Forall2_app_inv_l in Hqs; destruct Hqs as (q1 & q2 & Hq1 & Hq2 & ->).
        inversion Hq2 as [|? [kq zq] ? q3 [Hkq Hcq] Hq3]; subst; cbn [fst snd ent] in *; subst kq.
        assert (zq = z1) as ->.
        { destruct (child_reads_wf n k lv1 h1 w zq ltac:(lia) Hcq) as [R1 _].
          destruct (child_reads_wf n k lv1 h1 w z1 ltac:(lia) Hc1) as [R2 _].
          exact (reads_det h1 w zq R1 z1 R2). }
        exists (q1 ++ (k, y) :: q3); split.
        - apply Forall2_app; [exact Hq1|]; constructor; [split; [reflexivity|exact Hc']|exact Hq3].
        - apply cong; [exact Hn|exact Hwr|]; apply Forall2_app.
          + clear; induction q1 as [|p q1 IH]; constructor; auto.
          + constructor; cbn [fst snd].
            * split; [reflexivity|]; split; [congruence|]; intros Hz1; congruence.
            * clear; induction q3 as [|p q3 IH]; constructor; auto. }
      assert (K2 : keeps (below n) lv1 h1 lv1 h2).
      { intros b Hb Ho; split; [reflexivity|]; unfold h2; rewrite nth_update.
        destruct (Nat.eqb_spec a b); [subst; rewrite Hl1 in Ho; simpl in Ho; lia|reflexivity]. }
      assert (Kent : forall d qs, ents (S n) lv1 h1 d qs -> ents (S n) lv1 h2 d qs).
      { intros d qs HF; eapply Forall2_impl; [|exact HF]; intros p q [Hkp Hp]; split; [exact Hkp|].
        cbn [ent] in *; apply (proj2 (T_child_keep lv1 h1 lv1 h2 n ltac:(lia) K2)); exact Hp. }
      assert (Hstep : (do x <- f n k w; hset (HRef a) k x) h = (Ok tt, h2)).
      { unfold hbind at 1; rewrite Ef; unfold hset, hbind, items; rewrite Hnth1; unfold write; fold h2.
        rewrite set_mid by exact Hw; reflexivity. }
      specialize (IH (pre ++ [(k, v')]) (zpre ++ [(k, y)]) zs1 lv1 h2 Hl1).
      assert (Happ : (pre ++ [(k, v')]) ++ rest = d1) by (unfold d1; rewrite <- app_assoc; reflexivity).
      rewrite Happ in IH; cbn [hfor fst snd]; unfold hbind at 1; rewrite Hstep; rewrite <- Em.
      assert (Hn2 : nth_error h2 a = Some (ODict d1)) by (unfold h2; rewrite nth_update, Nat.eqb_refl, Hnth1; reflexivity).
      assert (Hpre2 : ents (S n) lv1 h2 (pre ++ [(k, v')]) (zpre ++ [(k, y)])).
      { apply Kent; apply Forall2_app; [exact Hpre1|]; constructor; [split; [reflexivity|exact Hc']|constructor]. }
      assert (Hfix2 : forall k0 y0, In (k0, y0) (zpre ++ [(k, y)]) -> E n k0 y0 = Ok y0).
      { intros k0 y0 Hin; apply in_app_iff in Hin; destruct Hin as [Hin|[Heq|[]]]; [apply Hfix; exact Hin|].
        inversion Heq; subst; exact Eyy. }
      specialize (IH Hn2 Hw1 Hpre2 Hfix2 (Kent _ _ Hrest1)).
      destruct (map_items (E n) zs1) as [zs'|e]; cbn [bind].
      * destruct IH as (lv3 & h3 & d3 & E3 & X3 & L3 & N3 & W3 & F3).
        exists lv3, h3, d3; split; [exact E3|]; split.
        { eapply ext_trans; [eapply ext_weaken; [|exact Hext]; lia|]; eapply ext_trans; eassumption. }
        rewrite <- app_assoc in F3; auto.
      * destruct IH as (h3 & E3); exists h3; unfold hbind at 1; rewrite Hstep; exact E3.
    + destruct Hsim as (h1 & Ef); exists h1; cbn [hfor fst snd]; unfold hbind at 1; unfold hbind at 1; rewrite Ef; reflexivity.
Qed.

(** ** Rules, level 0 *)
Definition opt1 (p : pkey * pyval) : pydict :=
  if eqb (fst p) k_packages then [(fst p, up_convert (snd p))]
  else if eqb (fst p) k_depends then
    (if pyeq (up_convert (snd p)) (VList []) then [] else [(fst p, up_convert (snd p))])
  else [p].

Lemma options_pointwise d : wf d -> expand_depends (expand_packages d) = flat_map opt1 d.
Proof.
  intros Hw; apply (options_mean_det d); [apply options_mean_expand; exact Hw|].
  clear Hw; induction d as [|[k x] d IH]; [constructor|]; cbn [flat_map]; unfold opt1 at 1; cbn [fst snd].
  destruct (eqb_spec k k_packages) as [->|Hp].
  - apply om_packages; [apply up_convert_listed|exact IH].
  - destruct (eqb_spec k k_depends) as [->|Hd].
    + destruct (pyeq (up_convert x) (VList [])) eqn:Ep.
      * apply pyeq_list_nil_r in Ep; apply om_no_depends; [rewrite <- Ep; apply up_convert_listed|exact IH].
      * apply om_depends; [apply up_convert_listed| |exact IH].
        intros Hn; apply pyeq_list_nil_r in Hn; congruence.
    + apply om_other; assumption.
Qed.

Lemma E0_dict k d : wf d -> E 0 k (VDict d) = Ok (VDict (flat_map opt1 d)).
Proof. intros Hw; cbn [E]; unfold expand_definition; cbn [up_convert]; now rewrite options_pointwise. Qed.

Lemma opt1_length p : List.length (opt1 p) <= 1.
Proof. unfold opt1; destruct (eqb (fst p) k_packages); [simpl; lia|]; destruct (eqb (fst p) k_depends); [|simpl; lia]; destruct (pyeq _ _); simpl; lia. Qed.
Lemma opt1_total d : List.length (flat_map opt1 d) <= List.length d.
Proof. induction d as [|p d IH]; [simpl; lia|]; cbn [flat_map]; rewrite app_length; pose proof (opt1_length p); simpl; lia. Qed.

Lemma opt1_fixed d : flat_map opt1 d = d -> forall p, In p d -> opt1 p = [p].
Proof.
  induction d as [|q d IH]; intros Hf p Hin; [destruct Hin|]; cbn [flat_map] in Hf.
  pose proof (opt1_length q) as Hl; pose proof (opt1_total d) as Ht.
  pose proof (f_equal (@List.length _) Hf) as Hlen; rewrite app_length in Hlen; simpl in Hlen.
  destruct (opt1 q) as [|q' [|]] eqn:Eq; simpl in *; try lia.
  inversion Hf as [[Hq Hd]]; destruct Hin as [<-|Hin].
  - rewrite Eq; f_equal; exact Hq.
  - apply IH; [exact Hd|exact Hin].
Qed.

(** An entry of a rule is replaced or dropped. *)
Lemma ext_option lv h a pre k w rest x mid mids :
  lv a = Some 0 -> nth_error h a = Some (ODict (pre ++ (k, w) :: rest)) -> wf (pre ++ (k, w) :: rest) ->
  wf (pre ++ mid ++ rest) -> wfval x -> plain lv h w x -> ents 0 lv h mid mids -> (mids = [] \/ exists y, mids = [(k, y)]) ->
  flat_map opt1 mids = opt1 (k, x) -> (opt1 (k, x) = [(k, x)] -> mids = [(k, x)]) ->
  ext 0 lv h lv (update_nth h a (ODict (pre ++ mid ++ rest))).
Proof.
  intros Hl Hn Hw Hw' Hwx Hx Hmid Hmids Ho Hfix.
  apply (ext_write 0 lv h a (pre ++ (k, w) :: rest)); [lia|exact Hl|exact Hn|exact Hw'|].
  intros k0 qs Hqs _; apply Forall2_app_inv_l in Hqs; destruct Hqs as (q1 & q2 & Hq1 & Hq2 & ->).
  inversion Hq2 as [|? [kq zq] ? q3 [Hkq [Hwq Hcq]] Hq3]; subst; cbn [fst snd] in *; subst kq.
  assert (zq = x) as -> by (eapply reads_det; eapply plain_reads; eassumption).
  assert (Hents : ents 0 lv h (pre ++ mid ++ rest) (q1 ++ mids ++ q3)).
  { apply Forall2_app; [exact Hq1|]; apply Forall2_app; [exact Hmid|exact Hq3]. }
  assert (Hkeys : forall d ps, ents 0 lv h d ps -> keys ps = keys d).
  { clear; intros d ps HF; induction HF as [|p q d ps (Hk & _) HF IH]; [reflexivity|]; unfold keys in *; simpl; congruence. }
  assert (W1 : wf (q1 ++ (k, x) :: q3)).
  { unfold wf; rewrite (Hkeys (pre ++ (k, w) :: rest)); [exact Hw|].
    apply Forall2_app; [exact Hq1|exact Hq2]. }
  assert (W2 : wf (q1 ++ mids ++ q3)) by (unfold wf; rewrite (Hkeys _ _ Hents); exact Hw').
  exists (q1 ++ mids ++ q3); split; [exact Hents|].
  split; [|split; [|lia]].
  - rewrite !E0_dict by assumption; rewrite !flat_map_app; cbn [flat_map]; now rewrite Ho.
  - rewrite E0_dict by assumption; intros Hf; injection Hf as Hf.
    rewrite Hfix; [reflexivity|]; apply (opt1_fixed _ Hf); apply in_or_app; right; left; reflexivity.
Qed.

Lemma get_split {V} (k : pkey) (d : dict pkey V) v : get k d = Some v -> exists pre rest, d = pre ++ (k, v) :: rest.
Proof. intros H; apply get_In, in_split in H; exact H. Qed.

Lemma del_mid {V} (k : pkey) (w : V) (pre rest : dict pkey V) : wf (pre ++ (k, w) :: rest) ->
  del k (pre ++ (k, w) :: rest) = pre ++ rest.
Proof.
  assert (Hfresh : forall d : dict pkey V, ~ In k (keys d) -> del k d = d).
  { clear; induction d as [|[k1 v1] d IH]; intros Hin; [reflexivity|]; unfold del in *; simpl in *.
    destruct (eqb_spec k k1) as [->|]; [exfalso; apply Hin; left; reflexivity|]; simpl; f_equal; apply IH; tauto. }
  induction pre as [|[k1 v1] pre IH]; intros Hw; simpl in *.
  - inversion Hw as [|? ? Hin Hw']; subst; unfold del; simpl; destruct (eqb_spec k k) as [_|Hne]; [|contradiction]; simpl.
    apply Hfresh; exact Hin.
  - inversion Hw as [|? ? Hin Hw']; subst; unfold del in *; simpl.
    destruct (eqb_spec k k1) as [Heq|Hne].
    + exfalso; apply Hin; subst; unfold keys; rewrite map_app; apply in_or_app; right; left; reflexivity.
    + simpl; f_equal; apply IH; exact Hw'.
Qed.

Lemma ents_keys n lv h d ps : ents n lv h d ps -> keys ps = keys d.
Proof. intros HF; induction HF as [|p q d ps (Hk & _) HF IH]; [reflexivity|]; unfold keys in *; simpl; congruence. Qed.

Lemma ents_get n lv h d ps k : ents n lv h d ps ->
  match get k d with
  | Some w => exists x pre rest q1 q2, get k ps = Some x /\ d = pre ++ (k, w) :: rest /\ ps = q1 ++ (k, x) :: q2 /\
      ents n lv h pre q1 /\ ents n lv h rest q2 /\ ent n k lv h w x
  | None => get k ps = None
  end.
Proof.
  intros HF; induction HF as [|[k1 w] [k2 x] d ps [Hk Hp] HF IH]; [reflexivity|]; cbn [fst snd] in *; subst k2.
  rewrite !get_cons; destruct (eqb_spec k k1) as [->|Hne].
  - exists x, [], d, [], ps; split; [reflexivity|]; split; [reflexivity|]; split; [reflexivity|]; split; [constructor|]; auto.
  - destruct (get k d) as [w'|]; [|exact IH].
    destruct IH as (x' & pre & rest & q1 & q2 & Hg & -> & -> & H1 & H2 & H3).
    exists x', ((k1, w) :: pre), rest, ((k1, x) :: q1), q2; split; [exact Hg|]; split; [reflexivity|]; split; [reflexivity|].
    split; [constructor; auto|]; auto.
Qed.

Lemma ents_keep n lv h lv' h' d ps : n <= 4 ->
  keeps (fun o => match o with None => True | Some m => m < n end) lv h lv' h' -> ents n lv h d ps -> ents n lv' h' d ps.
Proof.
  intros Hn K HF; eapply Forall2_impl; [|exact HF]; intros p q [Hk Hp]; split; [exact Hk|]; eapply ent_keep; eassumption.
Qed.

(** [d[k]] becomes a list. *)
Definition fieldv (k : pkey) (d : pydict) : pydict :=
  match get k d with Some x => set k (up_convert x) d | None => d end.

Lemma plain_new lv h l vs : Forall2 (plain (with_new lv h None) (h ++ [OList l])) l vs ->
  plain (with_new lv h None) (h ++ [OList l]) (HRef (List.length h)) (VList vs).
Proof. intros HF; apply PList with (l := l); [apply with_new_eq|apply nth_new|exact HF]. Qed.

Lemma keeps_alloc P lv h o (x : obj) : keeps P lv h (with_new lv h o) (h ++ [x]).
Proof.
  intros a Ha _; unfold with_new; destruct (Nat.eqb_spec a (List.length h)); [lia|].
  split; [reflexivity|]; apply nth_error_app1; exact Ha.
Qed.

Lemma keeps_update (P : option nat -> Prop) lv (h : heap) a x : ~ P (lv a) -> keeps P lv h lv (update_nth h a x).
Proof.
  intros Hp b Hb Ho; split; [reflexivity|]; rewrite nth_update; destruct (Nat.eqb_spec a b); [subst; contradiction|reflexivity].
Qed.

Lemma opt1_up k x : opt1 (k, up_convert x) = if eqb k k_packages || eqb k k_depends then opt1 (k, x) else [(k, up_convert x)].
Proof.
  unfold opt1; cbn [fst snd]; rewrite up_convert_idem.
  destruct (eqb k k_packages); [reflexivity|]; destruct (eqb k k_depends); reflexivity.
Qed.

Definition field_key (k : pkey) : Prop := eqb k k_packages || eqb k k_depends = true.

Lemma opt1_fixed_up k x : field_key k -> opt1 (k, x) = [(k, x)] -> up_convert x = x.
Proof.
  unfold opt1, field_key; cbn [fst snd]; destruct (eqb k k_packages); [intros _ H; injection H as H; exact H|].
  destruct (eqb k k_depends); [|discriminate]; destruct (pyeq _ _); intros _ H; [discriminate|injection H as H; exact H].
Qed.

(** The state of a rule under work. *)
Definition rule_at (lv : levels) (h : heap) (a : nat) (d : pydict) : Prop :=
  lv a = Some 0 /\ exists m, nth_error h a = Some (ODict m) /\ wf m /\ ents 0 lv h m d.

Lemma rule_at_T lv h a d : rule_at lv h a d -> T 0 lv h (HRef a) (VDict d).
Proof.
  intros (Hl & m & Hn & Hw & HF); right; exists a, m, d; split; [reflexivity|]; split; [reflexivity|].
  split; [exact Hl|]; split; [exact Hn|]; split; [exact Hw|exact HF].
Qed.

Lemma field_write lv h a d k l vs x : field_key k -> rule_at lv h a d -> get k d = Some x -> up_convert x = VList vs ->
  up_convert x <> x -> Forall2 (plain (with_new lv h None) (h ++ [OList l])) l vs -> Forall wfval vs ->
  exists m h', nth_error h a = Some (ODict m) /\
    h' = update_nth (h ++ [OList l]) a (ODict (set k (HRef (List.length h)) m)) /\
    ext 0 lv h (with_new lv h None) h' /\ rule_at (with_new lv h None) h' a (set k (up_convert x) d).
Proof.
  intros Hk (Hl & m & Hn & Hw & HF) Hg Hux Hne Hpl Hwv.
  pose proof (ents_get 0 lv h m d k HF) as Hgm; destruct (get k m) as [w|]; [|congruence].
  destruct Hgm as (x' & pre & rest & q1 & q2 & Hg' & -> & -> & H1 & H2 & [Hwx Hpx]).
  rewrite Hg in Hg'; injection Hg' as <-.
  exists (pre ++ (k, w) :: rest); eexists; split; [exact Hn|]; split; [reflexivity|].
  set (lv1 := with_new lv h None); set (h1 := h ++ [OList l]).
  pose proof (nth_error_lt _ _ _ Hn) as Ha.
  destruct (keeps_alloc (fun _ => True) lv h None (OList l) a Ha I) as [Hl1 Hn1]; fold lv1 h1 in Hl1, Hn1.
  rewrite Hl in Hl1; rewrite Hn in Hn1.
  assert (K1 : keeps (fun o => match o with None => True | Some m => m < 0 end) lv h lv1 h1) by apply keeps_alloc.
  pose proof (ents_keep 0 lv h lv1 h1 pre q1 ltac:(lia) K1 H1) as H1'.
  pose proof (ents_keep 0 lv h lv1 h1 rest q2 ltac:(lia) K1 H2) as H2'.
  assert (Hpx1 : plain lv1 h1 w x) by (eapply plain_keep; [|exact Hpx]; apply keeps_alloc).
  assert (Hnew : plain lv1 h1 (HRef (List.length h)) (VList vs)) by (apply plain_new; exact Hpl).
  rewrite set_mid by exact Hw.
  assert (Hw' : wf (pre ++ (k, HRef (List.length h)) :: rest)) by (unfold wf, keys in *; rewrite map_app in *; exact Hw).
  assert (Hmid : ents 0 lv1 h1 [(k, HRef (List.length h))] [(k, VList vs)]).
  { constructor; [split; [reflexivity|split; [apply wfval_list; exact Hwv|exact Hnew]]|constructor]. }
  assert (X : ext 0 lv1 h1 lv1 (update_nth h1 a (ODict (pre ++ [(k, HRef (List.length h))] ++ rest)))).
  { apply (ext_option lv1 h1 a pre k w rest x [(k, HRef (List.length h))] [(k, VList vs)] Hl1 Hn1 Hw Hw' Hwx Hpx1 Hmid).
    - right; eauto.
    - cbn [flat_map]; rewrite app_nil_r, <- Hux, opt1_up; unfold field_key in Hk; now rewrite Hk.
    - intros Hf; exfalso; apply Hne; apply (opt1_fixed_up k); assumption. }
  split; [eapply ext_trans; [apply ext_alloc|exact X]|].
  assert (Wd : wf (q1 ++ (k, x) :: q2)).
  { unfold wf; rewrite (ents_keys 0 lv h (pre ++ (k, w) :: rest)); [exact Hw|exact HF]. }
  rewrite set_mid by exact Wd; rewrite Hux.
  split; [exact Hl1|]; exists (pre ++ (k, HRef (List.length h)) :: rest).
  split; [rewrite nth_update, Nat.eqb_refl, Hn1; reflexivity|]; split; [exact Hw'|].
  apply (ents_keep 0 lv1 h1); [lia|apply keeps_update; rewrite Hl1; lia|].
  apply Forall2_app; [exact H1'|]; apply (Forall2_app Hmid H2').
Qed.

Lemma field_sim lv h a d k : field_key k -> rule_at lv h a d ->
  exists lv' h', h_field (HRef a) k h = (Ok tt, h') /\ ext 0 lv h lv' h' /\ rule_at lv' h' a (fieldv k d).
Proof.
  intros Hk HR; pose proof HR as (Hl & m & Hn & Hw & HF).
  unfold h_field, hbind at 1, items; rewrite Hn.
  pose proof (ents_get 0 lv h m d k HF) as Hgm; unfold fieldv.
  destruct (get k m) as [w|].
  - destruct Hgm as (x & pre & rest & q1 & q2 & Hg & Em & Ed & H1 & H2 & [Hwx Hpx]); rewrite Hg.
    assert (Hsame : up_convert x = x -> exists lv' h', ret tt h = (Ok tt, h') /\ ext 0 lv h lv' h' /\ rule_at lv' h' a (set k (up_convert x) d)).
    { intros ->; exists lv, h; split; [reflexivity|]; split; [apply ext_refl|].
      replace (set k x d) with d; [exact HR|]; subst d; symmetry; apply set_mid.
      unfold wf; rewrite (ents_keys 0 lv h m); [exact Hw|exact HF]. }
    destruct Hpx as [|b|z|t|t|b l vs Hlb Hnb HFb|b e ps Hlb Hnb HFb]; try (apply Hsame; reflexivity).
    + destruct (field_write lv h a d k [] [] VNone Hk HR Hg eq_refl ltac:(discriminate) ltac:(constructor) ltac:(constructor))
        as (m' & h' & Hn' & -> & X & R').
      rewrite Hn in Hn'; injection Hn' as <-.
      eexists _, _; split; [|split; [exact X|exact R']].
      unfold alloc, hset, hbind, items; rewrite nth_error_app1 by (eapply nth_error_lt; exact Hn); rewrite Hn; reflexivity.
    + destruct (field_write lv h a d k [HStr t] [VStr t] (VStr t) Hk HR Hg eq_refl ltac:(discriminate)
                  ltac:(repeat constructor) ltac:(repeat constructor)) as (m' & h' & Hn' & -> & X & R').
      rewrite Hn in Hn'; injection Hn' as <-.
      eexists _, _; split; [|split; [exact X|exact R']].
      unfold alloc, hset, hbind, items; rewrite nth_error_app1 by (eapply nth_error_lt; exact Hn); rewrite Hn; reflexivity.
  - rewrite Hgm; exists lv, h; split; [reflexivity|]; split; [apply ext_refl|exact HR].
Qed.

Lemma drop_sim lv h a d : rule_at lv h a d ->
  exists lv' h', (do m <- items (HRef a);
                  match get k_depends m with
                  | Some x => do e <- h_is_empty_list x; if e then hdel (HRef a) k_depends ;; ret (HRef a) else ret (HRef a)
                  | None => ret (HRef a)
                  end) h = (Ok (HRef a), h') /\ ext 0 lv h lv' h' /\
    rule_at lv' h' a (match get k_depends d with
                      | Some x => if pyeq x (VList []) then del k_depends d else d
                      | None => d
                      end).
Proof.
  intros HR; pose proof HR as (Hl & m & Hn & Hw & HF).
  unfold hbind at 1; unfold items at 1; rewrite Hn.
  pose proof (ents_get 0 lv h m d k_depends HF) as Hgm.
  destruct (get k_depends m) as [w|] eqn:Egm.
  - destruct Hgm as (x & pre & rest & q1 & q2 & Hg & Em & Ed & H1 & H2 & [Hwx Hpx]); rewrite Hg.
    assert (Hem : h_is_empty_list w h = (Ok (pyeq x (VList [])), h)).
    { destruct Hpx as [|b|z|t|t|b l vs Hlb Hnb HFb|b e ps Hlb Hnb HFb]; try reflexivity; unfold h_is_empty_list; rewrite Hnb.
      - destruct HFb; reflexivity.
      - reflexivity. }
    unfold hbind at 1; rewrite Hem; destruct (pyeq x (VList [])) eqn:Ep.
    + apply pyeq_list_nil_r in Ep; subst x.
      assert (Wd : wf (q1 ++ (k_depends, VList []) :: q2)).
      { rewrite <- Ed; unfold wf; rewrite (ents_keys 0 lv h m); [exact Hw|exact HF]. }
      assert (Hw' : wf (pre ++ [] ++ rest)).
      { cbn [app]; rewrite <- (del_mid k_depends w pre rest) by (rewrite <- Em; exact Hw); apply wf_del; rewrite <- Em; exact Hw. }
      assert (X : ext 0 lv h lv (update_nth h a (ODict (pre ++ [] ++ rest)))).
      { rewrite Em in Hn, Hw.
        apply (ext_option lv h a pre k_depends w rest (VList []) [] [] Hl Hn Hw Hw' Hwx Hpx); [constructor|left; reflexivity|reflexivity|discriminate]. }
      eexists lv, _; split; [|split; [exact X|]].
      * unfold hdel, hbind, items; rewrite Hn; unfold lift, getitem; rewrite Egm; unfold write, ret.
        rewrite Em, del_mid by (rewrite <- Em; exact Hw); reflexivity.
      * rewrite Ed, del_mid by exact Wd; split; [exact Hl|]; exists (pre ++ rest).
        split; [rewrite nth_update, Nat.eqb_refl, Hn; reflexivity|]; split; [exact Hw'|].
        apply (ents_keep 0 lv h); [lia|apply keeps_update; rewrite Hl; lia|]; apply Forall2_app; assumption.
    + exists lv, h; split; [reflexivity|]; split; [apply ext_refl|exact HR].
  - rewrite Hgm; exists lv, h; split; [reflexivity|]; split; [apply ext_refl|exact HR].
Qed.

(** ** Making a dict of a value *)
Definition asd (k : pkey) (x : pyval) : option pydict :=
  match up_convert x with VList l => Some [(k, VList l)] | VDict d => Some d | _ => None end.

Lemma ent_plain n k lv h v l : n <= 4 -> wfval (VList l) -> plain lv h v (VList l) -> ent n k lv h v (VList l).
Proof.
  intros Hn Hw Hp; destruct n as [|m]; cbn [ent]; [split; assumption|].
  unfold child, wraps; cbn [any_os_installers]; rewrite andb_false_r, T_node by lia.
  left; split; [intros d; discriminate|]; auto.
Qed.

Lemma as_dict_sim n k lv h v x : n <= 4 -> T n lv h v x ->
  match asd k x with
  | Some d => exists lv' h' a m, h_as_dict k v h = (Ok (HRef a), h') /\ ext n lv h lv' h' /\ lv' a = Some n /\
                nth_error h' a = Some (ODict m) /\ wf m /\ ents n lv' h' m d
  | None => h_as_dict k v h = (Err ValueError, h)
  end.
Proof.
  intros Hn; rewrite T_node by exact Hn; intros [(Hd & Hw & Hp)|(a & d & ps & -> & -> & Hl & Hnth & Hw & HF)].
  - assert (Hlist : forall lv1 h1 v1 l, wfval (VList l) -> plain lv1 h1 v1 (VList l) ->
              ext n lv1 h1 (with_new lv1 h1 (Some n)) (h1 ++ [ODict [(k, v1)]]) /\
              ents n (with_new lv1 h1 (Some n)) (h1 ++ [ODict [(k, v1)]]) [(k, v1)] [(k, VList l)]).
    { intros lv1 h1 v1 l Hwl Hpl; split; [apply ext_alloc|]; constructor; [|constructor]; split; [reflexivity|].
      apply ent_plain; [exact Hn|exact Hwl|]; eapply plain_keep; [|exact Hpl]; apply keeps_alloc. }
    destruct Hp as [|b|z|t|t|b l vs Hlb Hnb HFb|b e ps Hlb Hnb HFb]; unfold asd; cbn [up_convert]; try reflexivity.
    + destruct (Hlist (with_new lv h None) (h ++ [OList []]) (HRef (List.length h)) [] I) as [X2 F2].
      { apply plain_new; constructor. }
      eexists _, _, (List.length (h ++ [OList []])), _; split; [unfold h_as_dict, hbind, alloc; reflexivity|].
      split; [eapply ext_trans; [apply ext_alloc|exact X2]|]; split; [apply with_new_eq|].
      split; [apply nth_new|]; split; [repeat constructor; simpl; tauto|exact F2].
    + destruct (Hlist (with_new lv h None) (h ++ [OList [HStr t]]) (HRef (List.length h)) [VStr t]) as [X2 F2].
      { apply wfval_list; repeat constructor. }
      { apply plain_new; repeat constructor. }
      eexists _, _, (List.length (h ++ [OList [HStr t]])), _; split; [unfold h_as_dict, hbind, alloc; reflexivity|].
      split; [eapply ext_trans; [apply ext_alloc|exact X2]|]; split; [apply with_new_eq|].
      split; [apply nth_new|]; split; [repeat constructor; simpl; tauto|exact F2].
    + destruct (Hlist lv h (HRef b) vs Hw) as [X2 F2].
      { apply PList with (l := l); assumption. }
      eexists _, _, (List.length h), _; split; [unfold h_as_dict; rewrite Hnb; reflexivity|].
      split; [exact X2|]; split; [apply with_new_eq|]; split; [apply nth_new|]; split; [repeat constructor; simpl; tauto|exact F2].
    + exfalso; eapply Hd; reflexivity.
  - unfold asd; cbn [up_convert]; exists lv, h, a, d; split; [unfold h_as_dict; rewrite Hnth; reflexivity|].
    split; [apply ext_refl|]; auto.
Qed.

Lemma Sim_0 : Sim 0.
Proof.
  intros k lv h v x Hc; unfold child in Hc; cbn [wraps Nat.eqb andb] in Hc.
  pose proof (as_dict_sim 0 k_packages lv h v x ltac:(lia) Hc) as Ha.
  cbn [E f]; unfold expand_definition, h_expand_definition, asd in *.
  assert (Hmain : forall d lv1 h1 a m, h_as_dict k_packages v h = (Ok (HRef a), h1) -> ext 0 lv h lv1 h1 ->
            lv1 a = Some 0 -> nth_error h1 a = Some (ODict m) -> wf m -> ents 0 lv1 h1 m d ->
            exists lv' h' v',
              (do d0 <- h_as_dict k_packages v; h_field d0 k_packages ;; h_field d0 k_depends ;;
               do m <- items d0;
               match get k_depends m with
               | Some x => do e <- h_is_empty_list x; if e then hdel d0 k_depends ;; ret d0 else ret d0
               | None => ret d0
               end) h = (Ok v', h') /\ ext 0 lv h lv' h' /\ T 0 lv' h' v' (VDict (expand_depends (expand_packages d)))).
  { intros d lv1 h1 a m E1 X1 Hl Hnth Hw HF.
    assert (R1 : rule_at lv1 h1 a d) by (split; [exact Hl|]; eauto).
    destruct (field_sim lv1 h1 a d k_packages eq_refl R1) as (lv2 & h2 & E2 & X2 & R2).
    destruct (field_sim lv2 h2 a _ k_depends eq_refl R2) as (lv3 & h3 & E3 & X3 & R3).
    destruct (drop_sim lv3 h3 a _ R3) as (lv4 & h4 & E4 & X4 & R4).
    exists lv4, h4, (HRef a); split.
    - unfold hbind at 1; rewrite E1; unfold hbind at 1; rewrite E2; unfold hbind at 1; rewrite E3; exact E4.
    - split; [eapply ext_trans; [exact X1|]; eapply ext_trans; [exact X2|]; eapply ext_trans; eassumption|].
      apply rule_at_T; replace (expand_depends (expand_packages d)) with
        (match get k_depends (fieldv k_depends (fieldv k_packages d)) with
         | Some x => if pyeq x (VList []) then del k_depends (fieldv k_depends (fieldv k_packages d)) else fieldv k_depends (fieldv k_packages d)
         | None => fieldv k_depends (fieldv k_packages d)
         end); [exact R4|].
      change (expand_packages d) with (fieldv k_packages d); set (d1 := fieldv k_packages d).
      unfold expand_depends; unfold fieldv; destruct (get k_depends d1) as [y|] eqn:Ey; [|rewrite Ey; reflexivity].
      rewrite get_set_same; destruct (pyeq (up_convert y) (VList [])); [|reflexivity].
      assert (Wd : wf d1).
      { destruct R2 as (_ & m2 & _ & W2 & F2); fold d1 in F2; unfold wf; rewrite (ents_keys 0 lv2 h2 m2 d1 F2); exact W2. }
      clearbody d1; apply get_split in Ey; destruct Ey as (q1 & q2 & ->).
      rewrite set_mid by exact Wd; rewrite !del_mid; [reflexivity|exact Wd|].
      unfold wf, keys in *; rewrite map_app in *; exact Wd. }
  destruct (up_convert x) as [| | | | |l|d]; try (exists h; unfold hbind; rewrite Ha; reflexivity).
  - destruct Ha as (lv1 & h1 & a & m & E1 & X1 & Hl & Hnth & Hw & HF); exact (Hmain _ lv1 h1 a m E1 X1 Hl Hnth Hw HF).
  - destruct Ha as (lv1 & h1 & a & m & E1 & X1 & Hl & Hnth & Hw & HF); exact (Hmain _ lv1 h1 a m E1 X1 Hl Hnth Hw HF).
Qed.

(** ** The other levels *)
Lemma items_sim n lv h a m d : n <= 3 -> Sim n -> lv a = Some (S n) -> nth_error h a = Some (ODict m) -> wf m ->
  ents (S n) lv h m d ->
  match map_items (E n) d with
  | Ok d' => exists lv' h', h_expand_items (f n) (HRef a) h = (Ok tt, h') /\ ext (S n) lv h lv' h' /\
                            T (S n) lv' h' (HRef a) (VDict d')
  | Err e => exists h', h_expand_items (f n) (HRef a) h = (Err e, h')
  end.
Proof.
  intros Hn HS Hl Hnth Hw HF.
  pose proof (loop_sim n a Hn HS m [] [] d lv h Hl Hnth Hw ltac:(constructor) ltac:(intros ? ? []) HF) as H.
  unfold h_expand_items, hbind at 1, items; rewrite Hnth.
  destruct (map_items (E n) d) as [d'|e].
  - destruct H as (lv' & h' & m' & E1 & X1 & Hl1 & N1 & W1 & F1); exists lv', h'; split; [exact E1|]; split; [exact X1|].
    rewrite T_node by lia; right; exists a, m', d'; auto 7.
  - destruct H as (h' & E1); exists h'; unfold hbind at 1; rewrite Hnth; exact E1.
Qed.

Lemma Sim_1 : Sim 1.
Proof.
  intros k lv h v x Hc; unfold child in Hc; cbn [wraps Nat.eqb andb] in Hc.
  pose proof (as_dict_sim 1 (KStr default_installer) lv h v x ltac:(lia) Hc) as Ha.
  cbn [E f]; rewrite expand_installer_unfold; unfold h_expand_installer_definition.
  change (items_of default_installer x) with (asd (KStr default_installer) x).
  destruct (asd (KStr default_installer) x) as [d|]; [|exists h; unfold hbind at 1; rewrite Ha; reflexivity].
  destruct Ha as (lv1 & h1 & a & m & E1 & X1 & Hl & Hnth & Hw & HF).
  pose proof (items_sim 0 lv1 h1 a m d ltac:(lia) Sim_0 Hl Hnth Hw HF) as H.
  change (fun _ : pkey => expand_definition) with (E 0).
  change (fun _ (x0 : pyval) => expand_definition x0) with (E 0).
  destruct (map_items (E 0) d) as [d'|e]; cbn [bind].
  - destruct H as (lv2 & h2 & E2 & X2 & T2); exists lv2, h2, (HRef a); split.
    + unfold hbind at 1; rewrite E1; unfold hbind at 1.
      change (h_expand_items (fun _ x0 => h_expand_definition x0)) with (h_expand_items (f 0)); rewrite E2; reflexivity.
    + split; [eapply ext_trans; eassumption|exact T2].
  - destruct H as (h2 & E2); exists h2; unfold hbind at 1; rewrite E1; unfold hbind at 1.
    change (h_expand_items (fun _ x0 => h_expand_definition x0)) with (h_expand_items (f 0)); rewrite E2; reflexivity.
Qed.

Lemma version_items_asd os x : version_items os x = match asd (KStr any_version) x with Some d => special_items os d | None => None end.
Proof. reflexivity. Qed.

Lemma Sim_2 : Sim 2.
Proof.
  intros k lv h v x Hc; cbn [E f]; rewrite expand_version_unfold; unfold h_expand_os_version_definition.
  rewrite version_items_asd.
  assert (Hmain : forall d lv1 h1 a m, ext 2 lv h lv1 h1 -> lv1 a = Some 2 -> nth_error h1 a = Some (ODict m) -> wf m ->
            ents 2 lv1 h1 m d ->
            match (let* d' := map_items (fun _ x0 => expand_installer_definition x0) d in Ok (VDict d')) with
            | Ok y => exists lv' h' v', (h_expand_items (fun _ x0 => h_expand_installer_definition x0) (HRef a) ;; ret (HRef a)) h1 = (Ok v', h') /\
                        ext 2 lv h lv' h' /\ T 2 lv' h' v' y
            | Err e => exists h', (h_expand_items (fun _ x0 => h_expand_installer_definition x0) (HRef a) ;; ret (HRef a)) h1 = (Err e, h')
            end).
  { intros d lv1 h1 a m X1 Hl Hnth Hw HF.
    pose proof (items_sim 1 lv1 h1 a m d ltac:(lia) Sim_1 Hl Hnth Hw HF) as H.
    change (fun _ (x0 : pyval) => expand_installer_definition x0) with (E 1).
    change (h_expand_items (fun _ x0 => h_expand_installer_definition x0)) with (h_expand_items (f 1)).
    destruct (map_items (E 1) d) as [d'|e]; cbn [bind].
    - destruct H as (lv2 & h2 & E2 & X2 & T2); exists lv2, h2, (HRef a); split.
      + unfold hbind at 1; rewrite E2; reflexivity.
      + split; [eapply ext_trans; eassumption|exact T2].
    - destruct H as (h2 & E2); exists h2; unfold hbind at 1; rewrite E2; reflexivity. }
  destruct (wraps 2 k x) eqn:Ew.
  - (* a dict of installers under any_os *)
    unfold child in Hc; rewrite Ew in Hc; change is_installers with (T 1) in Hc.
    pose proof Hc as HT1; rewrite T_node in Hc by lia.
    unfold wraps, any_os_installers in Ew; cbn [Nat.eqb andb] in Ew.
    destruct Hc as [(Hd & _)|(a & m & ps & -> & -> & Hl & Hnth & Hw & HF)].
    { destruct x; try discriminate; exfalso; eapply Hd; reflexivity. }
    apply andb_prop in Ew; destruct Ew as [Ek Ev].
    unfold asd; cbn [up_convert]; unfold special_items; rewrite Ek.
    assert (Ehm : has (KStr any_version) m = has (KStr any_version) ps).
    { destruct (has (KStr any_version) ps) eqn:Eps.
      - apply has_keys; rewrite <- (ents_keys 1 lv h m ps HF); apply has_keys; exact Eps.
      - destruct (has (KStr any_version) m) eqn:Em; [|reflexivity].
        apply has_keys in Em; rewrite <- (ents_keys 1 lv h m ps HF) in Em; apply has_keys in Em; congruence. }
    destruct (has (KStr any_version) ps) eqn:Eps; [discriminate|].
    assert (Hpre : (do d <- h_as_dict (KStr any_version) (HRef a);
                    do d' <- (do m0 <- items d;
                              if has (KStr any_version) m0 then (if Nat.eqb (List.length m0) 1 then ret d else fail ValueError)
                              else alloc (ODict [(KStr any_version, d)]));
                    h_expand_items (fun _ x0 => h_expand_installer_definition x0) d' ;; ret d') h =
                   (h_expand_items (fun _ x0 => h_expand_installer_definition x0) (HRef (List.length h)) ;; ret (HRef (List.length h)))
                     (h ++ [ODict [(KStr any_version, HRef a)]])).
    { unfold hbind at 1; unfold h_as_dict; rewrite Hnth; unfold hbind at 1; unfold hbind at 1; unfold items at 1; rewrite Hnth.
      rewrite Ehm; unfold alloc at 1; reflexivity. }
    rewrite Hpre.
    apply (Hmain [(KStr any_version, VDict ps)] (with_new lv h (Some 2)) (h ++ [ODict [(KStr any_version, HRef a)]]) (List.length h)
             [(KStr any_version, HRef a)]).
    + apply ext_alloc.
    + apply with_new_eq.
    + apply nth_new.
    + repeat constructor; simpl; tauto.
    + constructor; [|constructor]; split; [reflexivity|]; cbn [fst snd ent]; unfold child; cbn [wraps Nat.eqb andb].
      apply (proj1 (T_child_keep lv h _ _ 1 ltac:(lia) (keeps_alloc _ lv h _ _))); exact HT1.
  - unfold child in Hc; rewrite Ew in Hc.
    pose proof (as_dict_sim 2 (KStr any_version) lv h v x ltac:(lia) Hc) as Ha.
    destruct (asd (KStr any_version) x) as [d|] eqn:Ea; [|exists h; unfold hbind at 1; rewrite Ha; reflexivity].
    destruct Ha as (lv1 & h1 & a & m & E1 & X1 & Hl & Hnth & Hw & HF).
    pose proof (ents_keys 2 lv1 h1 m d HF) as Hkeys.
    assert (Hlen : List.length m = List.length d).
    { apply (f_equal (@List.length _)) in Hkeys; unfold keys in Hkeys; rewrite !map_length in Hkeys; symmetry; exact Hkeys. }
    assert (Hh : has (KStr any_version) m = has (KStr any_version) d).
    { destruct (has (KStr any_version) d) eqn:Eps.
      - apply has_keys; rewrite <- Hkeys; apply has_keys; exact Eps.
      - destruct (has (KStr any_version) m) eqn:Em; [|reflexivity].
        apply has_keys in Em; rewrite <- Hkeys in Em; apply has_keys in Em; congruence. }
    assert (Hav : eqb k (KStr any_os) = true -> has (KStr any_version) d = true).
    { intros Ek; unfold asd in Ea; destruct x as [| | | | |l|d0]; try discriminate; cbn [up_convert] in Ea; injection Ea as <-; try reflexivity.
      unfold wraps, any_os_installers in Ew; cbn [Nat.eqb andb] in Ew; rewrite Ek in Ew; cbn [andb] in Ew.
      destruct (has (KStr any_version) d0); [reflexivity|discriminate]. }
    unfold special_items; destruct (eqb k (KStr any_os)) eqn:Ek.
    + rewrite (Hav eq_refl) in *.
      assert (Hpre : forall A (g : hval -> hm A), (do d0 <- h_as_dict (KStr any_version) v;
                      do d' <- (do m0 <- items d0;
                                if has (KStr any_version) m0 then (if Nat.eqb (List.length m0) 1 then ret d0 else fail ValueError)
                                else alloc (ODict [(KStr any_version, d0)]));
                      g d') h = if Nat.eqb (List.length d) 1 then g (HRef a) h1 else (Err ValueError, h1)).
      { intros A g; unfold hbind at 1; rewrite E1; unfold hbind at 1; unfold hbind at 1; unfold items at 1; rewrite Hnth, Hh, Hlen.
        destruct (Nat.eqb (List.length d) 1); reflexivity. }
      rewrite Hpre; destruct (Nat.eqb (List.length d) 1); [|exists h1; reflexivity].
      apply (Hmain d lv1 h1 a m X1 Hl Hnth Hw HF).
    + assert (Hpre : forall A (g : hval -> hm A), (do d0 <- h_as_dict (KStr any_version) v; do d' <- ret d0; g d') h = g (HRef a) h1).
      { intros A g; unfold hbind at 1; rewrite E1; reflexivity. }
      rewrite Hpre; apply (Hmain d lv1 h1 a m X1 Hl Hnth Hw HF).
Qed.

Lemma is_dict_T n lv h v x : n <= 4 -> T n lv h v x ->
  h_is_dict v h = (Ok (match x with VDict _ => true | _ => false end), h).
Proof.
  intros Hn; rewrite T_node by exact Hn; intros [(Hd & Hw & Hp)|(a & d & ps & -> & -> & Hl & Hnth & _)].
  - destruct Hp as [|b|z|t|t|b l vs Hlb Hnb HFb|b e ps Hlb Hnb HFb]; try reflexivity; unfold h_is_dict; rewrite Hnb; reflexivity.
  - unfold h_is_dict; rewrite Hnth; reflexivity.
Qed.

Lemma Sim_3 : Sim 3.
Proof.
  intros k lv h v x Hc; unfold child in Hc; cbn [wraps Nat.eqb andb] in Hc.
  pose proof (is_dict_T 3 lv h v x ltac:(lia) Hc) as Hd.
  cbn [E f]; unfold h_wrap_err, h_expand_os_definition.
  rewrite T_node in Hc by lia.
  destruct x as [| | | | | |d]; try (exists h; unfold hbind at 1; rewrite Hd; reflexivity).
  destruct Hc as [(Hn & _)|(a & m & ps & -> & Heq & Hl & Hnth & Hw & HF)]; [exfalso; eapply Hn; reflexivity|].
  injection Heq as <-.
  pose proof (items_sim 2 lv h a m d ltac:(lia) Sim_2 Hl Hnth Hw HF) as H.
  cbn [expand_os_definition]; change expand_os_version_definition with (E 2).
  change h_expand_os_version_definition with (f 2).
  destruct (map_items (E 2) d) as [d'|e]; cbn [bind wrap_err].
  - destruct H as (lv2 & h2 & E2 & X2 & T2); exists lv2, h2, (HRef a); split; [|split; [exact X2|exact T2]].
    unfold hbind at 1; rewrite Hd; unfold hbind at 1; rewrite E2; reflexivity.
  - destruct H as (h2 & E2).
    assert (Ee : (do b <- h_is_dict (HRef a); if b then h_expand_items (f 2) (HRef a) ;; ret (HRef a) else fail ValueError) h = (Err e, h2)).
    { unfold hbind at 1; rewrite Hd; unfold hbind at 1; rewrite E2; reflexivity. }
    destruct e; exists h2; rewrite Ee; reflexivity.
Qed.

Theorem expand_sim lv h v x : is_file lv h v x ->
  match expand_rules x with
  | Ok y => exists lv' h' v', h_expand_rules v h = (Ok v', h') /\ is_file lv' h' v' y
  | Err e => exists h', h_expand_rules v h = (Err e, h')
  end.
Proof.
  intros Hc; change is_file with (T 4) in *; rewrite expand_rules_unfold.
  assert (Hmain : forall d lv1 h1 a m, lv1 a = Some 4 -> nth_error h1 a = Some (ODict m) -> wf m -> ents 4 lv1 h1 m d ->
            match (let* d' := map_items (fun _ x0 => wrap_err (expand_os_definition x0)) d in Ok (VDict d')) with
            | Ok y => exists lv' h' v', (do b <- h_is_dict (HRef a); if b then h_expand_items (fun _ x0 => h_wrap_err (h_expand_os_definition x0)) (HRef a) ;; ret (HRef a) else fail ValueError) h1 = (Ok v', h') /\
                        T 4 lv' h' v' y
            | Err e => exists h', (do b <- h_is_dict (HRef a); if b then h_expand_items (fun _ x0 => h_wrap_err (h_expand_os_definition x0)) (HRef a) ;; ret (HRef a) else fail ValueError) h1 = (Err e, h')
            end).
  { intros d lv1 h1 a m Hl Hnth Hw HF.
    pose proof (items_sim 3 lv1 h1 a m d ltac:(lia) Sim_3 Hl Hnth Hw HF) as H.
    change (fun _ (x0 : pyval) => wrap_err (expand_os_definition x0)) with (E 3).
    change (h_expand_items (fun _ x0 => h_wrap_err (h_expand_os_definition x0))) with (h_expand_items (f 3)).
    assert (Hd : h_is_dict (HRef a) h1 = (Ok true, h1)) by (unfold h_is_dict; rewrite Hnth; reflexivity).
    destruct (map_items (E 3) d) as [d'|e]; cbn [bind].
    - destruct H as (lv2 & h2 & E2 & X2 & T2); exists lv2, h2, (HRef a); split; [|exact T2].
      unfold hbind at 1; rewrite Hd; unfold hbind at 1; rewrite E2; reflexivity.
    - destruct H as (h2 & E2); exists h2; unfold hbind at 1; rewrite Hd; unfold hbind at 1; rewrite E2; reflexivity. }
  pose proof (is_dict_T 4 lv h v x ltac:(lia) Hc) as Hd.
  rewrite T_node in Hc by lia; unfold h_expand_rules.
  destruct Hc as [(Hn & Hw & Hp)|(a & m & ps & -> & -> & Hl & Hnth & Hw & HF)].
  - destruct Hp as [|b|z|t|t|b l vs Hlb Hnb HFb|b e ps Hlb Hnb HFb]; cbn [file_items];
      try (exists h; unfold hbind at 1; unfold ret at 1; unfold hbind at 1; rewrite Hd; reflexivity).
    + unfold hbind at 1, new_dict, alloc.
      apply (Hmain [] (with_new lv h (Some 4)) (h ++ [ODict []]) (List.length h) []);
        [apply with_new_eq|apply nth_new|constructor|constructor].
    + exfalso; eapply Hn; reflexivity.
  - cbn [file_items]; unfold hbind at 1; unfold ret at 1.
    apply (Hmain ps lv h a m Hl Hnth Hw HF).
Qed.
