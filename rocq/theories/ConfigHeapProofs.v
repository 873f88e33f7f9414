(** Simulation of Config.v by ConfigHeap.v. *)
From Verif Require Import Base Dict PyVal Util Config ConfigSpec ConfigProofs Heap HeapSpec ConfigHeap.
From Verif Require HeapProofs.
From Coq Require Import Lia.

(** ** What is seen without looking at the objects in [M] *)
Inductive keeps (M : list nat) (h : heap) : hval -> pyval -> Prop :=
| PNone : keeps M h HNone VNone
| PBool b : keeps M h (HBool b) (VBool b)
| PInt z : keeps M h (HInt z) (VInt z)
| PStr t : keeps M h (HStr t) (VStr t)
| POther t : keeps M h (HOther t) (VOther t)
| PList a l vs : ~ In a M -> nth_error h a = Some (OList l) -> Forall2 (keeps M h) l vs -> keeps M h (HRef a) (VList vs)
| PDict a d ps : ~ In a M -> nth_error h a = Some (ODict d) ->
    Forall2 (fun x y => fst x = fst y /\ keeps M h (snd x) (snd y)) d ps -> keeps M h (HRef a) (VDict ps).

Notation entries M h := (Forall2 (fun (x : pkey * hval) (y : pkey * pyval) => fst x = fst y /\ keeps M h (snd x) (snd y))).

(** Later heaps: other objects than those in [M] are the same. *)
Definition later (M : list nat) (h h' : heap) : Prop :=
  List.length h <= List.length h' /\ forall a, ~ In a M -> a < List.length h -> nth_error h' a = nth_error h a.

Lemma later_refl M h : later M h h.
Proof. split; [lia|auto]. Qed.
Lemma later_trans M h1 h2 h3 : later M h1 h2 -> later M h2 h3 -> later M h1 h3.
Proof. intros [L1 H1] [L2 H2]; split; [lia|]; intros a Ha Hl; rewrite H2 by (auto; lia); auto. Qed.

Lemma nth_lt {A} (l : list A) n x : nth_error l n = Some x -> n < List.length l.
Proof. intros H; apply nth_error_Some; congruence. Qed.

Lemma keeps_step M M' h h' x : (forall b, In b M' -> In b M \/ List.length h <= b) -> later M h h' ->
  forall v, keeps M h v x -> keeps M' h' v x.
Proof.
  intros HM [_ HL]; induction x as [|b|z|t|t|l IH|d IH] using pyval_ind'; intros v H; inversion H; subst; try constructor.
  - match goal with Hn : nth_error h ?a = _, Hm : ~ In ?a M |- _ => pose proof (nth_lt _ _ _ Hn) as Hlt;
      apply PList with (l := l0); [intros Hin; destruct (HM _ Hin); [tauto|lia]|rewrite HL; auto|] end.
    match goal with HF : Forall2 _ _ _ |- _ => clear -IH HF; revert IH; induction HF as [|w y ws ys Hw HF IHF]; intros IH; constructor;
      inversion IH; subst; auto end.
  - match goal with Hn : nth_error h ?a = _, Hm : ~ In ?a M |- _ => pose proof (nth_lt _ _ _ Hn) as Hlt;
      apply PDict with (d := d0); [intros Hin; destruct (HM _ Hin); [tauto|lia]|rewrite HL; auto|] end.
    match goal with HF : Forall2 _ _ _ |- _ => clear -IH HF; revert IH; induction HF as [|w y ws ys [Hk Hw] HF IHF]; intros IH; constructor;
      inversion IH; subst; auto end.
Qed.

Lemma entries_step M M' h h' d D : (forall b, In b M' -> In b M \/ List.length h <= b) -> later M h h' ->
  entries M h d D -> entries M' h' d D.
Proof.
  intros HM HL H; induction H as [|p q d D [Hk Hv] H IH]; constructor; [|exact IH].
  split; [exact Hk|eapply keeps_step; eassumption].
Qed.

Lemma reads_keeps M h x : (forall b, In b M -> List.length h <= b) -> forall v, reads h v x -> keeps M h v x.
Proof.
  intros HM; induction x as [|b|z|t|t|l IH|d IH] using pyval_ind'; intros v H; inversion H; subst; try constructor.
  - match goal with Hn : nth_error h ?a = _ |- _ => pose proof (nth_lt _ _ _ Hn) as Hlt;
      apply PList with (l := l0); [intros Hin; apply HM in Hin; lia|exact Hn|] end.
    match goal with HF : Forall2 _ _ _ |- _ => clear -IH HF; revert IH; induction HF as [|w y ws ys Hw HF IHF]; intros IH; constructor;
      inversion IH; subst; auto end.
  - match goal with Hn : nth_error h ?a = _ |- _ => pose proof (nth_lt _ _ _ Hn) as Hlt;
      apply PDict with (d := d0); [intros Hin; apply HM in Hin; lia|exact Hn|] end.
    match goal with HF : Forall2 _ _ _ |- _ => clear -IH HF; revert IH; induction HF as [|w y ws ys [Hk Hw] HF IHF]; intros IH; constructor;
      inversion IH; subst; auto end.
Qed.

Lemma keeps_reads M h x : forall v, keeps M h v x -> reads h v x.
Proof.
  induction x as [|b|z|t|t|l IH|d IH] using pyval_ind'; intros v H; inversion H; subst; try constructor.
  - apply RList with (l := l0); [assumption|].
    match goal with HF : Forall2 _ _ _ |- _ => clear -IH HF; revert IH; induction HF as [|w y ws ys Hw HF IHF]; intros IH; constructor;
      inversion IH; subst; auto end.
  - apply RDict with (d := d0); [assumption|].
    match goal with HF : Forall2 _ _ _ |- _ => clear -IH HF; revert IH; induction HF as [|w y ws ys [Hk Hw] HF IHF]; intros IH; constructor;
      inversion IH; subst; auto end.
Qed.

Lemma entries_get M h d D k : entries M h d D ->
  match get k d, get k D with Some w, Some v => keeps M h w v | None, None => True | _, _ => False end.
Proof.
  intros H; induction H as [|[k1 w] [k2 v] d D [Hk Hv] H IH]; [exact I|]; cbn [fst snd] in *; subst k2.
  rewrite !get_cons; destruct (eqb k k1); [exact Hv|exact IH].
Qed.

Lemma entries_set M h d D k w v : entries M h d D -> keeps M h w v -> entries M h (set k w d) (set k v D).
Proof.
  intros H Hw; induction H as [|[k1 w1] [k2 v1] d D [Hk Hv] H IH]; [constructor; [split; [reflexivity|exact Hw]|constructor]|].
  cbn [fst snd] in *; subst k2; rewrite !set_cons; destruct (eqb k k1); constructor; auto.
Qed.

Lemma entries_update M h d D e E : entries M h d D -> entries M h e E -> entries M h (update d e) (update D E).
Proof.
  unfold update; intros H He; revert d D H; induction He as [|[k w] [k' v] e E [Hk Hv] He IH]; intros d D H; [exact H|].
  cbn [fold_left fst snd] in *; subst k'; apply IH; apply entries_set; assumption.
Qed.

(** ** Outcomes *)
(** [x] is the outcome in the heap, [y] the one on values. *)
Definition agree {A B} (Q : heap -> A -> B -> Prop) (x : res A * heap) (y : res B) : Prop :=
  match fst x, y with Ok a, Ok b => Q (snd x) a b | Err e, Err e' => e = e' | _, _ => False end.

Lemma bind_ret_r {A} (x : res A) : bind x Ok = x.
Proof. destruct x; reflexivity. Qed.

Lemma agree_bind {A B A' B'} (Q : heap -> A -> B -> Prop) (Q' : heap -> A' -> B' -> Prop) x y f g h :
  agree Q (x h) y -> (forall h' a b, x h = (Ok a, h') -> Q h' a b -> agree Q' (f a h') (g b)) ->
  agree Q' (hbind x f h) (bind y g).
Proof.
  unfold agree, hbind; destruct (x h) as [[a|e] h'], y as [b|e']; cbn [fst snd bind]; try tauto.
  - intros H HQ; exact (HQ _ _ _ eq_refl H).
Qed.

Section Run.
  Variable h0 : heap.
  Variable d : desc.
  Hypothesis Hd : names_ok d.

  Definition group_addr (G : dict text nat) (k : pkey) : option nat :=
    match k with KStr g => get g G | _ => None end.

  (** The entry of a result under construction. *)
  Definition entry (G : dict text nat) (M : list nat) (h : heap) (k : pkey) (w : hval) (v : pyval) : Prop :=
    match group_addr G k with
    | Some b => w = HRef b /\ exists gd GD, nth_error h b = Some (ODict gd) /\ v = VDict GD /\ entries M h gd GD
    | None => keeps M h w v
    end.

  Record inv (G : dict text nat) (a : nat) (h : heap) (R : pydict) : Prop := {
    i_obj : exists rd, nth_error h a = Some (ODict rd) /\ keys rd = keys R /\
              forall k w v, get k rd = Some w -> get k R = Some v -> entry G (a :: map snd G) h k w v;
    i_wf : wf R;
    i_G : wf G;
    i_addr : NoDup (a :: map snd G);
    i_range : forall b, In b (a :: map snd G) -> List.length h0 <= b < List.length h;
    i_same : unchanged h0 h
  }.

  Lemma same_get {A B} (x : dict pkey A) (y : dict pkey B) k : keys x = keys y ->
    match get k x, get k y with Some _, Some _ | None, None => True | _, _ => False end.
  Proof.
    intros E; destruct (get k x) eqn:Ex, (get k y) eqn:Ey; try exact I.
    - apply get_None in Ey; apply Ey; rewrite <- E; apply get_Some_keys; eauto.
    - apply get_None in Ex; apply Ex; rewrite E; apply get_Some_keys; eauto.
  Qed.

  (** Reading an entry of something that can be seen. *)
  Lemma index_keeps M h v x k : keeps M h v x -> agree (fun h' w y => h' = h /\ keeps M h w y) (h_index v k h) (index x k).
  Proof.
    intros H; unfold agree; destruct H as [| | | | |a l vs Hm Hn HF|a dd ps Hm Hn HF]; cbn [h_index index fst snd]; auto.
    - rewrite Hn; cbn [fst]; reflexivity.
    - rewrite Hn; cbn [fst snd]; unfold getitem; pose proof (entries_get _ _ _ _ (KStr k) HF) as E.
      destruct (get (KStr k) dd), (get (KStr k) ps); auto; tauto.
  Qed.

  Lemma index_dict M h b gd GD k : nth_error h b = Some (ODict gd) -> entries M h gd GD ->
    agree (fun h' w y => h' = h /\ keeps M h w y) (h_index (HRef b) k h) (index (VDict GD) k).
  Proof.
    intros Hn HF; unfold agree; cbn [h_index index]; rewrite Hn; cbn [fst snd]; unfold getitem.
    pose proof (entries_get _ _ _ _ (KStr k) HF) as E; destruct (get (KStr k) gd), (get (KStr k) GD); auto; tauto.
  Qed.

  Lemma index_result G a h R k : inv G a h R ->
    agree (fun h' w y => h' = h /\ entry G (a :: map snd G) h (KStr k) w y /\ get (KStr k) R = Some y) (h_index (HRef a) k h) (getitem (KStr k) R).
  Proof.
    intros [(rd & Hn & Hk & He) _ _ _ _ _]; unfold agree; cbn [h_index]; rewrite Hn; cbn [fst snd]; unfold getitem.
    pose proof (same_get rd R (KStr k) Hk) as E; destruct (get (KStr k) rd) eqn:E1, (get (KStr k) R) eqn:E2; auto; tauto.
  Qed.

  Lemma merge_type_keeps M h t r rx b bx : (forall c, In c M -> c < List.length h) -> keeps M h r rx -> keeps M h b bx ->
    agree (fun h' m mx => keeps M h' m mx /\ later M h h' /\ (h' = h \/ exists o, h' = h ++ [o])) (h_merge_type t r b h) (merge_type t rx bx).
  Proof.
    intros HM Hr Hb.
    assert (P : agree (fun h' m mx => keeps M h' m mx /\ later M h h' /\ (h' = h \/ exists o, h' = h ++ [o]))
                  ((match r with HNone => ret b | _ => ret r end) h) (Ok (if is_unset TAny rx then bx else rx))).
    { unfold agree, is_unset, unset; destruct Hr; cbn [pyeq ret fst snd]; split; try (constructor; fail); auto using later_refl.
      - econstructor; eassumption.
      - econstructor; eassumption. }
    destruct t; try exact P; clear P.
    cbn [h_merge_type merge_type]; unfold agree.
    destruct Hb as [| | | | |c l vs Hm Hn HF|c dd ps Hm Hn HF]; cbn [fst snd]; auto; rewrite Hn; cbn [fst snd]; auto.
    destruct Hr as [| | | | |c' l vs Hm' Hn' HF'|c' dd' ps' Hm' Hn' HF']; cbn [fst snd]; auto; rewrite Hn'; cbn [fst snd alloc]; auto.
    assert (L : later M h (h ++ [ODict (update dd dd')])).
    { split; [rewrite app_length; lia|]; intros x _ Hx; apply nth_error_app1; exact Hx. }
    split; [|split; [exact L|eauto]].
    apply PDict with (d := update dd dd').
    - intros Hin; apply HM in Hin; lia.
    - rewrite nth_error_app2, Nat.sub_diag by lia; reflexivity.
    - eapply entries_step; [| exact L|apply entries_update; eassumption]; auto.
  Qed.

  Lemma nth_upd {A} (l : list A) n x k : n < List.length l ->
    nth_error (update_nth l n x) k = if Nat.eqb k n then Some x else nth_error l k.
  Proof.
    revert n k; induction l as [|y l IH]; intros n k Hn; [cbn in Hn; lia|].
    destruct n as [|n], k as [|k]; cbn [update_nth nth_error Nat.eqb]; try reflexivity.
    apply IH; cbn in Hn; lia.
  Qed.
  Lemma len_upd {A} (l : list A) n x : List.length (update_nth l n x) = List.length l.
  Proof. revert n; induction l as [|y l IH]; intros [|n]; cbn [update_nth List.length]; auto. Qed.

  Lemma later_upd M h n o : In n M -> n < List.length h -> later M h (update_nth h n o).
  Proof.
    intros Hin Hn; split; [rewrite len_upd; lia|]; intros a Ha _; rewrite nth_upd by exact Hn.
    destruct (Nat.eqb_spec a n) as [->|_]; [tauto|reflexivity].
  Qed.

  Lemma unchanged_later M h h' : (forall b, In b M -> List.length h0 <= b) -> List.length h0 <= List.length h -> later M h h' ->
    unchanged h0 h -> unchanged h0 h'.
  Proof.
    intros HM Hl [_ HL] U a Ha; rewrite HL; [apply U; exact Ha| |lia].
    intros Hin; apply HM in Hin; lia.
  Qed.

  Lemma group_in_M (G : dict text nat) (g : text) (b : nat) : get g G = Some b -> In b (map snd G).
  Proof. intros E; apply get_In in E; apply in_map_iff; exists (g, b); auto. Qed.

  Lemma entry_step G M h h' k w v : later M h h' -> (forall b, In b (map snd G) -> In b M) ->
    (forall b gd, group_addr G k = Some b -> nth_error h b = Some (ODict gd) -> nth_error h' b = Some (ODict gd)) ->
    entry G M h k w v -> entry G M h' k w v.
  Proof.
    intros HL HG Hsame; unfold entry; destruct (group_addr G k) as [b|] eqn:E.
    - intros (-> & gd & GD & Hn & -> & HF); split; [reflexivity|]; exists gd, GD; split; [eapply Hsame; [reflexivity|exact Hn]|].
      split; [reflexivity|]; eapply entries_step; [|exact HL|exact HF]; auto.
    - apply keeps_step; auto.
  Qed.

  Lemma addr_group G k b : group_addr G k = Some b -> In b (map snd G).
  Proof. destruct k as [g| | |]; try discriminate; exact (group_in_M G g b). Qed.

  Lemma inv_len G a h R : inv G a h R -> List.length h0 <= List.length h.
  Proof. intros [_ _ _ _ Hr _]; specialize (Hr a (or_introl eq_refl)); lia. Qed.

  Lemma assign_result G a h R k w v : inv G a h R -> group_addr G (KStr k) = None -> keeps (a :: map snd G) h w v ->
    exists h', h_assign (HRef a) k w h = (Ok tt, h') /\ inv G a h' (set (KStr k) v R) /\ later (a :: map snd G) h h'.
  Proof.
    intros I Hk Hw; pose proof (inv_len _ _ _ _ I) as Hl; destruct I as [(rd & Hn & Hkeys & He) Hwf HG Hnd Hr Hu].
    pose proof (nth_lt _ _ _ Hn) as Ha.
    assert (L : later (a :: map snd G) h (update_nth h a (ODict (set (KStr k) w rd)))) by (apply later_upd; [left; reflexivity|exact Ha]).
    eexists; split; [cbn [h_assign]; rewrite Hn; reflexivity|]; split; [|exact L]; constructor.
    - exists (set (KStr k) w rd); split; [rewrite nth_upd, Nat.eqb_refl by exact Ha; reflexivity|]; split.
      + rewrite !keys_set, Hkeys; unfold has; pose proof (same_get rd R (KStr k) Hkeys) as E.
        destruct (get (KStr k) rd), (get (KStr k) R); try tauto; reflexivity.
      + intros k' w' v'; rewrite !get_set; destruct (eqb_spec k' (KStr k)) as [->|_].
        * intros E1 E2; injection E1 as <-; injection E2 as <-; unfold entry; rewrite Hk; eapply keeps_step; [|exact L|exact Hw]; auto.
        * intros E1 E2; eapply entry_step; [exact L|intros b Hb; right; exact Hb| |apply He; assumption].
          intros b gd Hb Hnb; rewrite nth_upd by exact Ha; destruct (Nat.eqb_spec b a) as [->|_]; [|exact Hnb].
          apply addr_group in Hb; inversion Hnd; tauto.
    - apply wf_set; exact Hwf.
    - exact HG.
    - exact Hnd.
    - intros b Hb; rewrite len_upd; apply Hr; exact Hb.
    - eapply unchanged_later; [|exact Hl|exact L|exact Hu]; intros b Hb; apply Hr in Hb; lia.
  Qed.

  Lemma group_addr_inj G a k k' b : wf G -> NoDup (a :: map snd G) -> group_addr G k = Some b -> group_addr G k' = Some b -> k = k'.
  Proof.
    intros HG Hnd H1 H2; destruct k as [g| | |]; try discriminate; destruct k' as [g'| | |]; try discriminate.
    cbn [group_addr] in *; apply get_In in H1, H2; inversion Hnd as [|? ? _ Hnd']; subst; f_equal.
    clear -H1 H2 Hnd'; induction G as [|[g0 b0] G IH]; [destruct H1|]; cbn [map snd] in Hnd'; inversion Hnd' as [|? ? Hni Hnd]; subst.
    destruct H1 as [H1|H1], H2 as [H2|H2].
    - congruence.
    - injection H1 as -> ->; exfalso; apply Hni; apply in_map_iff; exists (g', b); auto.
    - injection H2 as -> ->; exfalso; apply Hni; apply in_map_iff; exists (g, b); auto.
    - auto.
  Qed.

  Lemma assign_group G a h R g b GD s w v : inv G a h R -> get g G = Some b -> get (KStr g) R = Some (VDict GD) ->
    keeps (a :: map snd G) h w v ->
    exists h', h_assign (HRef b) s w h = (Ok tt, h') /\ inv G a h' (set (KStr g) (VDict (set (KStr s) v GD)) R) /\ later (a :: map snd G) h h'.
  Proof.
    intros I Hg HR Hw; pose proof (inv_len _ _ _ _ I) as Hl; destruct I as [(rd & Hn & Hkeys & He) Hwf HG Hnd Hr Hu].
    pose proof (nth_lt _ _ _ Hn) as Ha; pose proof (group_in_M _ _ _ Hg) as Hin.
    pose proof (same_get rd R (KStr g) Hkeys) as E; rewrite HR in E; destruct (get (KStr g) rd) as [x|] eqn:Er; [clear E|tauto].
    pose proof (He _ _ _ Er HR) as He0; unfold entry in He0; cbn [group_addr] in He0; rewrite Hg in He0.
    destruct He0 as (-> & gd & GD' & Hb & E & HF); injection E as <-.
    pose proof (nth_lt _ _ _ Hb) as Hlb.
    assert (Hab : a <> b) by (intros <-; inversion Hnd; tauto).
    assert (L : later (a :: map snd G) h (update_nth h b (ODict (set (KStr s) w gd)))) by (apply later_upd; [right; exact Hin|exact Hlb]).
    eexists; split; [cbn [h_assign]; rewrite Hb; reflexivity|]; split; [|exact L]; constructor.
    - exists rd; split; [rewrite nth_upd by exact Hlb; destruct (Nat.eqb_spec a b); [tauto|exact Hn]|]; split.
      + rewrite keys_set, Hkeys; unfold has; rewrite HR; reflexivity.
      + intros k' w' v'; rewrite get_set; destruct (eqb_spec k' (KStr g)) as [->|Hne].
        * intros E1 E2; rewrite Er in E1; injection E1 as <-; injection E2 as <-; unfold entry; cbn [group_addr]; rewrite Hg.
          split; [reflexivity|]; exists (set (KStr s) w gd), (set (KStr s) v GD).
          split; [rewrite nth_upd, Nat.eqb_refl by exact Hlb; reflexivity|]; split; [reflexivity|].
          eapply entries_step; [|exact L|apply entries_set; eassumption]; auto.
        * intros E1 E2; eapply entry_step; [exact L|intros c Hc; right; exact Hc| |apply He; assumption].
          intros c gd' Hc Hnc; rewrite nth_upd by exact Hlb; destruct (Nat.eqb_spec c b) as [->|_]; [|exact Hnc].
          exfalso; apply Hne; eapply group_addr_inj; [exact HG|exact Hnd|exact Hc|exact Hg].
    - apply wf_set; exact Hwf.
    - exact HG.
    - exact Hnd.
    - intros c Hc; rewrite len_upd; apply Hr; exact Hc.
    - eapply unchanged_later; [|exact Hl|exact L|exact Hu]; intros c Hc; apply Hr in Hc; lia.
  Qed.

  Lemma new_group G a h R g gd GD : inv G a h R -> get g G = None -> entries (a :: map snd G) h gd GD ->
    exists h', h_assign (HRef a) g (HRef (List.length h)) (h ++ [ODict gd]) = (Ok tt, h') /\
      inv (G ++ [(g, List.length h)]) a h' (set (KStr g) (VDict GD) R) /\ later (a :: map snd G) h h'.
  Proof.
    intros I Hg HF; pose proof (inv_len _ _ _ _ I) as Hl; destruct I as [(rd & Hn & Hkeys & He) Hwf HG Hnd Hr Hu].
    pose proof (nth_lt _ _ _ Hn) as Ha; set (b := List.length h) in *.
    assert (L1 : later (a :: map snd G) h (h ++ [ODict gd])).
    { split; [rewrite app_length; lia|]; intros c _ Hc; apply nth_error_app1; exact Hc. }
    assert (Ha1 : nth_error (h ++ [ODict gd]) a = Some (ODict rd)) by (rewrite nth_error_app1; assumption).
    pose proof (nth_lt _ _ _ Ha1) as Hla.
    set (h' := update_nth (h ++ [ODict gd]) a (ODict (set (KStr g) (HRef b) rd))).
    assert (L : later (a :: map snd G) h h').
    { eapply later_trans; [exact L1|]; apply later_upd; [left; reflexivity|exact Hla]. }
    assert (HM : forall c, In c (a :: map snd (G ++ [(g, b)])) -> In c (a :: map snd G) \/ b <= c).
    { intros c; rewrite map_app; cbn [map snd]; intros [<-|Hc]; [left; left; reflexivity|].
      apply in_app_or in Hc; destruct Hc as [Hc|[<-|[]]]; [left; right; exact Hc|right; lia]. }
    exists h'; split; [cbn [h_assign]; rewrite Ha1; reflexivity|]; split; [|exact L]; constructor.
    - exists (set (KStr g) (HRef b) rd); split; [unfold h'; rewrite nth_upd, Nat.eqb_refl by exact Hla; reflexivity|]; split.
      + rewrite !keys_set, Hkeys; unfold has; pose proof (same_get rd R (KStr g) Hkeys) as E.
        destruct (get (KStr g) rd), (get (KStr g) R); try tauto; reflexivity.
      + intros k' w' v'; rewrite !get_set; destruct (eqb_spec k' (KStr g)) as [->|Hne].
        * intros E1 E2; injection E1 as <-; injection E2 as <-; unfold entry; cbn [group_addr].
          rewrite get_app, Hg; cbn [orelse]; rewrite get_cons, eqb_refl; split; [reflexivity|]; exists gd, GD.
          split; [|split; [reflexivity|]].
          { unfold h'; rewrite nth_upd by exact Hla; destruct (Nat.eqb_spec b a); [lia|].
            rewrite nth_error_app2, Nat.sub_diag by lia; reflexivity. }
          eapply entries_step; [exact HM|exact L|exact HF].
        * intros E1 E2; specialize (He _ _ _ E1 E2); unfold entry in *.
          assert (EG : group_addr (G ++ [(g, b)]) k' = group_addr G k').
          { destruct k' as [g'| | |]; try reflexivity; cbn [group_addr]; rewrite get_app.
            destruct (get g' G); [reflexivity|]; cbn [orelse]; rewrite get_cons, get_nil.
            destruct (eqb_spec g' g) as [->|_]; [congruence|reflexivity]. }
          rewrite EG; destruct (group_addr G k') as [c|] eqn:Ec.
          { destruct He as (-> & gd' & GD' & Hc & -> & HF'); split; [reflexivity|]; exists gd', GD'; split; [|split; [reflexivity|]].
            - apply addr_group in Ec; unfold h'; rewrite nth_upd by exact Hla; destruct (Nat.eqb_spec c a) as [->|_]; [inversion Hnd; tauto|].
              rewrite nth_error_app1; [exact Hc|exact (nth_lt _ _ _ Hc)].
            - eapply entries_step; [exact HM|exact L|exact HF']. }
          { eapply keeps_step; [exact HM|exact L|exact He]. }
    - apply wf_set; exact Hwf.
    - unfold wf, keys; rewrite map_app; cbn [map fst]; apply NoDup_rev in HG; unfold keys in HG.
      rewrite <- (rev_involutive (map fst G ++ [g])); apply NoDup_rev; rewrite rev_app_distr; cbn [rev app].
      constructor; [|exact HG]; rewrite <- in_rev; apply get_None; exact Hg.
    - inversion Hnd as [|? ? Hna Hnd']; subst; rewrite map_app; cbn [map snd]; constructor.
      + intros Hc; apply in_app_or in Hc; destruct Hc as [Hc|[Hc|[]]]; [tauto|lia].
      + rewrite <- (rev_involutive (map snd G ++ [b])); apply NoDup_rev; rewrite rev_app_distr; cbn [rev app].
        constructor; [|apply NoDup_rev; exact Hnd']; rewrite <- in_rev; intros Hc.
        specialize (Hr b (or_intror Hc)); lia.
    - intros c Hc; unfold h'; rewrite len_upd, app_length; cbn [List.length]; destruct (HM _ Hc) as [Hc'|Hc'].
      + apply Hr in Hc'; fold b in Hc'; lia.
      + destruct Hc as [<-|Hc]; [lia|]; rewrite map_app in Hc; apply in_app_or in Hc; destruct Hc as [Hc|[<-|[]]]; [|cbn; lia].
        specialize (Hr c (or_intror Hc)); lia.
    - eapply unchanged_later; [|exact Hl|exact L|exact Hu]; intros c Hc; apply Hr in Hc; lia.
  Qed.

  (** Also when the run fails, nothing that existed is changed. *)
  Definition fin {A B} (Q : heap -> A -> B -> Prop) (x : res A * heap) (y : res B) : Prop :=
    unchanged h0 (snd x) /\ agree Q x y.

  Lemma fin_bind {A B A' B'} (Q : heap -> A -> B -> Prop) (Q' : heap -> A' -> B' -> Prop) x y f g h :
    fin Q (x h) y -> (forall h' a b, unchanged h0 h' -> Q h' a b -> fin Q' (f a h') (g b)) ->
    fin Q' (hbind x f h) (bind y g).
  Proof.
    unfold fin, agree, hbind; destruct (x h) as [[a|e] h'], y as [b|e']; cbn [fst snd bind]; intros [U H] HQ; try tauto.
    exact (HQ _ _ _ U H).
  Qed.

  Lemma fin_impl {A B} (Q Q' : heap -> A -> B -> Prop) x y : (forall h a b, Q h a b -> Q' h a b) -> fin Q x y -> fin Q' x y.
  Proof. intros HQ [U H]; split; [exact U|]; unfold agree in *; destruct (fst x), y; auto. Qed.

  Lemma index_heap v k h : snd (h_index v k h) = h.
  Proof. destruct v; try reflexivity; cbn [h_index]; destruct (nth_error h a) as [[l|dd]|]; reflexivity. Qed.

  Lemma fin_index {B} Q v k h (y : res B) : unchanged h0 h -> agree Q (h_index v k h) y -> fin Q (h_index v k h) y.
  Proof. intros U H; split; [rewrite index_heap; exact U|exact H]. Qed.

  Lemma merge_type_heap t r b h : snd (h_merge_type t r b h) = h \/ exists o, snd (h_merge_type t r b h) = h ++ [o].
  Proof.
    assert (P : forall r b : hval, snd ((match r with HNone => ret b | _ => ret r end) h) = h) by (intros r' b'; destruct r'; reflexivity).
    destruct t; try (left; apply P); cbn [h_merge_type].
    destruct b; try (left; reflexivity); destruct (nth_error h a) as [[l|db]|]; try (left; reflexivity).
    destruct r; try (left; reflexivity); destruct (nth_error h a0) as [[l|da]|]; try (left; reflexivity).
    right; eexists; reflexivity.
  Qed.

  Lemma unchanged_app h o : List.length h0 <= List.length h -> unchanged h0 h -> unchanged h0 (h ++ [o]).
  Proof. intros L U c Hc; rewrite nth_error_app1 by lia; apply U; exact Hc. Qed.

  Lemma fin_merge_type M h t r rx b bx : List.length h0 <= List.length h -> unchanged h0 h ->
    (forall c, In c M -> c < List.length h) -> keeps M h r rx -> keeps M h b bx ->
    fin (fun h' m mx => keeps M h' m mx /\ (h' = h \/ exists o, h' = h ++ [o])) (h_merge_type t r b h) (merge_type t rx bx).
  Proof.
    intros L U HM Hr Hb; split.
    - destruct (merge_type_heap t r b h) as [E|[o E]]; rewrite E; [exact U|apply unchanged_app; assumption].
    - pose proof (merge_type_keeps M h t r rx b bx HM Hr Hb) as H; unfold agree in *.
      destruct (fst (h_merge_type t r b h)), (merge_type t rx bx); tauto.
  Qed.

  (** A new object that is not part of the result. *)
  Lemma inv_app G a h R o : inv G a h R -> inv G a (h ++ [o]) R.
  Proof.
    intros I; pose proof (inv_len _ _ _ _ I) as Hl; destruct I as [(rd & Hn & Hkeys & He) Hwf HG Hnd Hr Hu].
    assert (L : later (a :: map snd G) h (h ++ [o])).
    { split; [rewrite app_length; lia|]; intros c _ Hc; apply nth_error_app1; exact Hc. }
    constructor; auto.
    - exists rd; split; [rewrite nth_error_app1; [exact Hn|exact (nth_lt _ _ _ Hn)]|]; split; [exact Hkeys|].
      intros k w v E1 E2; eapply entry_step; [exact L|intros b Hb; right; exact Hb| |apply He; assumption].
      intros b gd _ Hb; rewrite nth_error_app1; [exact Hb|exact (nth_lt _ _ _ Hb)].
    - intros b Hb; rewrite app_length; apply Hr in Hb; lia.
    - apply unchanged_app; assumption.
  Qed.

  Lemma inv_range G a h R : inv G a h R -> forall c, In c (a :: map snd G) -> c < List.length h.
  Proof. intros [_ _ _ _ Hr _] c Hc; apply Hr in Hc; lia. Qed.

  Definition all_groups (G : dict text nat) : Prop := forall g, In g (keys G) <-> In g (keys (d_groups d)).

  Lemma later_app M (h : heap) o : later M h (h ++ [o]).
  Proof. split; [rewrite app_length; lia|]; intros c _ Hc; apply nth_error_app1; exact Hc. Qed.

  Lemma sim_merge_item G a h R bottom B name it : inv G a h R -> all_groups G -> get name (d_items d) = Some it ->
    keeps (a :: map snd G) h bottom (VDict B) ->
    fin (fun h' _ R' => inv G a h' R' /\ later (a :: map snd G) h h') (h_merge_item bottom (HRef a) (name, it) h) (merge_item B R (name, it)).
  Proof.
    intros I HG Hit Hb; pose proof (inv_len _ _ _ _ I) as Hl; pose proof (i_same _ _ _ _ I) as U.
    unfold h_merge_item, merge_item; destruct (is_group_name name) eqn:En.
    - apply is_group_name_In in En; destruct (split_group_spec _ En) as (g & s & Es & Ename & Hs); rewrite Es.
      assert (Hg : In g (keys G)) by (apply HG; subst name; eapply group_of_item; eassumption).
      apply get_Some_keys in Hg; destruct Hg as [b Hg].
      eapply fin_bind; [apply fin_index; [exact U|apply index_result; exact I]|].
      intros h1 rg RG _ (-> & He & HR); unfold entry in He; cbn [group_addr] in He; rewrite Hg in He.
      destruct He as (-> & gd & GD & Hnb & -> & HF).
      eapply fin_bind; [apply fin_index; [exact U|eapply index_dict; eassumption]|].
      intros h1 r rx _ (-> & Hr).
      eapply fin_bind; [apply fin_index; [exact U|exact (index_keeps _ _ _ _ g Hb)]|].
      intros h1 bg bgx _ (-> & Hbg).
      eapply fin_bind; [apply fin_index; [exact U|exact (index_keeps _ _ _ _ s Hbg)]|].
      intros h1 x xx _ (-> & Hx).
      eapply fin_bind; [apply (fin_merge_type (a :: map snd G)); [exact Hl|exact U|eapply inv_range; exact I|exact Hr|exact Hx]|].
      intros h1 m mx U1 (Hm & Hh).
      assert (I1 : inv G a h1 R) by (destruct Hh as [->|[o ->]]; [exact I|apply inv_app; exact I]).
      assert (L1 : later (a :: map snd G) h h1) by (destruct Hh as [->|[o ->]]; [apply later_refl|apply later_app]).
      unfold hbind; pose proof (index_result _ _ _ _ g I1) as Hi; unfold agree in Hi; pose proof (index_heap (HRef a) g h1) as Hh1.
      destruct (h_index (HRef a) g h1) as [ri h2]; cbn [fst snd] in Hi, Hh1; subst h2; unfold getitem in Hi; rewrite HR in Hi.
      destruct ri as [w|e]; [|tauto]; destruct Hi as (_ & He1 & _); unfold entry in He1; cbn [group_addr] in He1; rewrite Hg in He1.
      destruct He1 as (-> & _).
      destruct (assign_group _ _ _ _ g b GD s m mx I1 Hg HR Hm) as (h2 & E2 & I2 & L2); rewrite E2.
      split; [exact (i_same _ _ _ _ I2)|]; unfold agree; cbn [fst snd]; split; [exact I2|eapply later_trans; eassumption].
    - assert (Hng : group_addr G (KStr name) = None).
      { cbn [group_addr]; apply get_None; intros Hin; apply HG in Hin; apply (ok_disjoint _ Hd) in Hin; apply Hin.
        apply get_Some_keys; eauto. }
      eapply fin_bind; [apply fin_index; [exact U|apply index_result; exact I]|].
      intros h1 r rx _ (-> & Hr & HR); unfold entry in Hr; rewrite Hng in Hr.
      eapply fin_bind; [apply fin_index; [exact U|exact (index_keeps _ _ _ _ name Hb)]|].
      intros h1 x xx _ (-> & Hx).
      eapply fin_bind; [apply (fin_merge_type (a :: map snd G)); [exact Hl|exact U|eapply inv_range; exact I|exact Hr|exact Hx]|].
      intros h1 m mx U1 (Hm & Hh).
      assert (I1 : inv G a h1 R) by (destruct Hh as [->|[o ->]]; [exact I|apply inv_app; exact I]).
      assert (L1 : later (a :: map snd G) h h1) by (destruct Hh as [->|[o ->]]; [apply later_refl|apply later_app]).
      destruct (assign_result _ _ _ _ name m mx I1 Hng Hm) as (h2 & E2 & I2 & L2); rewrite E2.
      split; [exact (i_same _ _ _ _ I2)|]; unfold agree; cbn [fst snd]; split; [exact I2|eapply later_trans; eassumption].
  Qed.

  (** Loops. *)
  Lemma sim_loop {X Y S} (Q : heap -> S -> Prop) (l : list X) (l' : list Y) (P : X -> Y -> Prop) (f : X -> hm unit) (g : S -> Y -> res S) :
    Forall2 P l l' ->
    (forall x y h s, P x y -> In x l -> Q h s -> fin (fun h' _ s' => Q h' s') (f x h) (g s y)) ->
    forall h s, unchanged h0 h -> Q h s -> fin (fun h' _ s' => Q h' s') (hfor l f h) (foldM g l' s).
  Proof.
    intros HF; induction HF as [|x y l l' Hp HF IH]; intros Hstep h s U HQ; [split; [exact U|exact HQ]|].
    cbn [hfor foldM]; eapply fin_bind; [apply Hstep; [exact Hp|left; reflexivity|exact HQ]|].
    intros h1 x1 s1 U1 HQ1; cbv beta in HQ1; apply IH; [|exact U1|exact HQ1].
    intros x' y' h' s' Hp' Hin; apply Hstep; [exact Hp'|right; exact Hin].
  Qed.

  Lemma Forall2_refl {X} (l : list X) : Forall2 eq l l.
  Proof. induction l; constructor; auto. Qed.

  Lemma sim_merge_all G a bottoms Bs h R : inv G a h R -> all_groups G ->
    Forall2 (fun b B => keeps (a :: map snd G) h b (VDict B)) bottoms Bs ->
    fin (fun h' _ R' => inv G a h' R') (hfor bottoms (fun bottom => hfor (d_items d) (fun p => h_merge_item bottom (HRef a) p)) h)
      (foldM (fun r bottom => foldM (merge_item bottom) (d_items d) r) Bs R).
  Proof.
    intros I HG HF; set (M := a :: map snd G) in *.
    eapply fin_impl; [|apply (sim_loop (fun h' R' => inv G a h' R' /\ later M h h') _ _ _ _ _ HF)].
    - intros h' x R' [H _]; exact H.
    - intros b B h1 R1 Hb _ [I1 L1].
      eapply fin_impl; [|apply (sim_loop (fun h' R' => inv G a h' R' /\ later M h h') _ _ _ _ _ (Forall2_refl (d_items d)))].
      + intros h' x R' H; exact H.
      + intros p p' h2 R2 <- Hin [I2 L2]; destruct p as [name it].
        eapply fin_impl; [|apply (sim_merge_item G a h2 R2 b B name it I2 HG)].
        * intros h' x R' [I' L']; split; [exact I'|eapply later_trans; eassumption].
        * apply items_In; [exact Hd|exact Hin].
        * eapply keeps_step; [|exact L2|exact Hb]; auto.
      + exact (i_same _ _ _ _ I1).
      + split; assumption.
    - exact (i_same _ _ _ _ I).
    - split; [exact I|apply later_refl].
  Qed.

  (** ** Copies *)
  Lemma config_dict_keeps M h v x : keeps M h v x ->
    agree (fun h' w GD => w = HRef (List.length h) /\ exists gd, h' = h ++ [ODict gd] /\ entries M h gd GD) (h_config_dict v h) (dict_of x).
  Proof.
    intros H; unfold agree; destruct H as [| | |t| |a l vs Hm Hn HF|a dd ps Hm Hn HF]; cbn [h_config_dict dict_of fst snd]; auto.
    - destruct t; cbn [fst snd alloc]; [|reflexivity]; split; [reflexivity|]; exists []; split; [reflexivity|constructor].
    - rewrite Hn; destruct HF as [|w y l vs]; cbn [fst snd alloc]; [|reflexivity]; split; [reflexivity|]; exists []; split; [reflexivity|constructor].
    - rewrite Hn; cbn [fst snd alloc]; split; [reflexivity|]; exists dd; split; [reflexivity|exact HF].
  Qed.

  Lemma config_dict_heap v h : snd (h_config_dict v h) = h \/ exists o, snd (h_config_dict v h) = h ++ [o].
  Proof.
    destruct v; try (left; reflexivity); cbn [h_config_dict].
    - destruct t; [right; eexists; reflexivity|left; reflexivity].
    - destruct (nth_error h a) as [[[|x l]|dd]|]; try (left; reflexivity); right; eexists; reflexivity.
  Qed.

  Lemma sim_copy_groups a gs : forall G h R, inv G a h R -> NoDup gs -> (forall g, In g gs -> get g G = None) ->
    fin (fun h' _ R' => exists G', inv G' a h' R' /\ forall g, In g (keys G') <-> In g (keys G) \/ In g gs)
      (hfor gs (fun group => do v <- h_index (HRef a) group; do w <- h_config_dict v; h_assign (HRef a) group w) h)
      (foldM (fun acc g => let* v := getitem (KStr g) acc in let* gd := dict_of v in Ok (set (KStr g) (VDict gd) acc)) gs R).
  Proof.
    induction gs as [|g gs IH]; intros G h R I Hnd Hfresh.
    - split; [exact (i_same _ _ _ _ I)|]; exists G; split; [exact I|]; intros g; cbn; tauto.
    - pose proof (i_same _ _ _ _ I) as U; inversion Hnd as [|? ? Hni Hnd']; subst.
      assert (Hg : get g G = None) by (apply Hfresh; left; reflexivity).
      cbn [hfor foldM].
      apply (fin_bind (fun h' _ R' => inv (G ++ [(g, List.length h)]) a h' R')).
      + eapply fin_bind; [apply fin_index; [exact U|apply index_result; exact I]|].
        intros h1 v x _ (-> & He & HR); unfold entry in He; cbn [group_addr] in He; rewrite Hg in He.
        eapply fin_bind; [split; [|exact (config_dict_keeps _ _ _ _ He)]|].
        { destruct (config_dict_heap v h) as [E|[o E]]; rewrite E; [exact U|].
          apply unchanged_app; [eapply inv_len; exact I|exact U]. }
        intros h1 w GD _ (-> & gd & -> & HF).
        destruct (new_group _ _ _ _ g gd GD I Hg HF) as (h2 & E2 & I2 & _); rewrite E2.
        split; [exact (i_same _ _ _ _ I2)|exact I2].
      + intros h1 x1 R1 U1 I1; cbv beta in I1.
        eapply fin_impl; [|apply (IH _ _ _ I1 Hnd')].
        * intros h2 x2 R2 (G' & I' & HG'); exists G'; split; [exact I'|]; intros g'; rewrite HG'; unfold keys; rewrite map_app; cbn [map fst].
          rewrite in_app_iff; cbn [In]; tauto.
        * intros g' Hin; rewrite get_app, (Hfresh g' (or_intror Hin)); cbn [orelse]; rewrite get_cons, get_nil.
          destruct (eqb_spec g' g) as [->|_]; [tauto|reflexivity].
  Qed.

  Lemma start_inv h rd C : List.length h0 <= List.length h -> unchanged h0 h -> wf C -> entries [List.length h] h rd C ->
    inv [] (List.length h) (h ++ [ODict rd]) C.
  Proof.
    intros L U Hwf HF; constructor.
    - exists rd; split; [rewrite nth_error_app2, Nat.sub_diag by lia; reflexivity|]; split.
      + clear -HF; unfold keys; induction HF as [|p q l l' [Hk _] HF IH]; [reflexivity|]; cbn [map]; rewrite Hk, IH; reflexivity.
      + intros k w v E1 E2; unfold entry; assert (EG : group_addr [] k = None) by (destruct k; reflexivity); rewrite EG.
        pose proof (entries_get _ _ _ _ k HF) as E; rewrite E1, E2 in E.
        eapply keeps_step; [|apply later_app|exact E]; auto.
    - exact Hwf.
    - constructor.
    - constructor; [intros []|constructor].
    - intros b [<-|[]]; rewrite app_length; cbn [List.length]; lia.
    - apply unchanged_app; assumption.
  Qed.

  Lemma reads_entries M rd C : (forall b, In b M -> List.length h0 <= b) ->
    Forall2 (fun x y => fst x = fst y /\ reads h0 (snd x) (snd y)) rd C -> entries M h0 rd C.
  Proof.
    intros HM HF; induction HF as [|p q l l' [Hk Hv] HF IH]; constructor; [|exact IH]; split; [exact Hk|apply reads_keeps; assumption].
  Qed.

  Lemma sim_copy top C : reads h0 top (VDict C) -> wf C ->
    fin (fun h' r R => exists G a, r = HRef a /\ inv G a h' R /\ all_groups G) (h_copy_config d top h0) (copy_config d C).
  Proof.
    intros Hr Hwf; inversion Hr as [| | | | | |a0 rd ps Hn HF]; subst.
    unfold h_copy_config, copy_config; unfold hbind at 1; cbn [h_config_dict]; rewrite Hn; cbn [alloc].
    set (a := List.length h0) in *.
    assert (I : inv [] a (h0 ++ [ODict rd]) C).
    { apply start_inv; [reflexivity|intros c _; reflexivity|exact Hwf|]; apply reads_entries; [|exact HF].
      intros b [<-|[]]; reflexivity. }
    rewrite <- (bind_ret_r (foldM _ _ _)).
    eapply fin_bind; [apply (sim_copy_groups a (keys (d_groups d)) [] _ _ I (ok_groups _ Hd)); intros; apply get_nil|].
    intros h' x R U (G' & I' & HG'); split; [exact U|]; exists G', a; split; [reflexivity|]; split; [exact I'|].
    intros g; rewrite HG'; cbn; tauto.
  Qed.

  Lemma sim_merge_configs top C more Bs : reads h0 top (VDict C) -> wf C ->
    Forall2 (fun b B => reads h0 b (VDict B)) more Bs ->
    fin (fun h' r R => exists G a, r = HRef a /\ inv G a h' R /\ all_groups G) (h_merge_configs d top more h0) (merge_configs d C Bs).
  Proof.
    intros Hr Hwf HB; unfold h_merge_configs, merge_configs.
    eapply fin_bind; [apply sim_copy; assumption|].
    intros h1 r R1 U1 (G & a & -> & I1 & HG).
    rewrite <- (bind_ret_r (foldM _ Bs R1)).
    eapply fin_bind; [apply (sim_merge_all G a more Bs h1 R1 I1 HG)|].
    - clear -HB I1; induction HB as [|b B bs Bs Hb HB IH]; constructor; [|exact IH].
      assert (HM : forall c, In c (a :: map snd G) -> List.length h0 <= c) by (intros c Hc; apply (i_range _ _ _ _ I1) in Hc; lia).
      eapply (keeps_step (a :: map snd G)); [| |apply (reads_keeps _ h0 _ HM _ Hb)]; [auto|].
      split; [eapply inv_len; exact I1|]; intros c _ Hc; apply (i_same _ _ _ _ I1); exact Hc.
    - intros h2 x R2 U2 I2; split; [exact U2|]; exists G, a; auto.
  Qed.

  (** ** Defaults *)
  Variable default : text -> hval.
  Hypothesis Hdefault : forall name it, get name (d_items d) = Some it -> reads h0 (default name) (i_default it).

  Lemma sim_defaults :
    fin (fun h' r R => exists G a, r = HRef a /\ inv G a h' R) (h_config_from_defaults d default h0) (config_from_defaults d).
  Proof.
    unfold h_config_from_defaults, config_from_defaults; unfold hbind at 1, new_dict; cbn [alloc].
    set (a := List.length h0) in *.
    assert (I : inv [] a (h0 ++ [ODict []]) []).
    { apply start_inv; [reflexivity|intros c _; reflexivity|constructor|constructor]. }
    rewrite <- (bind_ret_r (foldM _ _ _)).
    set (Q := fun (h : heap) (R : pydict) => exists G, inv G a h R /\ (forall g, In g (keys G) -> In g (keys (d_groups d))) /\
                (forall g, In g (keys (d_groups d)) -> (has (KStr g) R = true <-> In g (keys G)))).
    eapply (fin_bind (fun h' _ R' => Q h' R')).
    - apply (sim_loop Q _ _ _ _ _ (Forall2_refl (d_items d))).
      2: { exact (i_same _ _ _ _ I). }
      2: { exists []; split; [exact I|]; split; [intros g []|]; intros g _; split; [discriminate|intros []]. }
      intros p p' h R <- Hin (G & IG & HG1 & HG2); destruct p as [name it]; apply items_In in Hin; [|exact Hd].
      assert (HM : forall c, In c (a :: map snd G) -> List.length h0 <= c) by (intros c Hc; apply (i_range _ _ _ _ IG) in Hc; lia).
      assert (Hk : forall G' h', inv G' a h' R \/ (exists R', inv G' a h' R') -> keeps (a :: map snd G') h' (default name) (i_default it)).
      { intros G' h' HI; assert (HI' : exists R', inv G' a h' R') by (destruct HI as [HI|HI]; [eauto|exact HI]); destruct HI' as [R' I'].
        assert (HM' : forall c, In c (a :: map snd G') -> List.length h0 <= c) by (intros c Hc; apply (i_range _ _ _ _ I') in Hc; lia).
        eapply (keeps_step (a :: map snd G')); [| |apply (reads_keeps _ h0 _ HM' _ (Hdefault _ _ Hin))]; [auto|].
        split; [eapply inv_len; exact I'|]; intros c _ Hc; apply (i_same _ _ _ _ I'); exact Hc. }
      destruct (is_group_name name) eqn:En.
      + apply is_group_name_In in En; destruct (split_group_spec _ En) as (g & s & Es & Ename & Hs); rewrite Es.
        assert (Hg : In g (keys (d_groups d))) by (subst name; eapply group_of_item; eassumption).
        pose proof (i_obj _ _ _ _ IG) as (rd & Hn & Hkeys & He).
        assert (Eh : has (KStr g) rd = has (KStr g) R).
        { unfold has; pose proof (same_get rd R (KStr g) Hkeys) as E; destruct (get (KStr g) rd), (get (KStr g) R); tauto. }
        unfold hbind at 1, hhas, hbind at 1; cbn [items]; rewrite Hn; cbn [ret]; rewrite Eh.
        (* in both cases the group exists afterwards *)
        assert (Z : exists G' h' b GD, let R' := if has (KStr g) R then R else set (KStr g) (VDict []) R in
          (if has (KStr g) R then ret tt else do g' <- new_dict; h_assign (HRef a) g g') h = (Ok tt, h') /\
          inv G' a h' R' /\ get g G' = Some b /\ get (KStr g) R' = Some (VDict GD) /\
          (forall g', In g' (keys G') <-> In g' (keys G) \/ g' = g)).
        { destruct (has (KStr g) R) eqn:Hh.
          - pose proof (proj1 (HG2 g Hg) Hh) as Hgin; apply get_Some_keys in Hgin; destruct Hgin as [b Hb].
            apply has_true in Hh; destruct Hh as [x Hx]; pose proof (same_get rd R (KStr g) Hkeys) as E; rewrite Hx in E.
            destruct (get (KStr g) rd) as [w|] eqn:Ew; [|tauto]; specialize (He _ _ _ Ew Hx); unfold entry in He; cbn [group_addr] in He.
            rewrite Hb in He; destruct He as (_ & gd & GD & _ & -> & _).
            exists G, h, b, GD; cbv zeta; split; [reflexivity|]; split; [exact IG|]; split; [exact Hb|]; split; [exact Hx|].
            intros g'; split; [auto|]; intros [H | ->]; [exact H|]; apply get_Some_keys; eauto.
          - assert (Hgn : get g G = None).
            { apply get_None; intros Hgin; apply (HG2 g Hg) in Hgin; congruence. }
            destruct (new_group _ _ _ _ g [] [] IG Hgn (Forall2_nil _)) as (h2 & E2 & I2 & _).
            exists (G ++ [(g, List.length h)]), h2, (List.length h), []; cbv zeta.
            split; [unfold hbind, new_dict; cbn [alloc]; exact E2|]; split; [exact I2|].
            split; [rewrite get_app, Hgn; cbn [orelse]; rewrite get_cons, eqb_refl; reflexivity|].
            split; [apply get_set_same|]; intros g'; unfold keys; rewrite map_app, in_app_iff; cbn [map fst In].
            split; [intros [H|[H|[]]]; auto|intros [H|H]; auto]. }
        destruct Z as (G' & h' & b & GD & Z); cbv zeta in Z; destruct Z as (E1 & I1 & Hb & HR & HG').
        unfold new_dict in E1; unfold hbind at 1; rewrite E1; cbv zeta.
        set (R' := if has (KStr g) R then R else set (KStr g) (VDict []) R) in *.
        rewrite HR.
        unfold hbind at 1; pose proof (index_result _ _ _ _ g I1) as Hi; unfold agree in Hi; pose proof (index_heap (HRef a) g h') as Hh1.
        destruct (h_index (HRef a) g h') as [ri h2]; cbn [fst snd] in Hi, Hh1; subst h2; unfold getitem in Hi; rewrite HR in Hi.
        destruct ri as [w|e]; [|tauto]; destruct Hi as (_ & He1 & _); unfold entry in He1; cbn [group_addr] in He1; rewrite Hb in He1.
        destruct He1 as (-> & _).
        destruct (assign_group _ _ _ _ g b GD s _ _ I1 Hb HR (Hk G' h' (or_intror (ex_intro _ _ I1)))) as (h2 & E2 & I2 & L2); rewrite E2.
        split; [exact (i_same _ _ _ _ I2)|]; unfold agree; cbn [fst snd]; exists G'; split; [exact I2|]; split.
        * intros g' Hg'; apply HG' in Hg'; destruct Hg' as [Hg' | ->]; [apply HG1; exact Hg'|exact Hg].
        * intros g' Hg'; rewrite HG', <- (HG2 g' Hg').
          rewrite !has_keys, in_keys_set; subst R'; destruct (has (KStr g) R) eqn:Eg.
          { apply has_keys in Eg; split; [intros [E|E]; [injection E as ->; auto|auto]|intros [E | ->]; auto]. }
          { rewrite in_keys_set; split; [intros [E|[E|E]]; [injection E as ->; auto|injection E as ->; auto|auto]|intros [E | ->]; auto]. }
      + assert (Hni : ~ In name (keys (d_groups d))).
        { intros H; apply (ok_disjoint _ Hd) in H; apply H; apply get_Some_keys; eauto. }
        assert (Hng : group_addr G (KStr name) = None).
        { cbn [group_addr]; apply get_None; intros H; apply Hni, HG1, H. }
        destruct (assign_result _ _ _ _ name _ _ IG Hng (Hk G h (or_introl IG))) as (h2 & E2 & I2 & L2); rewrite E2.
        split; [exact (i_same _ _ _ _ I2)|]; unfold agree; cbn [fst snd]; exists G; split; [exact I2|]; split; [exact HG1|].
        intros g Hg; rewrite <- (HG2 g Hg), !has_keys, in_keys_set; split; [intros [E|E]; [injection E as ->; tauto|exact E]|auto].
    - intros h' x R U (G & IG & _); split; [exact U|]; exists G, a; auto.
  Qed.

  (** ** Reading the result *)
  Lemma inv_reads G a h R : inv G a h R -> reads h (HRef a) (VDict R).
  Proof.
    intros [(rd & Hn & Hkeys & He) Hwf _ _ _ _]; apply RDict with (d := rd); [exact Hn|].
    assert (Hwr : wf rd) by (unfold wf; rewrite Hkeys; exact Hwf).
    assert (He' : forall k w v, In (k, w) rd -> In (k, v) R -> reads h w v).
    { intros k w v H1 H2; apply In_get in H1, H2; [|assumption|assumption]; specialize (He _ _ _ H1 H2); unfold entry in He.
      destruct (group_addr G k) as [b|]; [|eapply keeps_reads; exact He].
      destruct He as (-> & gd & GD & Hb & -> & HF); apply RDict with (d := gd); [exact Hb|].
      clear -HF; induction HF as [|p q l l' [Hk Hv] HF IH]; constructor; [split; [exact Hk|eapply keeps_reads; exact Hv]|exact IH]. }
    clear -Hkeys He'; revert R Hkeys He'; induction rd as [|[k w] rd IH]; intros [|[k' v] R] Hkeys He'; try discriminate; [constructor|].
    unfold keys in Hkeys; cbn [map fst] in Hkeys; injection Hkeys as <- Hkeys; constructor.
    - split; [reflexivity|]; cbn [snd]; apply (He' k); left; reflexivity.
    - apply IH; [exact Hkeys|]; intros k0 w0 v0 H1 H2; apply (He' k0); right; assumption.
  Qed.
End Run.
