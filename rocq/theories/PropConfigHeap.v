(** C112: configurations as objects. *)
From Verif Require Import Base Dict PyVal Util Config ConfigSpec ConfigProofs PropConfig XylemConfig PropConfigPrint.
From Verif Require Import Heap HeapSpec HeapProofs PropHeap ConfigHeap ConfigHeapProofs.
From Coq Require Import Lia.

(** [v] is a configuration object of its own: neither the dict nor the dicts of its groups exist in
    [h], and no two of these are the same. *)
Definition own_config (d : desc) (h h' : heap) (v : hval) : Prop :=
  exists a rd, v = HRef a /\ List.length h <= a /\ nth_error h' a = Some (ODict rd) /\
    (forall g w, In g (keys (d_groups d)) -> get (KStr g) rd = Some w ->
       exists b gd, w = HRef b /\ List.length h <= b /\ b <> a /\ nth_error h' b = Some (ODict gd)) /\
    (forall g g' w, In g (keys (d_groups d)) -> In g' (keys (d_groups d)) ->
       get (KStr g) rd = Some w -> get (KStr g') rd = Some w -> g = g').

Lemma inv_own h d G a h' R : inv h G a h' R -> all_groups d G -> own_config d h h' (HRef a).
Proof.
  intros [(rd & Hn & Hkeys & He) Hwf HG Hnd Hr Hu] HA; exists a, rd; split; [reflexivity|].
  split; [specialize (Hr a (or_introl eq_refl)); lia|]; split; [exact Hn|].
  assert (Q : forall g w, In g (keys (d_groups d)) -> get (KStr g) rd = Some w -> exists b gd, get g G = Some b /\ w = HRef b /\ nth_error h' b = Some (ODict gd)).
  { intros g w Hg Ew; apply HA in Hg; apply get_Some_keys in Hg; destruct Hg as [b Hb].
    pose proof (same_get rd R (KStr g) Hkeys) as E; rewrite Ew in E; destruct (get (KStr g) R) as [v|] eqn:Ev; [|tauto].
    specialize (He _ _ _ Ew Ev); unfold entry in He; cbn [group_addr] in He; rewrite Hb in He.
    destruct He as (-> & gd & GD & Hb' & _); exists b, gd; auto. }
  split.
  - intros g w Hg Ew; destruct (Q g w Hg Ew) as (b & gd & Hb & -> & Hn'); exists b, gd; split; [reflexivity|].
    apply group_in_M in Hb; split; [specialize (Hr b (or_intror Hb)); lia|]; split; [|exact Hn'].
    intros ->; inversion Hnd; tauto.
  - intros g g' w Hg Hg' E E'; destruct (Q g w Hg E) as (b & gd & Hb & -> & _); destruct (Q g' _ Hg' E') as (b' & gd' & Hb' & Eq & _).
    injection Eq as <-; assert (Z : KStr g = KStr g') by (eapply (group_addr_inj G a); [exact HG|exact Hnd|exact Hb|exact Hb']).
    injection Z as ->; reflexivity.
Qed.

(** Merging configuration objects, however they share structure, gives what merging their
    values gives, in an object of its own; no object that existed is changed, even if merging
    fails. *)
Theorem C112_merge d h top C more Bs : reachable d -> wf C -> reads h top (VDict C) ->
  Forall2 (fun b B => reads h b (VDict B)) more Bs ->
  let '(r, h') := h_merge_configs d top more h in
  unchanged h h' /\
  match merge_configs d C Bs with
  | Ok R => exists v, r = Ok v /\ reads h' v (VDict R) /\ own_config d h h' v
  | Err e => r = Err e
  end.
Proof.
  intros Hd Hwf Hr HB; apply reachable_names_ok in Hd.
  pose proof (sim_merge_configs h d Hd top C more Bs Hr Hwf HB) as [U A].
  destruct (h_merge_configs d top more h) as [r h']; cbn [snd] in U; split; [exact U|].
  unfold agree in A; cbn [fst snd] in A; destruct r as [v|e], (merge_configs d C Bs) as [R|e']; try tauto; [|congruence].
  destruct A as (G & a & -> & I & HA); exists (HRef a); split; [reflexivity|]; split.
  - eapply inv_reads; exact I.
  - eapply inv_own; eassumption.
Qed.

(** Making the default configuration, whose options are the default objects of the
    description. *)
Theorem C112_defaults d default h : reachable d ->
  (forall name it, get name (d_items d) = Some it -> reads h (default name) (i_default it)) ->
  let '(r, h') := h_config_from_defaults d default h in
  unchanged h h' /\
  match config_from_defaults d with
  | Ok R => exists v, r = Ok v /\ reads h' v (VDict R)
  | Err e => r = Err e
  end.
Proof.
  intros Hd Hdf; apply reachable_names_ok in Hd; pose proof (sim_defaults h d Hd default Hdf) as [U A].
  destruct (h_config_from_defaults d default h) as [r h']; cbn [snd] in U; split; [exact U|].
  unfold agree in A; cbn [fst snd] in A; destruct r as [v|e], (config_from_defaults d) as [R|e']; try tauto; [|congruence].
  destruct A as (G & a & -> & I); exists (HRef a); split; [reflexivity|]; eapply inv_reads; exact I.
Qed.

Lemma defaults_length d default h : reachable d ->
  (forall name it, get name (d_items d) = Some it -> reads h (default name) (i_default it)) ->
  forall v h', h_config_from_defaults d default h = (Ok v, h') -> List.length h <= List.length h'.
Proof.
  intros Hd Hdf v h' E; apply reachable_names_ok in Hd; pose proof (sim_defaults h d Hd default Hdf) as [U A].
  rewrite E in A; unfold agree in A; cbn [fst snd] in A; destruct (config_from_defaults d) as [R|e]; [|tauto].
  destruct A as (G & a & _ & I); eapply inv_len; exact I.
Qed.

(** What [load_config] and [ensure_config] do in the end: the defaults are made and merged last. *)
Theorem C112_load d default h top C more Bs : reachable d -> wf C ->
  (forall name it, get name (d_items d) = Some it -> reads h (default name) (i_default it)) ->
  reads h top (VDict C) -> Forall2 (fun b B => reads h b (VDict B)) more Bs ->
  let '(r, h') := h_merge_with_defaults d default top more h in
  unchanged h h' /\
  match (let* dflt := config_from_defaults d in merge_configs d C (Bs ++ [dflt])) with
  | Ok R => exists v, r = Ok v /\ reads h' v (VDict R) /\ own_config d h h' v
  | Err e => r = Err e
  end.
Proof.
  intros Hd Hwf Hdf Hr HB; unfold h_merge_with_defaults, hbind.
  pose proof (C112_defaults d default h Hd Hdf) as H1; pose proof (defaults_length d default h Hd Hdf) as HL.
  destruct (h_config_from_defaults d default h) as [[v1|e1] h1]; destruct H1 as [U1 H1].
  2: { split; [exact U1|]; destruct (config_from_defaults d) as [D|e]; [destruct H1 as (v & E & _); discriminate|exact H1]. }
  destruct (config_from_defaults d) as [D|e]; [|discriminate]; cbn [bind].
  destruct H1 as (v & E & Hv); injection E as <-; specialize (HL _ _ eq_refl).
  pose proof (C112_merge d h1 top C (more ++ [v1]) (Bs ++ [D]) Hd Hwf (reads_weaken _ _ _ _ U1 Hr)) as H2.
  destruct (h_merge_configs d top (more ++ [v1]) h1) as [r h2]; destruct H2 as [U2 H2].
  { apply Forall2_app; [|constructor; [exact Hv|constructor]].
    clear -HB U1; induction HB as [|b B bs Bs Hb HB IH]; constructor; [eapply reads_weaken; eassumption|exact IH]. }
  split; [eapply unchanged_trans; eassumption|].
  destruct (merge_configs d C (Bs ++ [D])) as [R|e]; [|exact H2].
  destruct H2 as (w & -> & Hw & a & rd & -> & Ha & Hn & Hg1 & Hg2); exists (HRef a); split; [reflexivity|]; split; [exact Hw|].
  exists a, rd; split; [reflexivity|]; split; [lia|]; split; [exact Hn|]; split; [|exact Hg2].
  intros g w Hg Ew; destruct (Hg1 g w Hg Ew) as (b & gd & -> & Hb & Hne & Hnb); exists b, gd; split; [reflexivity|]; split; [lia|auto].
Qed.

(** So setting options of the result, [config.x = v] or [config.group.x = v] as [process_config]
    does, changes nothing that existed before it was made. *)
Theorem C112_setting_options d h h' c k v : own_config d h h' c ->
  unchanged h h' ->
  (forall h2, h_assign c k v h' = (Ok tt, h2) -> unchanged h h2) /\
  (forall g o h2, In g (keys (d_groups d)) -> h_index c g h' = (Ok o, h') -> h_assign o k v h' = (Ok tt, h2) -> unchanged h h2).
Proof.
  intros (a & rd & -> & Ha & Hn & Hg & _) U.
  assert (W : forall b h2, List.length h <= b -> h_assign (HRef b) k v h' = (Ok tt, h2) -> unchanged h h2).
  { intros b h2 Hb E; cbn [h_assign] in E; destruct (nth_error h' b) as [[l|dd]|] eqn:Eb; try discriminate.
    injection E as <-; intros c Hc; rewrite nth_upd by (eapply nth_lt; exact Eb).
    destruct (Nat.eqb_spec c b) as [->|_]; [lia|apply U; exact Hc]. }
  split; [intros h2; apply W; exact Ha|].
  intros g o h2 Hin Ei; cbn [h_index] in Ei; rewrite Hn in Ei; injection Ei as Ei; unfold getitem in Ei.
  destruct (get (KStr g) rd) as [w|] eqn:Ew; [|discriminate]; injection Ei as ->.
  destruct (Hg g o Hin Ew) as (b & gd & -> & Hb & _); apply W; exact Hb.
Qed.

(** ** Default objects are shared *)
(** The objects made by [build_config_description] for the defaults of xylem's options. *)
Definition x_heap : heap := [ODict []; ODict []; OList []; OList []; OList []].
Definition x_default (name : text) : hval :=
  if eqb name (u "install_from") then HRef 0
  else if eqb name (u "installer_options") then HRef 1
  else if eqb name (u "disabled_plugins/os") then HRef 2
  else if eqb name (u "disabled_plugins/installer") then HRef 3
  else if eqb name (u "disabled_plugins/spec") then HRef 4
  else if eqb name (u "use_additional_installers") then HBool true
  else if eqb name (u "user_sources") then HBool false
  else HNone.

Example x_defaults_read name it : get name (d_items xdesc) = Some it -> reads x_heap (x_default name) (i_default it).
Proof.
  intros H; apply get_In in H; unfold xdesc in H; vm_compute in H.
  repeat (destruct H as [H|H]; [injection H as <- <-; vm_compute; try (constructor; fail);
    (eapply RDict; [reflexivity|constructor]) || (eapply RList; [reflexivity|constructor])|]); destruct H.
Qed.

(** [get_default_config().install_from["apt"] = [...]], and then [get_default_config()], "a fresh
    default config object": it has the new entry. *)
Theorem C112_fresh_default_refuted : exists c1 h1 o h2 x,
  h_config_from_defaults xdesc x_default x_heap = (Ok c1, h1) /\
  h_index c1 (u "install_from") h1 = (Ok o, h1) /\
  h_assign o (u "apt") x h1 = (Ok tt, h2) /\
  exists c2 h3 o' d', h_config_from_defaults xdesc x_default h2 = (Ok c2, h3) /\ c2 <> c1 /\
    h_index c2 (u "install_from") h3 = (Ok o', h3) /\ reads h3 o' (VDict d') /\ d' <> [].
Proof.
  let r := eval vm_compute in (h_config_from_defaults xdesc x_default x_heap) in
  match r with (Ok ?c, ?h) => exists c, h end.
  exists (HRef 0); eexists; exists (HStr (u "x")).
  split; [vm_compute; reflexivity|]; split; [vm_compute; reflexivity|]; split; [vm_compute; reflexivity|].
  do 3 eexists; exists [(KStr (u "apt"), VStr (u "x"))]; split; [vm_compute; reflexivity|]; split; [discriminate|].
  split; [vm_compute; reflexivity|]; split; [|discriminate].
  eapply RDict; [vm_compute; reflexivity|]; constructor; [|constructor]; split; [reflexivity|constructor].
Qed.

(** Also the lists in a loaded configuration are the default objects. *)
Theorem C112_loaded_list_refuted : exists top h c h' g,
  h_merge_with_defaults xdesc x_default top [] h = (Ok c, h') /\ (exists C, reads h top (VDict C)) /\
  (forall name it, get name (d_items xdesc) = Some it -> reads h (x_default name) (i_default it)) /\
  h_index c (u "disabled_plugins") h' = (Ok g, h') /\ h_index g (u "os") h' = (Ok (x_default (u "disabled_plugins/os")), h').
Proof.
  (* an empty configuration file *)
  pose (t := [(u "os_override", HNone); (u "core_installers", HNone); (u "use_additional_installers", HNone); (u "install_from", HRef 5);
              (u "installer_options", HRef 5); (u "user_sources", HNone); (u "cache_dir", HNone); (u "sources_dir", HNone);
              (u "os_options", HRef 6); (u "disabled_plugins", HRef 7)]).
  exists (HRef 8), (x_heap ++ [ODict []; ODict [(KStr (u "features"), HNone)];
     ODict [(KStr (u "os"), HNone); (KStr (u "installer"), HNone); (KStr (u "spec"), HNone)];
     ODict (map (fun p => (KStr (fst p), snd p)) t)]).
  do 3 eexists; split; [vm_compute; reflexivity|]; split.
  { exists (map (fun p => (KStr (fst p), snd p))
             [(u "os_override", VNone); (u "core_installers", VNone); (u "use_additional_installers", VNone); (u "install_from", VDict []);
              (u "installer_options", VDict []); (u "user_sources", VNone); (u "cache_dir", VNone); (u "sources_dir", VNone);
              (u "os_options", VDict [(KStr (u "features"), VNone)]);
              (u "disabled_plugins", VDict [(KStr (u "os"), VNone); (KStr (u "installer"), VNone); (KStr (u "spec"), VNone)])]).
    eapply RDict; [reflexivity|].
    repeat (apply Forall2_cons; [split; [reflexivity|]; try (constructor; fail);
              (eapply RDict; [reflexivity|]; repeat (apply Forall2_cons; [split; [reflexivity|constructor]|]); apply Forall2_nil)|]); apply Forall2_nil. }
  split; [|split; vm_compute; reflexivity].
  intros name it H; eapply reads_weaken; [|apply x_defaults_read; exact H].
  intros a Ha; rewrite nth_error_app1 by exact Ha; reflexivity.
Qed.

(** ** A concrete case *)
(** Two configurations that share an object, merged. *)
Definition ex_items : list item :=
  [make_item (u "a") (TMerging KtString TString) VNone None None None; make_item (u "g/b") (TList TString) VNone None None None].
Definition ex_desc : desc := fold_left (fun d it => fst (add d it)) ex_items (empty_desc (u "x.yaml")).
Definition ex_heap : heap :=
  [ODict [(KStr (u "k"), HStr (u "v"))]; OList [HStr (u "w")];
   ODict [(KStr (u "b"), HNone)]; ODict [(KStr (u "b"), HRef 1)];
   ODict [(KStr (u "a"), HRef 0); (KStr (u "g"), HRef 2)]; ODict [(KStr (u "a"), HRef 0); (KStr (u "g"), HRef 3)]].
Example C112_nonvacuous : reachable ex_desc /\
  reads ex_heap (HRef 4) (VDict [(KStr (u "a"), VDict [(KStr (u "k"), VStr (u "v"))]); (KStr (u "g"), VDict [(KStr (u "b"), VNone)])]) /\
  reads ex_heap (HRef 5) (VDict [(KStr (u "a"), VDict [(KStr (u "k"), VStr (u "v"))]); (KStr (u "g"), VDict [(KStr (u "b"), VList [VStr (u "w")])])]) /\
  h_merge_configs ex_desc (HRef 4) [HRef 5] ex_heap =
  (Ok (HRef 6), ex_heap ++ [ODict [(KStr (u "a"), HRef 8); (KStr (u "g"), HRef 7)]; ODict [(KStr (u "b"), HRef 1)]; ODict [(KStr (u "k"), HStr (u "v"))]]).
Proof.
  split; [exists (u "x.yaml"), ex_items; reflexivity|].
  split; [|split; [|vm_compute; reflexivity]];
    (eapply RDict; [reflexivity|]; apply Forall2_cons; [split; [reflexivity|]|apply Forall2_cons; [split; [reflexivity|]|apply Forall2_nil]];
     (eapply RDict; [reflexivity|]; apply Forall2_cons; [split; [reflexivity|]|apply Forall2_nil])).
  - constructor.
  - constructor.
  - constructor.
  - eapply RList; [reflexivity|]; apply Forall2_cons; [constructor|apply Forall2_nil].
Qed.

Print Assumptions C112_merge.
Print Assumptions C112_defaults.
Print Assumptions C112_load.
Print Assumptions C112_setting_options.
Print Assumptions C112_fresh_default_refuted.
Print Assumptions C112_loaded_list_refuted.
