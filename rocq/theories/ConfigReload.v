(** Facts about writing a loaded configuration to a file and loading it again (C106). *)
From Verif Require Import Base Dict PyVal Sources Util Paths Config ConfigSpec ConfigTypeProofs ConfigProofs XylemConfig
  SourcesSpec CacheProofs Order.

(** ** Values in the form loading produces *)
Definition settled (env : penv) (t : ctype) (v : pyval) : Prop := from_yaml env t v = Ok v.

Lemma settled_entries env k e d : env_ok env -> settled env (TMerging k e) (VDict d) ->
  wf d /\ forall p, In p d -> from_yaml env e (snd p) = Ok (snd p) /\ key_from_yaml env k (fst p) = Ok (fst p).
Proof.
  intros He H; unfold settled in H; cbn [from_yaml] in H.
  apply bind_Ok in H; destruct H as (d' & Ed & E); apply verify_Ok_eq in E; destruct E as [E _].
  injection E as <-; fold (entry_step env k e) in Ed; split; [apply (entries_wf _ _ _ _ _ _ Ed), wf_nil|].
  intros p Hp; destruct (entries_result _ _ _ _ _ _ Ed p Hp) as [[]|(q & _ & E1 & E2)].
  split; [eapply from_yaml_id; eassumption|eapply key_from_yaml_id; eassumption].
Qed.

Lemma settled_of_entries env k e d : wf d ->
  (forall p, In p d -> from_yaml env e (snd p) = Ok (snd p) /\ key_from_yaml env k (fst p) = Ok (fst p)) ->
  settled env (TMerging k e) (VDict d).
Proof.
  intros Hw H; unfold settled; cbn [from_yaml]; fold (entry_step env k e).
  rewrite (entries_id env k e d [] Hw H); cbn [app bind]; apply verify_type_spec.
  exists d; split; [reflexivity|]; apply Forall_forall; intros p Hp; destruct (H p Hp) as [E1 E2].
  split; [eapply key_from_yaml_typed; exact E2|eapply from_yaml_typed; exact E1].
Qed.

Lemma settled_entries_dict env k e d : env_ok env -> settled env (TDict k e) (VDict d) ->
  wf d /\ forall p, In p d -> from_yaml env e (snd p) = Ok (snd p) /\ key_from_yaml env k (fst p) = Ok (fst p).
Proof.
  intros He H; unfold settled in H; cbn [from_yaml] in H.
  apply bind_Ok in H; destruct H as (d' & Ed & E); apply verify_Ok_eq in E; destruct E as [E _].
  injection E as <-; fold (entry_step env k e) in Ed; split; [apply (entries_wf _ _ _ _ _ _ Ed), wf_nil|].
  intros p Hp; destruct (entries_result _ _ _ _ _ _ Ed p Hp) as [[]|(q & _ & E1 & E2)].
  split; [eapply from_yaml_id; eassumption|eapply key_from_yaml_id; eassumption].
Qed.

Lemma settled_of_entries_dict env k e d : wf d ->
  (forall p, In p d -> from_yaml env e (snd p) = Ok (snd p) /\ key_from_yaml env k (fst p) = Ok (fst p)) ->
  settled env (TDict k e) (VDict d).
Proof.
  intros Hw H; unfold settled; cbn [from_yaml]; fold (entry_step env k e).
  rewrite (entries_id env k e d [] Hw H); cbn [app bind]; apply verify_type_spec.
  right; exists d; split; [reflexivity|]; apply Forall_forall; intros p Hp; destruct (H p Hp) as [E1 E2].
  split; [eapply key_from_yaml_typed; exact E2|eapply from_yaml_typed; exact E1].
Qed.

Lemma settled_typed env t v : settled env t v -> has_type t v.
Proof. apply from_yaml_typed. Qed.

Lemma settled_dict env k e v : settled env (TMerging k e) v -> exists d, v = VDict d.
Proof. intros H; apply settled_typed in H; destruct H as (d & -> & _); eauto. Qed.

Lemma settled_merge env t x y m : env_ok env -> settled env t x -> settled env t y ->
  merge_type t x y = Ok m -> settled env t m.
Proof.
  intros He Hx Hy E; destruct t as [| | |e|k e|k e|]; cbn [merge_type] in E;
    try (destruct (is_unset _ x); injection E as <-; assumption).
  destruct (settled_dict _ _ _ _ Hx) as [a ->], (settled_dict _ _ _ _ Hy) as [b ->]; injection E as <-.
  destruct (settled_entries _ _ _ _ He Hx) as [Ha Hpa], (settled_entries _ _ _ _ He Hy) as [Hb Hpb].
  apply settled_of_entries; [apply wf_update; assumption|].
  intros p Hp; apply In_update in Hp; destruct Hp; auto.
Qed.

(** Merging with the default again changes nothing. *)
Lemma absorbed env t x dflt v : env_ok env -> settled env t x -> settled env t dflt ->
  merge_type t x dflt = Ok v -> merge_type t v dflt = Ok v.
Proof.
  intros He Hx Hd E; destruct t as [| | |e|k e|k e|]; cbn [merge_type] in *;
    try (destruct (is_unset _ x) eqn:Eu; injection E as <-; [destruct (is_unset _ dflt); reflexivity|rewrite Eu; reflexivity]).
  destruct (settled_dict _ _ _ _ Hx) as [a ->], (settled_dict _ _ _ _ Hd) as [b ->]; injection E as <-.
  destruct (settled_entries _ _ _ _ He Hx) as [Ha _], (settled_entries _ _ _ _ He Hd) as [Hb _].
  f_equal; f_equal; rewrite <- update_assoc by assumption; f_equal.
  apply dict_ext; [apply wf_update; assumption|assumption| |].
  - rewrite keys_update by assumption.
    assert (F : filter (fun k0 => negb (has k0 b)) (keys b) = []).
    { apply incl_l_nil; intros k0 Hk; apply filter_In in Hk; destruct Hk as [Hk Hn].
      apply has_keys in Hk; rewrite Hk in Hn; discriminate. }
    rewrite F, app_nil_r; reflexivity.
  - intros k0; rewrite get_update by assumption; destruct (get k0 b); reflexivity.
Qed.

Lemma settled_values env t ys : forall x v, env_ok env -> Forall (settled env t) (x :: ys) ->
  foldM (merge_type t) ys x = Ok v -> settled env t v.
Proof.
  induction ys as [|y ys IH]; intros x v He H E; inversion H as [|? ? Hx H']; subst.
  - injection E as <-; exact Hx.
  - inversion H' as [|? ? Hy Hys]; subst; cbn [foldM] in E; apply bind_Ok in E; destruct E as (m & Em & E).
    eapply IH; [exact He| |exact E]; constructor; [exact (settled_merge env t x y m He Hx Hy Em)|exact Hys].
Qed.

Lemma settled_command_line env yaml t a v : env_ok env -> from_command_line env yaml t a = Ok v -> settled env t v.
Proof.
  intros He E; assert (U : settled env t (unset t)) by (unfold settled; destruct t; reflexivity).
  unfold from_command_line in E; destruct a as [|s|l]; [injection E as <-; exact U| |];
    destruct t as [| | |e|k e|k e|]; try discriminate;
    repeat match type of E with (let* _ := _ in _) = _ => apply bind_Ok in E; destruct E as (? & _ & E) end;
    eapply from_yaml_id; eassumption.
Qed.

Lemma settled_arg env yaml args it v : env_ok env -> arg_value env yaml args it = Ok v -> settled env (i_type it) v.
Proof.
  intros He; unfold arg_value; destruct (i_command_line it).
  - destruct (i_argument it); [|discriminate]; intros E; apply bind_Ok in E; destruct E as (a & _ & E).
    eapply settled_command_line; eassumption.
  - intros E; injection E as <-; unfold settled; destruct (i_type it); reflexivity.
Qed.

(** The configuration can be written and loaded: every option has a value in the form loading
    produces, which already includes the default. *)
Definition reloadable (env : penv) (d : desc) (c : pydict) : Prop :=
  forall name it, get name (d_items d) = Some it ->
    exists v, conf_get name c = Some v /\ settled env (i_type it) v /\
              merge_type (i_type it) v (i_default it) = Ok v.

Lemma loaded_reloadable env yaml file args d tool c : env_ok env -> names_ok d ->
  (forall name it, In (name, it) (d_items d) -> settled env (i_type it) (i_default it)) ->
  load_config env yaml file args d tool = Ok c -> reloadable env d c.
Proof.
  intros He Hd Hdf E; destruct (load_config_values _ _ _ _ _ _ _ Hd E) as [_ Hv].
  intros name it Hit; destruct (Hv name it Hit) as (vcl & vfs & v & Ecl & Hfs & Hm & Hc).
  exists v; split; [exact Hc|].
  assert (Hs0 : settled env (i_type it) (i_default it)) by (apply (Hdf name), get_In; exact Hit).
  assert (Hs1 : settled env (i_type it) vcl) by (eapply settled_arg; eassumption).
  assert (Hs2 : Forall (settled env (i_type it)) vfs).
  { clear -Hfs He; induction Hfs as [|x y l l' (data & raw & _ & _ & E) _ IH]; constructor; [|exact IH].
    eapply from_yaml_id; eassumption. }
  rewrite foldM_app in Hm; apply bind_Ok in Hm; destruct Hm as (x & Ex & Hm).
  assert (Hx : settled env (i_type it) x) by (eapply settled_values; [exact He| |exact Ex]; constructor; assumption).
  cbn [foldM] in Hm; apply bind_Ok in Hm; destruct Hm as (v' & Ev & Hm); injection Hm as <-.
  split; [exact (settled_merge _ _ _ _ _ He Hx Hs0 Ev)|exact (absorbed _ _ _ _ _ He Hx Hs0 Ev)].
Qed.

(** The form of a value does not depend on the process environment. *)
Lemma key_settled_env env env2 k x : env_ok env -> key_from_yaml env k x = Ok x -> key_from_yaml env2 k x = Ok x.
Proof.
  intros He; destruct k, x; simpl; intros E; try discriminate; try reflexivity.
  injection E as E; rewrite <- E at 1; rewrite expand_input_path_id; [rewrite E; reflexivity|].
  apply expand_input_path_normal; exact He.
Qed.

Lemma settled_env env env2 t : env_ok env -> forall v, settled env t v -> settled env2 t v.
Proof.
  intros He; induction t as [| | |t IH|k t IH|k t IH|]; intros v Hs.
  1-3: exact Hs.
  - pose proof (settled_typed _ _ _ Hs) as T; destruct T as [->|[l [-> T]]]; [exact Hs|].
    unfold settled in Hs |- *; cbn [from_yaml] in Hs |- *; apply bind_Ok in Hs; destruct Hs as (l0 & E0 & Hs).
    apply verify_Ok_eq in Hs; destruct Hs as [Hs _]; injection Hs as <-.
    assert (E1 : mapM (from_yaml env2 t) l = Ok l).
    { clear T; assert (G : forall a b, mapM (from_yaml env t) a = Ok b -> a = b -> mapM (from_yaml env2 t) a = Ok b).
      { induction a as [|x a IHa]; intros b E; [intros <-; reflexivity|].
        cbn [mapM] in E |- *; apply bind_Ok in E; destruct E as (y & Ey & E).
        apply bind_Ok in E; destruct E as (b' & Eb & E); injection E as <-; intros E; injection E as <- <-.
        rewrite (IH x Ey); cbn [bind]; rewrite (IHa _ Eb eq_refl); reflexivity. }
      apply G; [exact E0|reflexivity]. }
    rewrite E1; cbn [bind]; apply verify_type_spec; right; eauto.
  - pose proof (settled_typed _ _ _ Hs) as T; destruct T as [->|(dd & -> & _)]; [exact Hs|].
    destruct (settled_entries_dict _ _ _ _ He Hs) as [Hw Hp]; apply (settled_of_entries_dict _ _ _ _ Hw); intros p Hin.
    destruct (Hp p Hin) as [P1 P2]; split; [apply IH; exact P1|eapply key_settled_env; eassumption].
  - pose proof (settled_typed _ _ _ Hs) as T; destruct T as (dd & -> & _).
    destruct (settled_entries _ _ _ _ He Hs) as [Hw Hp]; apply (settled_of_entries _ _ _ _ Hw); intros p Hin.
    destruct (Hp p Hin) as [P1 P2]; split; [apply IH; exact P1|eapply key_settled_env; eassumption].
  - pose proof (settled_typed _ _ _ Hs) as T; destruct T as [->|[s ->]]; [exact Hs|].
    unfold settled in Hs |- *; cbn in Hs |- *; injection Hs as E.
    rewrite <- E at 1; rewrite expand_input_path_id; [rewrite E; reflexivity|].
    apply expand_input_path_normal; exact He.
Qed.

Lemma reloadable_env env env2 d c : env_ok env -> reloadable env d c -> reloadable env2 d c.
Proof.
  intros He H name it Hit; destruct (H name it Hit) as (v & Hv & Hs & Hm); exists v.
  split; [exact Hv|]; split; [eapply settled_env; eassumption|exact Hm].
Qed.

(** ** Only texts are keys *)
Definition text_keys (c : pydict) : Prop := forall k v, In (k, v) c -> exists s, k = KStr s.

Lemma text_keys_set c s v : text_keys c -> text_keys (set (KStr s) v c).
Proof.
  intros H k w Hin; assert (Hk : In k (keys (set (KStr s) v c))) by (eapply In_keys; exact Hin).
  apply in_keys_set in Hk; destruct Hk as [->|Hk]; [eauto|].
  unfold keys in Hk; apply in_map_iff in Hk; destruct Hk as ([k' w'] & E & Hin'); cbn [fst] in E; subst k'; eauto.
Qed.

Lemma fold_text_keys {A} (f : pydict -> A -> res pydict) l c c' :
  (forall x c c', text_keys c -> f c x = Ok c' -> text_keys c') ->
  text_keys c -> foldM f l c = Ok c' -> text_keys c'.
Proof.
  intros Hf; revert c; induction l as [|x l IH]; intros c Hc E; [injection E as <-; exact Hc|].
  cbn [foldM] in E; apply bind_Ok in E; destruct E as (c1 & E1 & E); eapply IH; [eapply Hf; eassumption|exact E].
Qed.

Lemma build_text_keys d pre fg fi c : build d pre fg fi = Ok c -> text_keys c.
Proof.
  unfold build; intros E; apply bind_Ok in E; destruct E as (c1 & E1 & E).
  eapply fold_text_keys; [|eapply fold_text_keys; [| |exact E1]|exact E].
  - intros p a b Ha Eb; cbn beta in Eb; destruct (is_group_name (fst p)); [injection Eb as <-; exact Ha|].
    apply bind_Ok in Eb; destruct Eb as (v & _ & Eb); injection Eb as <-; apply text_keys_set; exact Ha.
  - intros g a b Ha Eb; cbn beta in Eb; apply bind_Ok in Eb; destruct Eb as (? & _ & Eb).
    apply bind_Ok in Eb; destruct Eb as (v & _ & Eb); injection Eb as <-; apply text_keys_set; exact Ha.
  - intros k v [].
Qed.

Lemma merge_text_keys d top more c : names_ok d -> complete d top -> text_keys top -> merge_configs d top more = Ok c -> text_keys c.
Proof.
  intros Hd Hc Ht; unfold merge_configs; rewrite copy_config_id by assumption; cbn [bind].
  apply fold_text_keys; [|exact Ht].
  intros b r r' Hr; apply fold_text_keys; [|exact Hr].
  intros [name it] a a' Ha; unfold merge_item; destruct (is_group_name name).
  - destruct (split_group name) as [g s]; intros E.
    repeat match type of E with (let* _ := _ in _) = _ => apply bind_Ok in E; destruct E as (? & _ & E) end.
    destruct x; try discriminate; injection E as <-; apply text_keys_set; exact Ha.
  - intros E; repeat match type of E with (let* _ := _ in _) = _ => apply bind_Ok in E; destruct E as (? & _ & E) end.
    injection E as <-; apply text_keys_set; exact Ha.
Qed.

Lemma load_text_keys env yaml file args d tool c : names_ok d ->
  load_config env yaml file args d tool = Ok c -> text_keys c.
Proof.
  intros Hd E; unfold load_config in E.
  apply bind_Ok in E; destruct E as (a & Ea & E); apply bind_Ok in E; destruct E as (fs & _ & E).
  apply bind_Ok in E; destruct E as (df & _ & E); unfold config_from_args in Ea.
  eapply merge_text_keys; [exact Hd|eapply build_complete; eassumption|eapply build_text_keys; exact Ea|exact E].
Qed.

(** ** Loading it again *)
Lemma merge_unset_l env t v : env_ok env -> settled env t v -> merge_type t (unset t) v = Ok v.
Proof.
  intros He H; destruct t as [| | |e|k e|k e|]; try reflexivity.
  destruct (settled_dict _ _ _ _ H) as [a ->]; destruct (settled_entries _ _ _ _ He H) as [Ha _]; cbn [merge_type unset].
  reflexivity.
Qed.

(** The same value, dictionaries possibly in another order (a YAML file is written with sorted
    keys). *)
Definition same_value (v w : pyval) : Prop := v = w \/ veq v w.

Lemma mapM_veq env t l l' : Forall2 veq l l' -> (forall v w, settled env t v -> veq v w -> settled env t w) ->
  mapM (from_yaml env t) l = Ok l -> mapM (from_yaml env t) l' = Ok l'.
Proof.
  intros F IH E; apply mapM_Ok in E; apply mapM_Ok.
  assert (A : Forall (settled env t) l).
  { clear F; assert (G : forall a b, Forall2 (fun x y => from_yaml env t x = Ok y) a b -> a = b -> Forall (settled env t) a).
    { intros a b G; induction G as [|x y a b Hxy G IHG]; intros E'; [constructor|]; injection E' as <- E'.
      constructor; [exact Hxy|auto]. }
    eapply G; [exact E|reflexivity]. }
  clear E; induction F as [|x y l l' Hxy F IHF]; [constructor|]; inversion A; subst; constructor; [|auto].
  eapply IH; eassumption.
Qed.

Lemma settled_veq env t : env_ok env -> forall v w, settled env t v -> veq v w -> settled env t w.
Proof.
  intros He; induction t as [| | |t IH|k t IH|k t IH|]; intros v w Hs H.
  - unfold settled; destruct w; reflexivity.
  - pose proof (settled_typed _ _ _ Hs) as T; destruct T as [->|[s ->]]; apply veq_cases in H; subst w; exact Hs.
  - pose proof (settled_typed _ _ _ Hs) as T; destruct T as [->|[s ->]]; apply veq_cases in H; subst w; exact Hs.
  - pose proof (settled_typed _ _ _ Hs) as T; destruct T as [->|[l [-> _]]];
      [apply veq_cases in H; subst w; exact Hs|].
    apply veq_list_inv in H; destruct H as (l' & -> & F).
    unfold settled in Hs |- *; cbn [from_yaml] in Hs |- *; apply bind_Ok in Hs; destruct Hs as (l0 & E0 & Hs).
    apply verify_Ok_eq in Hs; destruct Hs as [Hs T]; injection Hs as <-.
    assert (E1 : mapM (from_yaml env t) l' = Ok l') by (eapply mapM_veq; eassumption).
    rewrite E1; cbn [bind]; apply verify_type_spec; right; exists l'; split; [reflexivity|].
    apply Forall_forall; intros x Hx; apply mapM_Ok in E1.
    destruct (Forall2_In_r _ _ _ _ E1 Hx) as (x0 & _ & Ex); eapply from_yaml_typed; exact Ex.
  - pose proof (settled_typed _ _ _ Hs) as T; destruct T as [->|(dd & -> & _)];
      [apply veq_cases in H; subst w; exact Hs|].
    pose proof (settled_entries_dict env k t dd He Hs) as [Hw Hp].
    destruct (veq_dict_In _ _ H) as (d' & -> & H1 & _ & H3).
    apply (settled_of_entries_dict env k t d' (H3 Hw)); intros [k0 x'] Hin; destruct (H1 _ _ Hin) as (x & Hx & Hv).
    destruct (Hp _ Hx) as [P1 P2]; split; [eapply IH; [exact P1|exact Hv]|exact P2].
  - pose proof (settled_typed _ _ _ Hs) as T; destruct T as (dd & -> & _).
    pose proof (settled_entries env k t dd He Hs) as [Hw Hp].
    destruct (veq_dict_In _ _ H) as (d' & -> & H1 & _ & H3).
    apply (settled_of_entries env k t d' (H3 Hw)); intros [k0 x'] Hin; destruct (H1 _ _ Hin) as (x & Hx & Hv).
    destruct (Hp _ Hx) as [P1 P2]; split; [eapply IH; [exact P1|exact Hv]|exact P2].
  - pose proof (settled_typed _ _ _ Hs) as T; destruct T as [->|[s ->]]; apply veq_cases in H; subst w; exact Hs.
Qed.

Lemma settled_same env t v w : env_ok env -> settled env t v -> same_value v w -> settled env t w.
Proof. intros He Hs [<-|H]; [exact Hs|eapply settled_veq; eassumption]. Qed.

Lemma absorbed_same env t v w dflt : env_ok env -> settled env t v -> settled env t dflt ->
  merge_type t v dflt = Ok v -> same_value v w -> exists m, merge_type t w dflt = Ok m /\ same_value v m.
Proof.
  intros He Hv Hd E H; destruct H as [<-|H]; [exists v; split; [exact E|left; reflexivity]|].
  pose proof (settled_veq env t He v w Hv H) as Hw.
  assert (G : match t with TMerging _ _ => False | _ => True end ->
    exists m, merge_type t w dflt = Ok m /\ same_value v m).
  { intros Ht; destruct (is_unset t w) eqn:Eu.
    - assert (Ev : v = VNone).
      { assert (W : w = VNone) by (destruct t; try contradiction; destruct w; try discriminate Eu; reflexivity).
        subst w; inversion H; subst; reflexivity. }
      subst v; destruct t; try contradiction; cbn [merge_type] in *; rewrite Eu; exists dflt; (split; [reflexivity|]);
        left; cbn in E; congruence.
    - exists w; split; [|right; exact H]; destruct t; try contradiction; cbn [merge_type]; rewrite Eu; reflexivity. }
  destruct t as [| | |e|k e|k e|]; try (apply G; exact I); clear G.
  destruct (settled_dict _ _ _ _ Hv) as [a ->], (settled_dict _ _ _ _ Hd) as [b ->], (settled_dict _ _ _ _ Hw) as [a' ->].
  destruct (settled_entries _ _ _ _ He Hv) as [Wa _], (settled_entries _ _ _ _ He Hd) as [Wb _],
           (settled_entries _ _ _ _ He Hw) as [Wa' _].
  cbn [merge_type] in E |- *; eexists; split; [reflexivity|]; right; injection E as E.
  apply veq_ext; [exact Wa|apply wf_update; assumption|].
  apply (proj1 (veq_ext _ _ Wa Wa')) in H; intros k0; specialize (H k0).
  rewrite get_update by assumption.
  pose proof (f_equal (get k0) E) as E0; rewrite get_update in E0 by assumption.
  destruct (get k0 a) as [x|] eqn:Ea, (get k0 a') as [x'|]; try contradiction; [exact H|].
  rewrite E0; exact I.
Qed.

(** A file with, for every option, the value the configuration has. *)
Definition same_settings (d : desc) (c c0 : pydict) : Prop :=
  forall name it v, get name (d_items d) = Some it -> option_at name c v ->
    exists v', option_at name c0 v' /\ same_value v v'.

Lemma reload_values env yaml file args d tool dir s c c0 :
  env_ok env -> names_ok d -> reloadable env d c ->
  (forall name it, In (name, it) (d_items d) -> settled env (i_type it) (i_default it)) ->
  text_keys c0 -> same_settings d c c0 ->
  config_dirs env args tool = [dir] ->
  file (path_join dir (d_namespace d)) = Some (Ok s) -> yaml s = Ok (VDict c0) ->
  (forall name it, get name (d_items d) = Some it -> arg_value env yaml args it = Ok (unset (i_type it))) ->
  exists c', load_config env yaml file args d tool = Ok c' /\ same_settings d c c'.
Proof.
  intros He Hd Hr Hdf Ht Hsame Hdirs Hfile Hy Hargs; unfold load_config; rewrite Hdirs.
  assert (Hr0 : forall name it, get name (d_items d) = Some it ->
    exists v w m, conf_get name c = Some v /\ conf_get name c0 = Some w /\ settled env (i_type it) w /\
      merge_type (i_type it) w (i_default it) = Ok m /\ same_value v m).
  { intros name it Hit; destruct (Hr name it Hit) as (v & Hv & Hs & Hm).
    destruct (Hsame name it v Hit (proj2 (option_at_get _ _ _) Hv)) as (w & Hw & Hvw).
    apply option_at_get in Hw.
    assert (Hd0 : settled env (i_type it) (i_default it)) by (apply (Hdf name), get_In; exact Hit).
    destruct (absorbed_same env _ v w _ He Hs Hd0 Hm Hvw) as (m & Em & Hvm).
    exists v, w, m; split; [exact Hv|]; split; [exact Hw|]; split; [exact (settled_same env _ v w He Hs Hvw)|]; split; [exact Em|exact Hvm]. }
  assert (Ha : exists a, config_from_args env yaml args d = Ok a).
  { unfold config_from_args; apply build_total; [exact Hd|]; intros name it Hit.
    rewrite item_value_const, (Hargs name it Hit); eauto. }
  destruct Ha as [a Ea]; rewrite Ea; cbn [bind mapM].
  assert (Hl : load_config_file_yaml yaml file (path_join dir (d_namespace d)) = Ok c0).
  { unfold load_config_file_yaml; rewrite Hfile, Hy; cbn [bind process_config_file_yaml].
    assert (F : forallb (fun p : pkey * pyval => match fst p with KStr _ => true | _ => false end) c0 = true).
    { apply forallb_forall; intros [k v] Hin; destruct (Ht k v Hin) as [x ->]; reflexivity. }
    rewrite F; reflexivity. }
  unfold config_from_file; rewrite Hl; cbn [bind].
  assert (Hf : exists f, config_from_parsed_yaml env c0 d false = Ok f).
  { rewrite parsed_eq; apply build_total; [exact Hd|]; intros name it Hit.
    destruct (Hr0 name it Hit) as (v0 & v & m & _ & Hv & Hs & _).
    change (exists w, parsed_value env c0 name it = Ok w).
    assert (Hg : file_gives name c0 v) by (apply file_gives_get; rewrite Hv; reflexivity).
    destruct (parsed_value_eq env c0 name it v Hg) as [E|(_ & g & s0 & w & En & Hsl & Hw & Hn)]; [rewrite E; eauto|].
    exfalso; rewrite En in Hv; unfold conf_get in Hv.
    rewrite (proj2 (is_group_name_In _) (group_name_In g s0)), split_group_app, Hw in Hv by assumption.
    destruct w; try discriminate; eapply Hn; reflexivity. }
  destruct Hf as [f Ef]; rewrite Ef; cbn [bind].
  destruct (defaults_Ok d Hd) as (df & Edf & Hdv); rewrite Edf; cbn [bind app].
  pose proof (build_complete _ _ _ _ Hd Ea) as Hca.
  assert (Hav : forall name it, get name (d_items d) = Some it -> conf_get name a = Some (unset (i_type it))).
  { intros name it Hit; destruct (build_get _ _ _ _ Hd Ea) as (_ & _ & G); destruct (G name it Hit) as (v & Ev & Hv).
    rewrite item_value_const, (Hargs name it Hit) in Ev; congruence. }
  destruct (parsed_Ok _ _ _ _ Hd Ef) as [Hcf Hfv].
  assert (Hfv' : forall name it, get name (d_items d) = Some it -> conf_get name f = conf_get name c0).
  { intros name it Hit; destruct (Hfv name it Hit) as (raw & v & Hraw & Ev & Hv).
    destruct (Hr0 name it Hit) as (_ & w & _ & _ & Hw & Hs & _); apply file_gives_get in Hraw; rewrite Hw in Hraw; subst raw.
    unfold settled in Hs; congruence. }
  assert (Hmv : forall name it, get name (d_items d) = Some it -> exists v w m, conf_get name c = Some v /\
     conf_get name c0 = Some w /\
     foldM (merge_type (i_type it)) [w; i_default it] (unset (i_type it)) = Ok m /\ same_value v m).
  { intros name it Hit; destruct (Hr0 name it Hit) as (v & w & m & Hv & Hw & Hs & Hm & Hvm).
    exists v, w, m; repeat split; auto.
    cbn [foldM]; rewrite (merge_unset_l env _ _ He Hs); cbn [bind]; rewrite Hm; reflexivity. }
  destruct (merge_configs_total d a [f; df]) as [c' E'];
    [exact Hd|exact Hca|constructor; [exact Hcf|constructor; [eapply defaults_complete; eassumption|constructor]]| |].
  { intros name it x ys Hit Hx Hys; rewrite (Hav _ _ Hit) in Hx; injection Hx as <-.
    destruct (Hmv name it Hit) as (_ & v & m & _ & Hv & Em & _); exists m.
    inversion Hys as [|? y1 ? l1 H1 H2]; subst; inversion H2 as [|? y2 ? l2 H3 H4]; subst; inversion H4; subst.
    rewrite (Hfv' _ _ Hit), Hv in H1; injection H1 as <-; rewrite (Hdv _ _ Hit) in H3; injection H3 as <-; exact Em. }
  exists c'; split; [exact E'|]; intros name it v Hit Hv; apply option_at_get in Hv.
  destruct (merge_configs_Ok _ _ _ _ Hd Hca E') as [_ Hm].
  destruct (Hm name it Hit) as (x & ys & v' & Hx & Hys & Em & Hv').
  rewrite (Hav _ _ Hit) in Hx; injection Hx as <-.
  destruct (Hmv name it Hit) as (v0 & w & m & Hv0 & Hw & Em' & Hvm).
  inversion Hys as [|? y1 ? l1 H1 H2]; subst; inversion H2 as [|? y2 ? l2 H3 H4]; subst; inversion H4; subst.
  rewrite (Hfv' _ _ Hit), Hw in H1; injection H1 as <-; rewrite (Hdv _ _ Hit) in H3; injection H3 as <-.
  exists m; rewrite option_at_get; split; congruence.
Qed.

(** ** Paths *)
Lemma join_snoc l c : l <> [] -> join [slash] (l ++ [c]) = join [slash] l ++ slash :: c.
Proof.
  induction l as [|x l IH]; [congruence|]; intros _; destruct l as [|y l]; [reflexivity|].
  change ((x :: y :: l) ++ [c]) with (x :: (y :: l) ++ [c]).
  change (join [slash] (x :: (y :: l) ++ [c])) with (x ++ [slash] ++ join [slash] ((y :: l) ++ [c])).
  rewrite IH by discriminate; change (join [slash] (x :: y :: l)) with (x ++ [slash] ++ join [slash] (y :: l)).
  rewrite <- !app_assoc; reflexivity.
Qed.

Lemma join_last l : Forall normal_comp l -> l <> [] -> exists q x, join [slash] l = q ++ [x] /\ x <> slash.
Proof.
  induction l as [|c l IH]; intros H Hn; [congruence|]; inversion H as [|? ? (H1 & H2 & _) Hl]; subst.
  destruct l as [|c' l].
  - destruct (exists_last H1) as (q & x & ->); exists q, x; split; [reflexivity|].
    intros ->; apply H2, in_or_app; right; left; reflexivity.
  - destruct (IH Hl) as (q & x & E & Hx); [discriminate|].
    exists (c ++ slash :: q), x; split; [|exact Hx].
    change (join [slash] (c :: c' :: l)) with (c ++ [slash] ++ join [slash] (c' :: l)); rewrite E, <- app_assoc; reflexivity.
Qed.

Lemma normal_path_join p c : normal_abs p -> normal_comp c -> normal_abs (path_join p c).
Proof.
  intros (ini & comps & Hi & Hc & ->) Hn; pose proof Hn as (H1 & H2 & _).
  assert (E : path_join (ini ++ join [slash] comps) c = ini ++ join [slash] (comps ++ [c])).
  { unfold path_join; destruct c as [|x c]; [congruence|].
    destruct (eqb_spec x slash) as [->|_]; [exfalso; apply H2; left; reflexivity|].
    destruct comps as [|c0 comps].
    - cbn [join app]; rewrite app_nil_r; destruct Hi as [->| ->]; reflexivity.
    - destruct (join_last (c0 :: comps) Hc) as (q & y & E & Hy); [discriminate|].
      rewrite join_snoc by discriminate; rewrite E.
      destruct (ini ++ q ++ [y]) as [|z r] eqn:Ez; [destruct Hi as [->| ->]; discriminate|].
      rewrite <- Ez, app_assoc, last_last; destruct (eqb_spec y slash) as [->|_]; [congruence|].
      rewrite <- !app_assoc; reflexivity. }
  rewrite E; exists ini, (comps ++ [c]); repeat split; [exact Hi|].
  apply Forall_app; split; [exact Hc|constructor; [exact Hn|constructor]].
Qed.

Lemma path_join_two p a b : a <> [] -> ~ In slash a -> b <> [] -> ~ In slash b ->
  path_join p (a ++ slash :: b) = path_join (path_join p a) b.
Proof.
  intros Ha Hsa Hb Hsb; destruct a as [|x a]; [congruence|]; destruct b as [|y b]; [congruence|].
  unfold path_join at 1 2 3; cbn [app].
  destruct (eqb_spec x slash) as [->|_]; [exfalso; apply Hsa; left; reflexivity|].
  destruct (eqb_spec y slash) as [->|_]; [exfalso; apply Hsb; left; reflexivity|].
  assert (L : forall q, eqb (last (q ++ x :: a) 0%N) slash = false).
  { intros q; destruct (exists_last (l := x :: a)) as (q' & z & Ez); [discriminate|].
    rewrite Ez, app_assoc, last_last; destruct (eqb_spec z slash) as [->|_]; [|reflexivity].
    exfalso; apply Hsa; rewrite Ez; apply in_or_app; right; left; reflexivity. }
  set (e := match p with [] => true | _ :: _ => eqb (last p 0%N) slash end).
  destruct e.
  - destruct (p ++ x :: a) as [|z r] eqn:E; [destruct p; discriminate|]; rewrite <- E, L.
    rewrite <- app_assoc; reflexivity.
  - destruct (p ++ slash :: x :: a) as [|z r] eqn:E; [destruct p; discriminate|]; rewrite <- E.
    change (p ++ slash :: x :: a) with (p ++ [slash] ++ x :: a); rewrite app_assoc, L, <- !app_assoc; reflexivity.
Qed.

Lemma rstrip_normal h : normal_abs h -> normal_abs (rstrip_slash h ++ u "/.config").
Proof.
  assert (Hcfg : normal_comp (u ".config")).
  { repeat split; try (vm_compute; discriminate); vm_compute; intuition discriminate. }
  intros (ini & comps & Hi & Hc & ->); destruct comps as [|c comps].
  - exists [slash], [u ".config"]; split; [left; reflexivity|]; split; [constructor; [exact Hcfg|constructor]|].
    destruct Hi as [->| ->]; reflexivity.
  - destruct (join_last (c :: comps) Hc) as (q & y & E & Hy); [discriminate|].
    exists ini, ((c :: comps) ++ [u ".config"]); split; [exact Hi|]; split.
    + apply Forall_app; split; [exact Hc|constructor; [exact Hcfg|constructor]].
    + rewrite join_snoc by discriminate; rewrite E; unfold rstrip_slash; rewrite app_assoc, rev_app_distr.
      change (rev [y]) with [y]; cbn [app drop_slashes]; destruct (eqb_spec y slash) as [->|_]; [congruence|].
      change (y :: rev (ini ++ q)) with ([y] ++ rev (ini ++ q)); rewrite rev_app_distr, rev_involutive.
      rewrite <- !app_assoc; reflexivity.
Qed.
