(** C40: loading plugins. *)
From Verif Require Import Base Dict PyVal RulesDict Verify Plugins.

(** ** Specification *)
Section Spec.
  Context {P : Type}.
  Variable name_of : P -> res pkey.
  Variable disabled : list text.

  (** The entry point names an enabled and valid plugin with object [p] of name [n]: its
      definition is a dict with a textual name that is not disabled, a textual
      description and a class of the right kind, and an object can be made, has a name
      and is accepted by the class. *)
  Definition usable (ep : res (definition P)) (n : pkey) (p : P) : Prop :=
    exists name descr c,
      ep = Ok (DDict (Some (VStr name)) (Some (VStr descr)) (Some (AClass c))) /\
      ~ In name disabled /\ pc_derived c = true /\
      pc_new c = Ok p /\ name_of p = Ok n /\ pc_verify c p = Ok tt.

  (** The entry point names a disabled plugin, or is invalid: a part of the definition is
      missing or of the wrong type, or the class rejects the object. *)
  Inductive rejected : res (definition P) -> Prop :=
  | rej_other e : In e [TypeError; KeyError; ValueError; InvalidPluginError] -> rejected (Ok (DOther e))
  | rej_name n d c : (forall s, n <> Some (VStr s)) -> rejected (Ok (DDict n d c))
  | rej_descr n d c : (forall s, d <> Some (VStr s)) -> rejected (Ok (DDict n d c))
  | rej_class n d c : (forall k, c = Some (AClass k) -> pc_derived k = false) -> rejected (Ok (DDict n d c))
  | rej_disabled n d c : In n disabled -> rejected (Ok (DDict (Some (VStr n)) d c))
  | rej_verify n d k p name : pc_new k = Ok p -> name_of p = Ok name -> pc_verify k p = Err InvalidPluginError ->
      rejected (Ok (DDict n d (Some (AClass k)))).

  (** The entry point raises: when it is loaded, or when the object of an enabled, valid
      definition is made, asked for its name or verified. *)
  Inductive raises : res (definition P) -> exn -> Prop :=
  | raise_load e : raises (Err e) e
  | raise_other e : ~ In e [TypeError; KeyError; ValueError; InvalidPluginError] -> raises (Ok (DOther e)) e
  | raise_new n d k e : ~ In n disabled -> pc_derived k = true -> pc_new k = Err e ->
      raises (Ok (DDict (Some (VStr n)) (Some (VStr d)) (Some (AClass k)))) e
  | raise_name n d k p e : ~ In n disabled -> pc_derived k = true -> pc_new k = Ok p -> name_of p = Err e ->
      raises (Ok (DDict (Some (VStr n)) (Some (VStr d)) (Some (AClass k)))) e
  | raise_verify n d k p m e : ~ In n disabled -> pc_derived k = true -> pc_new k = Ok p -> name_of p = Ok m ->
      pc_verify k p = Err e -> e <> InvalidPluginError ->
      raises (Ok (DDict (Some (VStr n)) (Some (VStr d)) (Some (AClass k)))) e.

  (** [picked eps seen ps]: [ps] are, in the order of [eps], the objects of the usable
      entry points with a name that no earlier usable entry point has (nor is in [seen]). *)
  Inductive picked : list (res (definition P)) -> list pkey -> list P -> Prop :=
  | picked_nil seen : picked [] seen []
  | picked_take ep eps seen n p ps : usable ep n p -> ~ In n seen ->
      picked eps (n :: seen) ps -> picked (ep :: eps) seen (p :: ps)
  | picked_dup ep eps seen n p ps : usable ep n p -> In n seen ->
      picked eps seen ps -> picked (ep :: eps) seen ps
  | picked_skip ep eps seen ps : (forall n p, ~ usable ep n p) ->
      picked eps seen ps -> picked (ep :: eps) seen ps.
End Spec.

Section Proofs.
  Context {P : Type}.
  Variable name_of : P -> res pkey.
  Variable disabled : list text.
  Notation usable := (usable name_of disabled).
  Notation rejected := (rejected name_of disabled).
  Notation raises := (raises name_of disabled).
  Notation picked := (picked name_of disabled).
  Notation step := (load_step name_of disabled).
  Notation load eps := (load_plugins name_of eps disabled).

  Lemma usable_det ep n p n' p' : usable ep n p -> usable ep n' p' -> n = n' /\ p = p'.
  Proof.
    intros (a & b & c & -> & _ & _ & E1 & E2 & _) (a' & b' & c' & E & _ & _ & E3 & E4 & _).
    assert (c = c') by congruence; subst c'. split; congruence.
  Qed.

  (** Every entry point is usable, rejected or raises, and the loop body acts accordingly. *)
  Lemma step_cases st ep :
    (exists n p, usable ep n p /\
       step st ep = Ok (if mem n (snd st) then st else (fst st ++ [p], n :: snd st))) \/
    (rejected ep /\ (forall n p, ~ usable ep n p) /\ (forall e, ~ raises ep e) /\ step st ep = Ok st) \/
    (exists e, raises ep e /\ (forall n p, ~ usable ep n p) /\ step st ep = Err e).
  Proof.
    destruct st as [l s]. destruct ep as [d|e].
    2:{ right; right; exists e; split; [constructor|]. split; [|reflexivity].
        intros n p (x & y & z & E & _); discriminate. }
    destruct d as [n d c|e].
    2:{ destruct (in_dec (fun x y => match eqb_spec x y with ReflectT _ E => left E | ReflectF _ N => right N end)
                    e [TypeError; KeyError; ValueError; InvalidPluginError]) as [Hi|Hi].
        - right; left; split; [constructor; exact Hi|]. split; [|split].
          + intros n p (x & y & z & E & _); discriminate.
          + intros e' Hr; inversion Hr; subst; contradiction.
          + cbn in Hi. destruct Hi as [<-|[<-|[<-|[<-|[]]]]]; reflexivity.
        - right; right; exists e; split; [constructor; exact Hi|]. split.
          + intros n p (x & y & z & E & _); discriminate.
          + cbn in Hi. destruct e; try reflexivity; exfalso; tauto. }
    assert (Dn : (exists t, n = Some (VStr t)) \/ forall t, n <> Some (VStr t))
      by (destruct n as [[]|]; try (right; intros; discriminate); left; eauto).
    destruct Dn as [(t & ->)|Dn].
    2:{ right; left. split; [apply rej_name; exact Dn|]. split; [|split].
        - intros m p (x & y & z & E & _). injection E as -> -> ->. apply (Dn x); reflexivity.
        - intros e Hr; inversion Hr; subst; eapply Dn; reflexivity.
        - destruct n as [[]|]; try reflexivity. exfalso; eapply Dn; reflexivity. }
    assert (Dd : (exists t, d = Some (VStr t)) \/ forall t, d <> Some (VStr t))
      by (destruct d as [[]|]; try (right; intros; discriminate); left; eauto).
    destruct Dd as [(td & ->)|Dd].
    2:{ right; left. split; [apply rej_descr; exact Dd|]. split; [|split].
        - intros m p (x & y & z & E & _). injection E as -> -> ->. apply (Dd y); reflexivity.
        - intros e Hr; inversion Hr; subst; eapply Dd; reflexivity.
        - destruct d as [[]|]; try reflexivity. exfalso; eapply Dd; reflexivity. }
    assert (Dc : (exists k, c = Some (AClass k) /\ pc_derived k = true) \/
                 forall k, c = Some (AClass k) -> pc_derived k = false).
    { destruct c as [[|k]|]; try (right; intros; discriminate).
      destruct (pc_derived k) eqn:Ek; [left; eauto|right; intros k' E; congruence]. }
    destruct Dc as [(k & -> & Hk)|Dc].
    2:{ right; left. split; [apply rej_class; exact Dc|]. split; [|split].
        - intros m p (x & y & z & E & _ & Hz & _). injection E as -> -> ->. rewrite (Dc z eq_refl) in Hz; discriminate.
        - intros e Hr; inversion Hr; subst; rewrite (Dc _ eq_refl) in *; discriminate.
        - destruct c as [[|k]|]; try reflexivity. unfold load_step, verify_plugin_definition, check_definition, verify_plugin_class.
          cbn -[mem]. rewrite (Dc k eq_refl). reflexivity. }
    unfold load_step, verify_plugin_definition, check_definition, verify_plugin_class.
    cbn -[mem]. rewrite Hk. cbn -[mem].
    destruct (mem t disabled) eqn:Et.
    { apply mem_In in Et. right; left. split; [apply rej_disabled; exact Et|]. split; [|split].
      - intros m p (x & y & z & E & Hx & _). injection E as -> -> ->. contradiction.
      - intros e Hr; inversion Hr; subst; contradiction.
      - reflexivity. }
    apply mem_not_In in Et.
    destruct (pc_new k) as [p|e] eqn:Ep; cbn -[mem].
    2:{ right; right; exists e. split; [apply raise_new; assumption|]. split; [|reflexivity].
        intros m p (x & y & z & E & _ & _ & Hz & _). injection E as -> -> ->. congruence. }
    destruct (name_of p) as [m|e] eqn:Em; cbn -[mem].
    2:{ right; right; exists e. split; [eapply raise_name; eassumption|]. split; [|reflexivity].
        intros m p' (x & y & z & E & _ & _ & Hz & Hm & _). injection E as -> -> ->. congruence. }
    destruct (pc_verify k p) as [[]|e] eqn:Ev; cbn -[mem].
    { left; exists m, p. split; [|destruct (mem m s); reflexivity].
      exists t, td, k. tauto. }
    assert (Nu : forall m p, ~ usable (Ok (DDict (Some (VStr t)) (Some (VStr td)) (Some (AClass k)))) m p).
    { intros m' p' (x & y & z & E & _ & _ & Hz & Hm & Hv). injection E as -> -> ->. congruence. }
    destruct (eqb_spec e InvalidPluginError) as [->|Ne].
    - right; left. split; [eapply rej_verify; eassumption|]. split; [exact Nu|]. split; [|reflexivity].
      intros e Hr; inversion Hr; congruence.
    - right; right; exists e. split; [eapply raise_verify; eassumption|]. split; [exact Nu|].
      destruct e; try reflexivity; congruence.
  Qed.

  Lemma rejected_step st ep : rejected ep -> step st ep = Ok st.
  Proof.
    intros Hr. destruct (step_cases st ep) as [(n & p & Hu & _)|[(_ & _ & _ & E)|(e & He & _)]].
    - exfalso. destruct Hu as (a & b & c & -> & Hd & Hc & Hp & Hm & Hv).
      inversion Hr as [ | ? ? ? X | ? ? ? X | ? ? ? X | ? ? ? X | ]; subst;
        first [congruence|contradiction|eapply X; reflexivity|rewrite (X c eq_refl) in Hc; discriminate].
    - exact E.
    - exfalso. inversion He; subst; inversion Hr as [ ? X | ? ? ? X | ? ? ? X | ? ? ? X | ? ? ? X | ];
        subst; first [congruence|contradiction|eapply X; reflexivity|rewrite (X _ eq_refl) in *; discriminate].
  Qed.

  (** The names of loaded objects are in the set of names. *)
  Lemma fold_spec eps l s l' s' :
    foldM step eps (l, s) = Ok (l', s') -> exists ps, l' = l ++ ps /\ picked eps s ps.
  Proof.
    revert l s; induction eps as [|ep eps IH]; intros l s; cbn [foldM].
    - intros E; injection E as <- <-. exists []; rewrite app_nil_r; split; [reflexivity|constructor].
    - destruct (step_cases (l, s) ep) as [(n & p & Hu & E)|[(_ & Hn & _ & E)|(e & _ & _ & E)]];
        rewrite E; cbn [bind fst snd].
      + destruct (mem n s) eqn:En.
        * intros H. destruct (IH _ _ H) as (ps & -> & Hps). exists ps; split; [reflexivity|].
          eapply picked_dup; [exact Hu| |exact Hps]. apply mem_In; exact En.
        * intros H. destruct (IH _ _ H) as (ps & -> & Hps). exists (p :: ps); split.
          { rewrite <- app_assoc; reflexivity. }
          eapply picked_take; [exact Hu| |exact Hps]. apply mem_not_In; exact En.
      + intros H. destruct (IH _ _ H) as (ps & -> & Hps). exists ps; split; [reflexivity|].
        apply picked_skip; assumption.
      + discriminate.
  Qed.

  Lemma fold_ok eps st : (forall ep e, In ep eps -> ~ raises ep e) -> exists st', foldM step eps st = Ok st'.
  Proof.
    revert st; induction eps as [|ep eps IH]; intros st H; cbn [foldM]; [eauto|].
    assert (H' : forall ep e, In ep eps -> ~ raises ep e) by (intros; apply H; right; assumption).
    destruct (step_cases st ep) as [(n & p & Hu & E)|[(_ & Hn & _ & E)|(e & He & _)]].
    - rewrite E; cbn [bind]; apply IH; exact H'.
    - rewrite E; cbn [bind]; apply IH; exact H'.
    - exfalso; exact (H ep e (or_introl eq_refl) He).
  Qed.

  Lemma fold_err eps st e : foldM step eps st = Err e -> exists ep, In ep eps /\ raises ep e.
  Proof.
    revert st; induction eps as [|ep eps IH]; intros st; cbn [foldM]; [discriminate|].
    destruct (step_cases st ep) as [(n & p & Hu & E)|[(_ & Hn & _ & E)|(e' & He & _ & E)]]; rewrite E; cbn [bind].
    - intros H. destruct (IH _ H) as (x & Hx & Hr). exists x; split; [right|]; assumption.
    - intros H. destruct (IH _ H) as (x & Hx & Hr). exists x; split; [right|]; assumption.
    - intros H; injection H as <-. exists ep; split; [left; reflexivity|exact He].
  Qed.

  Lemma picked_names eps s ps : picked eps s ps ->
    exists ns, Forall2 (fun p n => name_of p = Ok n) ps ns /\ NoDup ns /\ forall n, In n ns -> ~ In n s.
  Proof.
    induction 1 as [|ep eps s n p ps Hu Hs Hp IH|ep eps s n p ps Hu Hs Hp IH|ep eps s ps Hn Hp IH]; auto.
    - exists []; split; [constructor|]. split; [constructor|intros ? []].
    - destruct IH as (ns & F & D & N). exists (n :: ns). split; [|split].
      + constructor; [|exact F]. destruct Hu as (? & ? & ? & _ & _ & _ & _ & E & _); exact E.
      + constructor; [|exact D]. intros Hi. apply (N n Hi). left; reflexivity.
      + intros m [<-|Hm]; [exact Hs|]. intros Hi. apply (N m Hm). right; exact Hi.
  Qed.

  (** The first usable entry point with a given name. *)
  Lemma picked_first eps s ps n : picked eps s ps -> ~ In n s ->
    forall p, (In p ps /\ name_of p = Ok n) <->
      (exists a ep b, eps = a ++ ep :: b /\ usable ep n p /\ forall ep' p', In ep' a -> ~ usable ep' n p').
  Proof.
    intros H; induction H as [s|ep eps s m q ps Hu Hs Hp IH|ep eps s m q ps Hu Hs Hp IH|ep eps s ps Hn Hp IH];
      intros Hns p.
    - split; [intros [[] _]|]. intros (a & ep & b & E & _). destruct a; discriminate.
    - assert (Hq : name_of q = Ok m) by (destruct Hu as (? & ? & ? & _ & _ & _ & _ & E & _); exact E).
      destruct (eqb_spec n m) as [E|N].
      + rewrite E in *. split.
        * intros [[<-|Hi] Hm].
          -- exists [], ep, eps; split; [reflexivity|]. split; [exact Hu|intros ? ? []].
          -- exfalso. destruct (picked_names _ _ _ Hp) as (ns & F & _ & Nn).
             assert (Hm' : In m ns).
             { clear -F Hi Hm. induction F; [destruct Hi|]. destruct Hi as [->|Hi]; [left; congruence|right; auto]. }
             apply (Nn m Hm'); left; reflexivity.
        * intros (a & ep' & b & E1 & Hu' & Hf). destruct a as [|x a].
          -- injection E1 as -> ->. destruct (usable_det _ _ _ _ _ Hu Hu') as [_ ->].
             split; [left; reflexivity|exact Hq].
          -- injection E1 as -> ->. exfalso. exact (Hf x q (or_introl eq_refl) Hu).
      + assert (Hns' : ~ In n (m :: s)) by (intros [E|Hi]; [congruence|contradiction]).
        specialize (IH Hns' p). split.
        * intros [[<-|Hi] Hm]; [congruence|].
          destruct (proj1 IH (conj Hi Hm)) as (a & ep' & b & -> & Hu' & Hf).
          exists (ep :: a), ep', b; split; [reflexivity|]. split; [exact Hu'|].
          intros x p' [<-|Hx]; [|apply Hf; exact Hx].
          intros Hu2. destruct (usable_det _ _ _ _ _ Hu Hu2); congruence.
        * intros (a & ep' & b & E1 & Hu' & Hf). destruct a as [|x a].
          -- injection E1 as -> ->. destruct (usable_det _ _ _ _ _ Hu Hu'); congruence.
          -- injection E1 as -> ->. destruct (proj2 IH) as [Hi Hm].
             { exists a, ep', b; split; [reflexivity|]. split; [exact Hu'|].
               intros y p' Hy; apply Hf; right; exact Hy. }
             split; [right; exact Hi|exact Hm].
    - specialize (IH Hns p). rewrite IH. split.
      + intros (a & ep' & b & -> & Hu' & Hf). exists (ep :: a), ep', b; split; [reflexivity|]. split; [exact Hu'|].
        intros x p' [<-|Hx]; [|apply Hf; exact Hx].
        intros Hu2. destruct (usable_det _ _ _ _ _ Hu Hu2); congruence.
      + intros (a & ep' & b & E1 & Hu' & Hf). destruct a as [|x a].
        * injection E1 as -> ->. destruct (usable_det _ _ _ _ _ Hu Hu'); congruence.
        * injection E1 as -> ->. exists a, ep', b; split; [reflexivity|]. split; [exact Hu'|].
          intros y p' Hy; apply Hf; right; exact Hy.
    - specialize (IH Hns p). rewrite IH. split.
      + intros (a & ep' & b & -> & Hu' & Hf). exists (ep :: a), ep', b; split; [reflexivity|]. split; [exact Hu'|].
        intros x p' [<-|Hx]; [apply Hn|apply Hf; exact Hx].
      + intros (a & ep' & b & E1 & Hu' & Hf). destruct a as [|x a].
        * injection E1 as -> ->. exfalso; exact (Hn _ _ Hu').
        * injection E1 as -> ->. exists a, ep', b; split; [reflexivity|]. split; [exact Hu'|].
          intros y p' Hy; apply Hf; right; exact Hy.
  Qed.

  Lemma load_picked eps ps : load eps = Ok ps -> picked eps [] ps.
  Proof.
    unfold load_plugins. intros H. apply bind_Ok in H as ([l s] & H & E). injection E as <-.
    destruct (fold_spec _ _ _ _ _ H) as (qs & -> & Hq). exact Hq.
  Qed.
End Proofs.

(** ** C40 *)
(** What is returned: the usable plugins in the order of the entry points, without those
    whose name an earlier usable one has. *)
Theorem C40_loaded_in_order {P} (name_of : P -> res pkey) eps disabled ps :
  load_plugins name_of eps disabled = Ok ps -> picked name_of disabled eps [] ps.
Proof. apply load_picked. Qed.

(** The names are pairwise distinct. *)
Theorem C40_distinct_names {P} (name_of : P -> res pkey) eps disabled ps :
  load_plugins name_of eps disabled = Ok ps ->
  exists names, Forall2 (fun p n => name_of p = Ok n) ps names /\ NoDup names.
Proof.
  intros H. destruct (picked_names _ _ _ _ _ (load_picked _ _ _ _ H)) as (ns & F & D & _). eauto.
Qed.

(** The object loaded under a name is the one of the first usable entry point with that
    name; in particular there is one iff some entry point is usable and has the name. *)
Theorem C40_first_of_name {P} (name_of : P -> res pkey) eps disabled ps n p :
  load_plugins name_of eps disabled = Ok ps ->
  (In p ps /\ name_of p = Ok n) <->
  exists before ep after, eps = before ++ ep :: after /\ usable name_of disabled ep n p /\
    forall ep' p', In ep' before -> ~ usable name_of disabled ep' n p'.
Proof. intros H. exact (picked_first _ _ _ _ _ n (load_picked _ _ _ _ H) (fun x => x) p). Qed.

(** Invalid and disabled plugins make no difference, wherever they are. *)
Theorem C40_rejected_ignored {P} (name_of : P -> res pkey) a ep b disabled :
  rejected name_of disabled ep ->
  load_plugins name_of (a ++ ep :: b) disabled = load_plugins name_of (a ++ b) disabled.
Proof.
  intros H. unfold load_plugins. rewrite !foldM_app. cbn [foldM].
  destruct (foldM (load_step name_of disabled) a ([], [])) as [st|e]; [|reflexivity].
  cbn [bind]. rewrite (rejected_step name_of disabled st ep H). reflexivity.
Qed.

(** Loading succeeds when no entry point raises (partial: the claim is about arbitrary
    failures), and only fails with an exception of some entry point. *)
Theorem C40_others_load_partial {P} (name_of : P -> res pkey) eps disabled :
  (forall ep e, In ep eps -> ~ raises name_of disabled ep e) ->
  exists ps, load_plugins name_of eps disabled = Ok ps.
Proof.
  intros H. destruct (fold_ok name_of disabled eps ([], []) H) as (st & E).
  exists (fst st). unfold load_plugins. rewrite E. reflexivity.
Qed.

Theorem C40_failure_origin {P} (name_of : P -> res pkey) eps disabled e :
  load_plugins name_of eps disabled = Err e -> exists ep, In ep eps /\ raises name_of disabled ep e.
Proof.
  unfold load_plugins. intros H. apply bind_Err in H as [H|(st & _ & H)]; [|discriminate].
  exact (fold_err _ _ _ _ _ H).
Qed.

(** ... but one plugin whose module can not be imported, or whose constructor raises,
    prevents all others from loading. *)
Theorem C40_failing_plugin_refuted {P} (name_of : P -> res pkey) eps disabled ps ep e :
  load_plugins name_of eps disabled = Ok ps -> raises name_of disabled ep e ->
  forall more, load_plugins name_of (eps ++ ep :: more) disabled = Err e.
Proof.
  unfold load_plugins. intros H Hr more. apply bind_Ok in H as (st & H & _).
  rewrite foldM_app, H. cbn [bind foldM].
  destruct (step_cases name_of disabled st ep) as [(n & p & Hu & E)|[(_ & _ & Hn & E)|(e' & Hr' & _ & E)]].
  - exfalso. destruct Hu as (a & b & c & -> & Hd & Hc & Hp & Hm & Hv).
    inversion Hr; subst; congruence.
  - exfalso; exact (Hn e Hr).
  - rewrite E. cbn [bind]. f_equal. inversion Hr; subst; inversion Hr'; subst; congruence.
Qed.

(** A name accepted by the default check is a text that is no keyword of rules files. *)
Theorem C40_verified_name {P} (name_of : P -> res pkey) uni p :
  base_verify_plugin name_of uni p = Ok tt ->
  (exists s, name_of p = Ok (KStr s) /\ re_identifier uni s = true /\
     ~ In s [any_os; any_version; default_installer; unset_installers; any_key]) \/
  name_of p = Ok (KStr mountain_lion).
Proof.
  unfold base_verify_plugin. destruct (name_of p) as [k|e]; [|discriminate]. cbn [bind].
  destruct k as [s| |z|o]; cbn [verify_key_identifier]; try discriminate.
  unfold verify_text_identifier.
  destruct (mem s [any_os; any_version; default_installer; unset_installers; any_key]) eqn:E1.
  { discriminate. }
  apply mem_not_In in E1. cbn [andb].
  destruct (mem s [mountain_lion]) eqn:E2.
  { apply mem_In in E2 as [<-|[]]. intros _. right; reflexivity. }
  destruct (re_identifier uni s) eqn:E3; [|discriminate].
  intros _. left; exists s. split; [reflexivity|]. split; assumption.
Qed.

(** Every other name makes the plugin invalid (and it is skipped, C40), whatever the name is. *)
Theorem C40_rejected_name {P} (name_of : P -> res pkey) uni p k : name_of p = Ok k ->
  base_verify_plugin name_of uni p = Ok tt \/ base_verify_plugin name_of uni p = Err InvalidPluginError.
Proof.
  intros E; unfold base_verify_plugin; rewrite E; cbn [bind].
  destruct k as [s| |z|o]; cbn [verify_key_identifier]; auto.
  unfold verify_text_identifier; repeat match goal with |- context [if ?b then _ else _] => destruct b; auto end.
Qed.

(** Seven entry points, objects are numbers, the name of an object is its number modulo
    ten: valid, without description, disabled, of a foreign class, rejected by its class,
    duplicate of the first, valid. *)
Definition ex_class (n : nat) (sub : bool) (v : res unit) : option (class_value nat) :=
  Some (AClass {| pc_derived := sub; pc_new := Ok n; pc_verify := fun _ => v |}).
Definition ex_ep (s : string) (n : nat) sub v : res (definition nat) :=
  Ok (DDict (Some (VStr (u s))) (Some (VStr (u "d"))) (ex_class n sub v)).
Definition ex_name (n : nat) : res pkey := Ok (KInt (Z.of_nat (n mod 10))).
Example C40_nonvacuous :
  load_plugins ex_name
    [ex_ep "a" 1 true (Ok tt); Ok (DDict (Some (VStr (u "b"))) None (ex_class 2 true (Ok tt)));
     ex_ep "c" 3 true (Ok tt); ex_ep "d" 4 false (Ok tt); ex_ep "e" 5 true (Err InvalidPluginError);
     ex_ep "f" 11 true (Ok tt); ex_ep "g" 12 true (Ok tt)] [u "c"] = Ok [1; 12] /\
  load_plugins ex_name [ex_ep "a" 1 true (Ok tt); Err ImportError; ex_ep "g" 12 true (Ok tt)] []
    = Err ImportError.
Proof. split; reflexivity. Qed.

Print Assumptions C40_loaded_in_order.
Print Assumptions C40_distinct_names.
Print Assumptions C40_first_of_name.
Print Assumptions C40_rejected_ignored.
Print Assumptions C40_others_load_partial.
Print Assumptions C40_failure_origin.
Print Assumptions C40_failing_plugin_refuted.
Print Assumptions C40_verified_name.
Print Assumptions C40_rejected_name.
