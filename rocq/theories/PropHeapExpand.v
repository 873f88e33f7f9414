(** Property C91: expansion of rules files in place, with and without YAML aliases. *)
From Verif Require Import Base Dict PyVal RulesDict Verify Expand ExpandProofs Heap HeapSpec HeapProofs HeapExpand HeapExpandSpec HeapExpandProofs.
From Coq Require Import Lia.
Notation S := Datatypes.S.

(** If every dict object of a document is used at one level only -- under as many keys, oses
    and versions as one likes --, in place expansion gives the expansion of its value, or the
    same error. *)
Theorem C91_aliases_at_one_level lv h v x r h' :
  is_file lv h v x -> h_expand_rules v h = (r, h') ->
  reads h v x /\
  match expand_rules x with
  | Ok y => exists v', r = Ok v' /\ reads h' v' y
  | Err e => r = Err e
  end.
Proof.
  intros Hf He; split; [apply (T_reads_wf lv h 4 4 v x ltac:(lia) ltac:(lia) Hf)|].
  pose proof (expand_sim lv h v x Hf) as H; destruct (expand_rules x) as [y|e].
  - destruct H as (lv1 & h1 & v1 & E1 & F1); rewrite He in E1; injection E1 as -> ->.
    exists v1; split; [reflexivity|]; apply (T_reads_wf lv1 h1 4 4 v1 y ltac:(lia) ltac:(lia) F1).
  - destruct H as (h1 & E1); rewrite He in E1; injection E1 as -> ->; reflexivity.
Qed.

(** ** Documents without aliases *)
Fixpoint build_list (l : list pyval) (h : heap) : list hval * heap :=
  match l with
  | [] => ([], h)
  | x :: l' => let '(v, h1) := build x h in let '(vs, h2) := build_list l' h1 in (v :: vs, h2)
  end.
Fixpoint build_dict (d : pydict) (h : heap) : dict pkey hval * heap :=
  match d with
  | [] => ([], h)
  | (k, x) :: d' => let '(v, h1) := build x h in let '(ps, h2) := build_dict d' h1 in ((k, v) :: ps, h2)
  end.
Lemma build_VList l h : build (VList l) h = let '(vs, h1) := build_list l h in (HRef (List.length h1), h1 ++ [OList vs]).
Proof. reflexivity. Qed.
Lemma build_VDict d h : build (VDict d) h = let '(ps, h1) := build_dict d h in (HRef (List.length h1), h1 ++ [ODict ps]).
Proof. reflexivity. Qed.

Notation all := (fun _ : option nat => True).
Definition fresh lv h lv' h' : Prop := List.length h <= List.length h' /\ keeps all lv h lv' h'.
Lemma fresh_refl lv h : fresh lv h lv h.
Proof. split; [lia|]; intros a _ _; auto. Qed.
Lemma fresh_trans lv h lv1 h1 lv2 h2 : fresh lv h lv1 h1 -> fresh lv1 h1 lv2 h2 -> fresh lv h lv2 h2.
Proof. intros [L1 K1] [L2 K2]; split; [lia|eapply keeps_trans; eassumption]. Qed.
Lemma fresh_alloc lv h o (x : obj) : fresh lv h (with_new lv h o) (h ++ [x]).
Proof. split; [rewrite app_length; simpl; lia|apply keeps_alloc]. Qed.

Definition builds (P : levels -> heap -> hval -> pyval -> Prop) (x : pyval) : Prop :=
  forall lv h v h1, build x h = (v, h1) -> exists lv1, fresh lv h lv1 h1 /\ P lv1 h1 v x.

Lemma build_dict_ok (P : pkey -> levels -> heap -> hval -> pyval -> Prop) d :
  (forall k lv h lv' h' v x, fresh lv h lv' h' -> P k lv h v x -> P k lv' h' v x) ->
  (forall k x, In (k, x) d -> builds (P k) x) ->
  forall lv h ps h1, build_dict d h = (ps, h1) ->
  exists lv1, fresh lv h lv1 h1 /\ Forall2 (fun p q => fst p = fst q /\ P (fst p) lv1 h1 (snd p) (snd q)) ps d.
Proof.
  intros HP; induction d as [|[k x] d IH]; intros HB lv h ps h1 E1; cbn [build_dict] in E1.
  - injection E1 as <- <-; exists lv; split; [apply fresh_refl|constructor].
  - destruct (build x h) as [v h2] eqn:E2; destruct (build_dict d h2) as [qs h3] eqn:E3; injection E1 as <- <-.
    destruct (HB k x (or_introl eq_refl) lv h v h2 E2) as (lv2 & F2 & P2).
    destruct (IH (fun k' x' Hin => HB k' x' (or_intror Hin)) lv2 h2 qs h3 E3) as (lv3 & F3 & P3).
    exists lv3; split; [eapply fresh_trans; eassumption|]; constructor; [|exact P3].
    split; [reflexivity|]; eapply HP; [exact F3|exact P2].
Qed.

Lemma build_list_ok (P : levels -> heap -> hval -> pyval -> Prop) l :
  (forall lv h lv' h' v x, fresh lv h lv' h' -> P lv h v x -> P lv' h' v x) ->
  (forall x, In x l -> builds P x) ->
  forall lv h vs h1, build_list l h = (vs, h1) ->
  exists lv1, fresh lv h lv1 h1 /\ Forall2 (P lv1 h1) vs l.
Proof.
  intros HP; induction l as [|x l IH]; intros HB lv h ps h1 E1; cbn [build_list] in E1.
  - injection E1 as <- <-; exists lv; split; [apply fresh_refl|constructor].
  - destruct (build x h) as [v h2] eqn:E2; destruct (build_list l h2) as [qs h3] eqn:E3; injection E1 as <- <-.
    destruct (HB x (or_introl eq_refl) lv h v h2 E2) as (lv2 & F2 & P2).
    destruct (IH (fun x' Hin => HB x' (or_intror Hin)) lv2 h2 qs h3 E3) as (lv3 & F3 & P3).
    exists lv3; split; [eapply fresh_trans; eassumption|]; constructor; [|exact P3].
    eapply HP; [exact F3|exact P2].
Qed.

Lemma plain_fresh lv h lv' h' v x : fresh lv h lv' h' -> plain lv h v x -> plain lv' h' v x.
Proof. intros [_ K]; apply plain_keep; eapply keeps_impl; [|exact K]; intros ? ?; exact I. Qed.

Lemma build_plain x : builds plain x.
Proof.
  induction x as [|b|z|t|t|l IH|d IH] using pyval_ind'; intros lv h v h1 E1.
  1-5: injection E1 as <- <-; exists lv; split; [apply fresh_refl|constructor].
  - rewrite build_VList in E1; destruct (build_list l h) as [vs h2] eqn:E2; injection E1 as <- <-.
    destruct (build_list_ok plain l plain_fresh) with (lv := lv) (h := h) (vs := vs) (h1 := h2) as (lv2 & F2 & P2); [|exact E2|].
    { rewrite Forall_forall in IH; exact IH. }
    exists (with_new lv2 h2 None); split; [eapply fresh_trans; [exact F2|apply fresh_alloc]|].
    apply PList with (l := vs); [apply with_new_eq|apply nth_new|].
    eapply Forall2_impl; [|exact P2]; intros y z; apply plain_fresh, fresh_alloc.
  - rewrite build_VDict in E1; destruct (build_dict d h) as [ps h2] eqn:E2; injection E1 as <- <-.
    destruct (build_dict_ok (fun _ => plain) d (fun _ => plain_fresh)) with (lv := lv) (h := h) (ps := ps) (h1 := h2) as (lv2 & F2 & P2); [|exact E2|].
    { rewrite Forall_forall in IH; intros k y Hin; exact (IH (k, y) Hin). }
    exists (with_new lv2 h2 None); split; [eapply fresh_trans; [exact F2|apply fresh_alloc]|].
    apply PDict with (d := ps); [apply with_new_eq|apply nth_new|].
    eapply Forall2_impl; [|exact P2]; intros y z [Hk Hp]; split; [exact Hk|]; eapply plain_fresh; [apply fresh_alloc|exact Hp].
Qed.

Lemma ent_fresh n k lv h lv' h' v x : n <= 4 -> fresh lv h lv' h' -> ent n k lv h v x -> ent n k lv' h' v x.
Proof. intros Hn [_ K]; apply ent_keep; [exact Hn|]; eapply keeps_impl; [|exact K]; intros ? ?; exact I. Qed.

Lemma build_T : forall m n, n <= m -> n <= 4 -> forall x, wfval x -> builds (T n) x.
Proof.
  assert (Hstep : forall n, n <= 4 -> (forall k x, wfval x -> builds (ent n k) x) -> forall x, wfval x -> builds (T n) x).
  { intros n Hn HE x Hw lv h v h1 E1; rewrite T_node by exact Hn.
    destruct x as [|b|z|t|t|l|d].
    1-6: destruct (build_plain _ lv h v h1 E1) as (lv1 & F1 & P1); exists lv1; (split; [exact F1|]); left;
         (split; [intros d; discriminate|]); auto.
    rewrite build_VDict in E1; destruct (build_dict d h) as [ps h2] eqn:E2; injection E1 as <- <-.
    destruct (build_dict_ok (ent n) d) with (lv := lv) (h := h) (ps := ps) (h1 := h2) as (lv2 & F2 & P2); [| |exact E2|].
    { intros k lv0 h0 lv0' h0' v0 x0; apply ent_fresh; exact Hn. }
    { intros k x Hin; apply HE; eapply wfval_In; eassumption. }
    exists (with_new lv2 h2 (Some n)); split; [eapply fresh_trans; [exact F2|apply fresh_alloc]|].
    right; exists (List.length h2), ps, d; split; [reflexivity|]; split; [reflexivity|]; split; [apply with_new_eq|].
    split; [apply nth_new|]; split.
    - apply wfval_dict in Hw; destruct Hw as [Hw _]; unfold wf in *.
      replace (keys ps) with (keys d); [exact Hw|].
      clear -P2; induction P2 as [|p q ps d [Hk _] P2 IH]; [reflexivity|]; unfold keys in *; simpl; congruence.
    - eapply Forall2_impl; [|exact P2]; intros p q [Hk Hp]; split; [exact Hk|].
      eapply ent_fresh; [exact Hn|apply fresh_alloc|exact Hp]. }
  assert (H0 : forall k x, wfval x -> builds (ent 0 k) x).
  { intros k x Hw lv h v h1 E1; destruct (build_plain x lv h v h1 E1) as (lv1 & F1 & P1).
    exists lv1; split; [exact F1|]; split; assumption. }
  induction m as [|m IH]; intros n Hm Hn.
  - assert (n = 0) as -> by lia; apply Hstep; [lia|exact H0].
  - apply Hstep; [exact Hn|]; destruct n as [|n]; [exact H0|]; cbn [ent].
    intros k x Hw lv h v h1 E1; unfold child; destruct (wraps n k x) eqn:Ew.
    + assert (n = 2) as -> by (unfold wraps in Ew; destruct (Nat.eqb_spec n 2); [assumption|discriminate]).
      exact (IH 1 ltac:(lia) ltac:(lia) x Hw lv h v h1 E1).
    + exact (IH n ltac:(lia) ltac:(lia) x Hw lv h v h1 E1).
Qed.

(** A document without aliases is expanded in place to the expansion of its value: treating
    dicts as values (Expand.v, C13-C15) loses nothing. *)
Theorem C91_without_aliases x h v h1 r h' :
  wfval x -> build x h = (v, h1) -> h_expand_rules v h1 = (r, h') ->
  reads h1 v x /\
  match expand_rules x with
  | Ok y => exists v', r = Ok v' /\ reads h' v' y
  | Err e => r = Err e
  end.
Proof.
  intros Hw Hb He; destruct (build_T 4 4 ltac:(lia) ltac:(lia) x Hw (fun _ => None) h v h1 Hb) as (lv1 & _ & HT).
  exact (C91_aliases_at_one_level lv1 h1 v x r h' HT He).
Qed.

(** ** Examples, and an alias used at two levels *)
Section Examples.
  Let k t := KStr (u t).
  (** [foo: {ubuntu: &v {precise: [libfoo]}, debian: *v}] and [bar] the same object as [foo] *)
  Definition ex_heap : heap :=
    [ OList [HStr (u "libfoo")];
      ODict [(k "precise", HRef 0)];
      ODict [(k "ubuntu", HRef 1); (k "debian", HRef 1)];
      ODict [(k "foo", HRef 2); (k "bar", HRef 2)] ].
  Definition ex_lv : levels := fun a => match a with 1 => Some 2 | 2 => Some 3 | 3 => Some 4 | _ => None end.
  Definition ex_vd : pyval := VDict [(k "precise", VList [VStr (u "libfoo")])].
  Definition ex_od : pyval := VDict [(k "ubuntu", ex_vd); (k "debian", ex_vd)].
  Definition ex_doc : pyval := VDict [(k "foo", ex_od); (k "bar", ex_od)].

  Ltac wfd := repeat constructor; vm_compute; intuition discriminate.
  Example C91_nonvacuous :
    is_file ex_lv ex_heap (HRef 3) ex_doc /\
    (exists y, expand_rules ex_doc = Ok y /\ y <> ex_doc) /\
    wfval ex_doc /\ fst (build ex_doc []) = HRef 10.
  Proof.
    split; [|split; [|split]].
    - assert (H1 : is_versions ex_lv ex_heap (HRef 1) ex_vd).
      { right; exists 1, [(k "precise", HRef 0)], [(k "precise", VList [VStr (u "libfoo")])].
        repeat (split; [reflexivity|]); split; [wfd|].
        constructor; [|constructor]; split; [reflexivity|].
        left; split; [intros d; discriminate|]; split; [simpl; auto|].
        apply PList with (l := [HStr (u "libfoo")]); [reflexivity|reflexivity|]; repeat constructor. }
      assert (H2 : is_oses ex_lv ex_heap (HRef 2) ex_od).
      { right; exists 2, [(k "ubuntu", HRef 1); (k "debian", HRef 1)], [(k "ubuntu", ex_vd); (k "debian", ex_vd)].
        repeat (split; [reflexivity|]); split; [wfd|].
        constructor; [split; [reflexivity|exact H1]|]; constructor; [split; [reflexivity|exact H1]|constructor]. }
      right; exists 3, [(k "foo", HRef 2); (k "bar", HRef 2)], [(k "foo", ex_od); (k "bar", ex_od)].
      repeat (split; [reflexivity|]); split; [wfd|].
      constructor; [split; [reflexivity|exact H2]|]; constructor; [split; [reflexivity|exact H2]|constructor].
    - eexists; split; [vm_compute; reflexivity|]; intros Hc; discriminate.
    - repeat (apply wfval_dict; split; [wfd|]; repeat constructor); vm_compute; intuition discriminate.
    - vm_compute; reflexivity.
  Qed.

  (** [foo: {any_os: &v {apt: [libfoo]}, ubuntu: *v}]: the dict is a dict of installers below
      [any_os] and a dict of versions below [ubuntu].  The first expansion spoils the second. *)
  Definition bad_heap : heap :=
    [ OList [HStr (u "libfoo")];
      ODict [(k "apt", HRef 0)];
      ODict [(k "any_os", HRef 1); (k "ubuntu", HRef 1)];
      ODict [(k "foo", HRef 2)] ].
  Definition bad_inner : pyval := VDict [(k "apt", VList [VStr (u "libfoo")])].
  Definition bad_doc : pyval := VDict [(k "foo", VDict [(k "any_os", bad_inner); (k "ubuntu", bad_inner)])].

  Lemma bad_reads : reads bad_heap (HRef 3) bad_doc.
  Proof.
    assert (R1 : reads bad_heap (HRef 1) bad_inner).
    { apply RDict with (d := [(k "apt", HRef 0)]); [reflexivity|]; constructor; [split; [reflexivity|]|constructor].
      apply RList with (l := [HStr (u "libfoo")]); [reflexivity|]; repeat constructor. }
    apply RDict with (d := [(k "foo", HRef 2)]); [reflexivity|]; constructor; [split; [reflexivity|]|constructor].
    apply RDict with (d := [(k "any_os", HRef 1); (k "ubuntu", HRef 1)]); [reflexivity|].
    constructor; [split; [reflexivity|exact R1]|]; constructor; [split; [reflexivity|exact R1]|constructor].
  Qed.

  Theorem C91_alias_at_two_levels_refuted :
    ~ (forall h v x r h', wfval x -> reads h v x -> h_expand_rules v h = (r, h') ->
       match expand_rules x with
       | Ok y => exists v', r = Ok v' /\ reads h' v' y
       | Err e => r = Err e
       end).
  Proof.
    intros H.
    assert (Hw : wfval bad_doc) by (repeat (apply wfval_dict; split; [wfd|]; repeat constructor); vm_compute; intuition discriminate).
    specialize (H bad_heap (HRef 3) bad_doc _ _ Hw bad_reads eq_refl).
    replace (expand_rules bad_doc) with
      (Ok (VDict [(k "foo", VDict [(k "any_os", VDict [(k "any_version", VDict [(k "apt", VDict [(k "packages", VList [VStr (u "libfoo")])])])]);
                                   (k "ubuntu", VDict [(k "apt", VDict [(k "default_installer", VDict [(k "packages", VList [VStr (u "libfoo")])])])])])]))
      in H by (vm_compute; reflexivity).
    destruct H as (v' & Ev & Hr); vm_compute in Ev; injection Ev as <-.
    inversion Hr as [| | | | | |a d ps Hn HF Ha Hd]; subst; clear Hr; vm_compute in Hn; injection Hn as <-.
    inversion HF as [|p q l l' [_ Hx] _ Hl Hl']; subst; cbn [snd] in Hx; clear HF.
    inversion Hx as [| | | | | |a d ps Hn HF Ha Hd]; subst; clear Hx; vm_compute in Hn; injection Hn as <-.
    inversion HF as [|p q l l' _ HF' Hl Hl']; subst; clear HF.
    inversion HF' as [|p q l l' [_ Hx] _ Hl Hl']; subst; cbn [snd] in Hx; clear HF'.
    inversion Hx as [| | | | | |a d ps Hn HF Ha Hd]; subst; clear Hx; vm_compute in Hn; injection Hn as <-.
    inversion HF as [|p q l l' [_ Hx] _ Hl Hl']; subst; cbn [snd] in Hx; clear HF.
    inversion Hx as [| | | | | |a d ps Hn HF Ha Hd]; subst; clear Hx; vm_compute in Hn; injection Hn as <-.
    inversion HF as [|p q l l' [Hk _] _ Hl Hl']; subst; vm_compute in Hk; discriminate.
  Qed.
End Examples.

Print Assumptions C91_aliases_at_one_level.
Print Assumptions C91_without_aliases.
Print Assumptions C91_alias_at_two_levels_refuted.
