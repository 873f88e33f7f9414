(** Properties C89, C90: merging and looking up rules when dicts are objects that may be
    shared. *)
From Verif Require Import Base Dict PyVal RulesDict RulesSpec Verify Heap HeapSpec HeapProofs.
From Coq Require Import Lia.

(** ** From values seen in the heap to the invariants of HeapProofs.v and back *)
Lemma reads_weaken h h' v x : unchanged h h' -> reads h v x -> reads h' v x.
Proof.
  intros U; revert v x; fix IH 3; intros v x H; destruct H as [|b|z|t|t|a l vs Hn HF|a d ps Hn HF].
  - constructor.
  - constructor.
  - constructor.
  - constructor.
  - constructor.
  - apply RList with (l := l).
    + rewrite U; [exact Hn|apply nth_error_Some; congruence].
    + clear Hn; induction HF as [|y z l vs Hy HF IHF]; [constructor|]; constructor; [apply IH; exact Hy|exact IHF].
  - apply RDict with (d := d).
    + rewrite U; [exact Hn|apply nth_error_Some; congruence].
    + clear Hn; induction HF as [|y z d ps [Hk Hy] HF IHF]; [constructor|]; constructor; [split; [exact Hk|apply IH; exact Hy]|exact IHF].
Qed.

Lemma unchanged_refl h : unchanged h h.
Proof. intros a _; reflexivity. Qed.
Lemma unchanged_trans h h1 h2 : List.length h <= List.length h1 -> unchanged h h1 -> unchanged h1 h2 -> unchanged h h2.
Proof. intros L U1 U2 a Ha; rewrite U2 by lia; apply U1; exact Ha. Qed.

Definition none : ghost := fun _ => None.

Lemma upd_unchanged p h g' h' : upd (Some p) none h g' h' -> List.length h <= List.length h' /\ unchanged h h'.
Proof.
  intros [L U]; split; [exact L|]; intros a Ha; apply U; [exact Ha|].
  intros (q & E); discriminate.
Qed.

Section Up.
  Context {X : Type} (P : pred X) (f : X -> pyval) (h : heap).

  Lemma own_of_reads v D : wf D -> reads h v (inj_dict f D) -> (forall k x, In (k, x) D -> forall v, reads h v (f x) -> P none h None v x) ->
    own P none h None v D.
  Proof.
    intros Hw H HQ; unfold inj_dict in H; inversion H as [| | | | | |a d ps Hn HF]; subst.
    split; [exact Hw|]; exists a, d; split; [reflexivity|]; split; [reflexivity|]; split; [exact Hn|].
    clear Hw H Hn a; revert d HF; induction D as [|[k x] D IH]; intros d HF; inversion HF as [|y z d' ps' [Hk Hy] HF']; subst; [constructor|]; constructor.
    - cbn [fst snd] in *; split; [exact Hk|]; apply (HQ k x); [left; reflexivity|exact Hy].
    - apply IH; [intros k' x' Hin; apply (HQ k' x'); right; exact Hin|exact HF'].
  Qed.
End Up.

Lemma rules_of_reads h v N : wf_rules N -> reads h v (inj_rules N) -> own (own (own (own (leaf (reads h))))) none h None v N.
Proof.
  intros [Hw Ho] H; apply (own_of_reads _ inj_od); [exact Hw|exact H|].
  intros k od Hin w Hr; destruct (Ho k od Hin) as [Hw1 Hv]; apply (own_of_reads _ inj_vd); [exact Hw1|exact Hr|].
  intros os vd Hin1 w1 Hr1; destruct (Hv os vd Hin1) as [Hw2 Hi]; apply (own_of_reads _ inj_id); [exact Hw2|exact Hr1|].
  intros ver id Hin2 w2 Hr2; apply (own_of_reads _ (fun x => x)); [apply (Hi ver id Hin2)|exact Hr2|].
  intros i r _ w3 Hr3; exact Hr3.
Qed.

Lemma own_reads {X} (P : pred X) (f : X -> pyval) g h o v D :
  (forall o w x, P g h o w x -> reads h w (f x)) -> own P g h o v D -> reads h v (inj_dict f D).
Proof.
  intros HP (_ & a & m & -> & _ & Hn & R); unfold inj_dict; apply RDict with (d := m); [exact Hn|].
  clear Hn; induction R as [|[k w] [k' x] m D [E Hp] R IH]; [constructor|]; constructor; [split; [exact E|eapply HP; exact Hp]|exact IH].
Qed.

(** The objects of the result did not exist before. *)
Lemma own_new {X} (P : pred X) n g h h' p v D :
  (forall a q, a < List.length h -> g a <> Some q) ->
  (forall q w x, P g h' (Some q) w x -> new_since h n h' w) ->
  own P g h' (Some p) v D -> new_since h (S n) h' v.
Proof.
  intros Hg HP (_ & a & m & -> & Ha & Hn & R); exists a, m; split; [reflexivity|]; split.
  - destruct (Nat.le_gt_cases (List.length h) a) as [Hle|Hlt]; [exact Hle|].
    exfalso; exact (Hg a p Hlt Ha).
  - split; [exact Hn|]; intros k w Hin.
    clear Hn; induction R as [|[k1 w1] [k2 x] m D [E Hp] R IH]; [destruct Hin|].
    destruct Hin as [Heq|Hin]; [inversion Heq; subst; eapply HP; exact Hp|apply IH; exact Hin].
Qed.

Lemma upd_none p h g' h' : upd (Some p) none h g' h' -> forall a q, a < List.length h -> g' a <> Some q.
Proof. intros [_ U] a q Ha E; destruct (U a Ha) as [G _]; rewrite E in G; discriminate. Qed.

(** ** Merging *)
Section Statements.
  Variable defs : dict text (option text).

  (** Whatever objects the arguments of a merge share, the result is the one computed from
      their values; no existing object is modified; and none of the dicts of the result
      existed before the merge. *)
  Theorem C89_merge_shares_nothing h l Ns r h' :
    Forall2 (fun v N => reads h v (inj_rules N)) l Ns -> Forall wf_rules Ns ->
    h_merge_rules defs l h = (r, h') ->
    List.length h <= List.length h' /\ unchanged h h' /\
    match merge_rules Ns defs with
    | Ok N => exists v, r = Ok v /\ reads h' v (inj_rules N) /\ new_since h 4 h' v
    | Err e => r = Err e
    end.
  Proof.
    intros HR HW E.
    assert (HN : Forall2 (fun v N => own (own (own (own (leaf (reads h))))) none h None v N) l Ns).
    { clear E; induction HR as [|v N l Ns Hv HR IH]; [constructor|]; inversion HW; subst; constructor.
      - apply rules_of_reads; assumption.
      - apply IH; assumption. }
    destruct (merge_rules_sim (reads h) none h defs l Ns HN) as (g1 & h1 & r1 & E1 & U1 & S1).
    rewrite E in E1; inversion E1; subst r1 h1; clear E1.
    destruct (upd_unchanged _ _ _ _ U1) as [L1 Un]; split; [exact L1|]; split; [exact Un|].
    destruct (merge_rules Ns defs) as [N|e]; [|exact S1].
    destruct S1 as (v & -> & Hv); exists v; split; [reflexivity|]; split.
    - apply (own_reads (own (own (own (leaf (reads h))))) inj_od g1 h' (Some []) v N); [|exact Hv].
      intros o w x; apply own_reads; intros o1 w1 x1; apply own_reads; intros o2 w2 x2; apply own_reads.
      intros o3 w3 x3 Hl; exact (reads_weaken h h' w3 x3 Un Hl).
    - pose proof (upd_none _ _ _ _ U1) as Hg.
      refine (own_new (own (own (own (leaf (reads h))))) 3 g1 h h' [] v N Hg _ Hv); intros q w x.
      refine (own_new (own (own (leaf (reads h)))) 2 g1 h h' q w x Hg _); intros q1 w1 x1.
      refine (own_new (own (leaf (reads h))) 1 g1 h h' q1 w1 x1 Hg _); intros q2 w2 x2.
      refine (own_new (leaf (reads h)) 0 g1 h h' q2 w2 x2 Hg _); intros; exact I.
  Qed.
End Statements.

(** ** Lookups *)
(** database.py:310-318 on values. *)
Definition db_lookup_values (Rs : list (rules_dict pyval)) (key os version : text) (def : option text) :=
  lookup_all (rev Rs) key os version def [].

(** A lookup through all sources of a database modifies no existing object, gives what the
    values of the sources give, in a new dict. *)
Theorem C90_lookup_reads_only h l Rs key os version def r h' :
  Forall2 (fun v R => reads h v (inj_rules R)) l Rs -> Forall wf_rules Rs ->
  h_db_lookup l key os version def h = (r, h') ->
  List.length h <= List.length h' /\ unchanged h h' /\
  match db_lookup_values Rs key os version def with
  | Ok d => exists v, r = Ok v /\ reads h' v (inj_id d) /\ new_since h 1 h' v
  | Err e => r = Err e
  end.
Proof.
  intros HR HW E.
  assert (HN : Forall2 (fun v N => own (own (own (own (leaf (reads h))))) none h None v N) l Rs).
  { clear E; induction HR as [|v N l Ns Hv HR IH]; [constructor|]; inversion HW; subst; constructor.
    - apply rules_of_reads; assumption.
    - apply IH; assumption. }
  destruct (db_lookup_sim (reads h) key os version def l Rs none h HN (fun _ => eq_refl)) as (g1 & h1 & r1 & E1 & U1 & S1).
  rewrite E in E1; inversion E1; subst r1 h1; clear E1.
  destruct (upd_unchanged _ _ _ _ U1) as [L1 Un]; split; [exact L1|]; split; [exact Un|].
  unfold db_lookup_values; destruct (lookup_all (rev Rs) key os version def []) as [d|e]; [|exact S1].
  destruct S1 as (v & -> & Hv); exists v; split; [reflexivity|]; split.
  - apply (own_reads (leaf (reads h)) (fun x => x) g1 h' (Some []) v d); [|exact Hv].
    intros o3 w3 x3 Hl; exact (reads_weaken h h' w3 x3 Un Hl).
  - refine (own_new (leaf (reads h)) 0 g1 h h' [] v d (upd_none _ _ _ _ U1) _ Hv); intros; exact I.
Qed.

(** A client of the database: it looks up keys, and writes to the dicts it got. *)
Inductive client_op :=
| Look (key os version : text) (def : option text)
| Put (answer : nat) (k : pkey) (x : hval)
| Remove (answer : nat) (k : pkey).

(** The answers given so far, newest last; failed lookups and failed writes are ignored. *)
Definition client_step (sources : list hval) (st : list (res hval) * heap) (op : client_op)
  : list (res hval) * heap :=
  let '(answers, h) := st in
  match op with
  | Look key os version def => let '(r, h') := h_db_lookup sources key os version def h in (answers ++ [r], h')
  | Put n k x => match nth_error answers n with
                 | Some (Ok v) => (answers, snd (hset v k x h))
                 | _ => st
                 end
  | Remove n k => match nth_error answers n with
                  | Some (Ok v) => (answers, snd (hdel v k h))
                  | _ => st
                  end
  end.
Definition client (sources : list hval) (ops : list client_op) (h : heap) : list (res hval) * heap :=
  fold_left (client_step sources) ops ([], h).

Lemma hset_new h h' v k x : List.length h <= List.length h' -> unchanged h h' -> (forall a, v = HRef a -> List.length h <= a) ->
  List.length h <= List.length (snd (hset v k x h')) /\ unchanged h (snd (hset v k x h')).
Proof.
  intros L U Hv; unfold hset, hbind, items; destruct v as [ | | | | |a]; try (split; [exact L|exact U]).
  destruct (nth_error h' a) as [[l|d]|] eqn:E; cbn [snd]; try (split; [exact L|exact U]).
  unfold write; cbn [snd]; rewrite length_update; split; [exact L|]; intros b Hb; rewrite nth_update.
  specialize (Hv a eq_refl); destruct (Nat.eqb_spec a b); [lia|]; apply U; exact Hb.
Qed.
Lemma hdel_new h h' v k : List.length h <= List.length h' -> unchanged h h' -> (forall a, v = HRef a -> List.length h <= a) ->
  List.length h <= List.length (snd (hdel v k h')) /\ unchanged h (snd (hdel v k h')).
Proof.
  intros L U Hv; unfold hdel, hbind, items; destruct v as [ | | | | |a]; try (split; [exact L|exact U]).
  destruct (nth_error h' a) as [[l|d]|] eqn:E; cbn [snd]; try (split; [exact L|exact U]).
  unfold lift; destruct (getitem k d); cbn [snd]; [|split; [exact L|exact U]].
  unfold write; cbn [snd]; rewrite length_update; split; [exact L|]; intros b Hb; rewrite nth_update.
  specialize (Hv a eq_refl); destruct (Nat.eqb_spec a b); [lia|]; apply U; exact Hb.
Qed.

Lemma client_inv h sources Rs ops :
  Forall2 (fun v R => reads h v (inj_rules R)) sources Rs -> Forall wf_rules Rs ->
  let st := client sources ops h in
  List.length h <= List.length (snd st) /\ unchanged h (snd st) /\
  (forall a, In (Ok (HRef a)) (fst st) -> List.length h <= a).
Proof.
  intros HR HW; unfold client.
  enough (Hg : forall ops st, List.length h <= List.length (snd st) /\ unchanged h (snd st) /\
                     (forall a, In (Ok (HRef a)) (fst st) -> List.length h <= a) ->
            List.length h <= List.length (snd (fold_left (client_step sources) ops st)) /\
            unchanged h (snd (fold_left (client_step sources) ops st)) /\
            (forall a, In (Ok (HRef a)) (fst (fold_left (client_step sources) ops st)) -> List.length h <= a)).
  { apply (Hg ops ([], h)); cbn [fst snd]; split; [lia|]; split; [apply unchanged_refl|]; intros a []. }
  clear ops; induction ops as [|op ops IH]; intros st Hst; [exact Hst|]; cbn [fold_left]; apply IH; clear IH.
  destruct st as [answers h1]; destruct Hst as (L & U & A); cbn [fst snd] in *; unfold client_step; destruct op as [key os version def|n k x|n k].
  - destruct (h_db_lookup sources key os version def h1) as [r h2] eqn:E; cbn [fst snd].
    assert (HR1 : Forall2 (fun v R => reads h1 v (inj_rules R)) sources Rs).
    { clear -HR U; induction HR as [|v R l Rs Hv HR IH]; [constructor|]; constructor; [eapply reads_weaken; eassumption|exact IH]. }
    destruct (C90_lookup_reads_only h1 sources Rs key os version def r h2 HR1 HW E) as (L2 & U2 & S2).
    split; [lia|]; split; [apply (unchanged_trans h h1 h2 L U U2)|].
    intros a Hin; apply in_app_iff in Hin; destruct Hin as [Hin|[Hin|[]]]; [apply A; exact Hin|].
    subst r; destruct (db_lookup_values Rs key os version def); [|discriminate].
    destruct S2 as (v & Ev & _ & a' & d' & -> & Ha' & _); inversion Ev; subst; lia.
  - destruct (nth_error answers n) as [[v|e]|] eqn:En; cbn [fst snd]; [|auto|auto].
    destruct (hset_new h h1 v k x L U) as [L' U']; [intros a ->; apply A; apply nth_error_In with (n := n); exact En|].
    auto.
  - destruct (nth_error answers n) as [[v|e]|] eqn:En; cbn [fst snd]; [|auto|auto].
    destruct (hdel_new h h1 v k L U) as [L' U']; [intros a ->; apply A; apply nth_error_In with (n := n); exact En|].
    auto.
Qed.

(** After any history of lookups and of changes to the answers, a lookup answers what it
    would have answered first. *)
Theorem C90_history_independent h sources Rs ops key os version def answers h1 r h2 :
  Forall2 (fun v R => reads h v (inj_rules R)) sources Rs -> Forall wf_rules Rs ->
  client sources ops h = (answers, h1) ->
  h_db_lookup sources key os version def h1 = (r, h2) ->
  match db_lookup_values Rs key os version def with
  | Ok d => exists v, r = Ok v /\ reads h2 v (inj_id d)
  | Err e => r = Err e
  end.
Proof.
  intros HR HW Ec El; pose proof (client_inv h sources Rs ops HR HW) as Hc; rewrite Ec in Hc; cbn [fst snd] in Hc.
  destruct Hc as (L & U & _).
  assert (HR1 : Forall2 (fun v R => reads h1 v (inj_rules R)) sources Rs).
  { clear -HR U; induction HR as [|v R l Rs Hv HR IH]; [constructor|]; constructor; [eapply reads_weaken; eassumption|exact IH]. }
  destruct (C90_lookup_reads_only h1 sources Rs key os version def r h2 HR1 HW El) as (_ & _ & S2).
  destruct (db_lookup_values Rs key os version def); [|exact S2].
  destruct S2 as (v & Ev & Hv & _); eauto.
Qed.

(** ** Examples and the limit of C90 *)
Section Examples.
  Let k t := KStr (u t).
  (** One file; ubuntu and debian share one version dict (a YAML alias), as do two keys. *)
  Definition ex_heap : heap :=
    [ OList [HStr (u "libfoo")];
      ODict [(k "packages", HRef 0)];
      ODict [(k "apt", HRef 1)];
      ODict [(k "any_version", HRef 2); (k "precise", HRef 2)];
      ODict [(k "ubuntu", HRef 3); (k "debian", HRef 3)];
      ODict [(k "foo", HRef 4); (k "bar", HRef 4)] ].
  Definition ex_rule : pyval := VDict [(k "packages", VList [VStr (u "libfoo")])].
  Definition ex_vd : version_dict pyval :=
    [(u "any_version", [(u "apt", ex_rule)]); (u "precise", [(u "apt", ex_rule)])].
  Definition ex_rules : rules_dict pyval :=
    [(u "foo", [(u "ubuntu", ex_vd); (u "debian", ex_vd)]); (u "bar", [(u "ubuntu", ex_vd); (u "debian", ex_vd)])].

  Lemma ex_reads : reads ex_heap (HRef 5) (inj_rules ex_rules).
  Proof.
    assert (R1 : reads ex_heap (HRef 1) ex_rule).
    { apply RDict with (d := [(k "packages", HRef 0)]); [reflexivity|].
      constructor; [split; [reflexivity|]|constructor].
      apply RList with (l := [HStr (u "libfoo")]); [reflexivity|]; constructor; [constructor|constructor]. }
    assert (R2 : reads ex_heap (HRef 2) (inj_id [(u "apt", ex_rule)])).
    { apply RDict with (d := [(k "apt", HRef 1)]); [reflexivity|].
      constructor; [split; [reflexivity|exact R1]|constructor]. }
    assert (R3 : reads ex_heap (HRef 3) (inj_vd ex_vd)).
    { apply RDict with (d := [(k "any_version", HRef 2); (k "precise", HRef 2)]); [reflexivity|].
      constructor; [split; [reflexivity|exact R2]|]; constructor; [split; [reflexivity|exact R2]|constructor]. }
    assert (R4 : reads ex_heap (HRef 4) (inj_od [(u "ubuntu", ex_vd); (u "debian", ex_vd)])).
    { apply RDict with (d := [(k "ubuntu", HRef 3); (k "debian", HRef 3)]); [reflexivity|].
      constructor; [split; [reflexivity|exact R3]|]; constructor; [split; [reflexivity|exact R3]|constructor]. }
    apply RDict with (d := [(k "foo", HRef 4); (k "bar", HRef 4)]); [reflexivity|].
    constructor; [split; [reflexivity|exact R4]|]; constructor; [split; [reflexivity|exact R4]|constructor].
  Qed.

  Lemma ex_wf : wf_rules ex_rules.
  Proof.
    assert (W1 : wf_version_dict ex_vd).
    { split; [repeat constructor; vm_compute; intuition discriminate|].
      intros v id [E|[E|[]]]; inversion E; subst; repeat constructor; intros []. }
    assert (W2 : wf_os_dict [(u "ubuntu", ex_vd); (u "debian", ex_vd)]).
    { split; [repeat constructor; vm_compute; intuition discriminate|].
      intros os vd [E|[E|[]]]; inversion E; subst; exact W1. }
    split; [repeat constructor; vm_compute; intuition discriminate|].
    intros key od [E|[E|[]]]; inversion E; subst; exact W2.
  Qed.

  (** The same file twice, merged: four levels of new dicts, the shared rule objects kept. *)
  Example C89_nonvacuous :
    (Forall2 (fun v N => reads ex_heap v (inj_rules N)) [HRef 5; HRef 5] [ex_rules; ex_rules] /\
     Forall wf_rules [ex_rules; ex_rules]) /\
    merge_rules [ex_rules; ex_rules] [(u "ubuntu", Some (u "apt"))] =
      Ok [(u "foo", [(u "ubuntu", [(u "any_version", [(u "apt", ex_rule)]); (u "precise", [(u "apt", ex_rule)])])]);
          (u "bar", [(u "ubuntu", [(u "any_version", [(u "apt", ex_rule)]); (u "precise", [(u "apt", ex_rule)])])])] /\
    exists v h', h_merge_rules [(u "ubuntu", Some (u "apt"))] [HRef 5; HRef 5] ex_heap = (Ok v, h') /\
                 List.length h' > List.length ex_heap.
  Proof.
    split; [split|split].
    - repeat constructor; exact ex_reads.
    - constructor; [exact ex_wf|]; constructor; [exact ex_wf|constructor].
    - vm_compute; reflexivity.
    - eexists _, _; split; [vm_compute; reflexivity|]; vm_compute; lia.
  Qed.

  (** A client that looks up, spoils its answer and looks up again. *)
  Definition ex_ops : list client_op :=
    [Look (u "foo") (u "ubuntu") (u "lucid") (Some (u "apt")); Put 0 (k "apt") HNone; Remove 0 (k "apt")].
  Example C90_nonvacuous :
    db_lookup_values [ex_rules] (u "foo") (u "ubuntu") (u "lucid") (Some (u "apt")) = Ok [(u "apt", ex_rule)] /\
    exists v h1, client [HRef 5] ex_ops ex_heap = ([Ok v], h1) /\ reads h1 v (VDict []).
  Proof.
    split; [vm_compute; reflexivity|].
    eexists _, _; split; [vm_compute; reflexivity|].
    eapply RDict with (d := []); [reflexivity|constructor].
  Qed.

  (** The rules in an answer are the objects of the database: a client that changes one
      changes later answers (and what is saved to the cache). *)
  Theorem C90_rules_are_shared_refuted :
    ~ (forall h sources Rs key os version def v h1 a w k x h2 r h3,
         Forall2 (fun v R => reads h v (inj_rules R)) sources Rs -> Forall wf_rules Rs ->
         h_db_lookup sources key os version def h = (Ok v, h1) ->
         hget v (KStr a) h1 = (Ok w, h1) ->      (* a rule of the answer *)
         hset w k x h1 = (Ok tt, h2) ->          (* is changed *)
         h_db_lookup sources key os version def h2 = (r, h3) ->
         match db_lookup_values Rs key os version def with
         | Ok d => exists v, r = Ok v /\ reads h3 v (inj_id d)
         | Err e => r = Err e
         end).
  Proof.
    intros H.
    assert (HR : Forall2 (fun v R => reads ex_heap v (inj_rules R)) [HRef 5] [ex_rules]) by (repeat constructor; exact ex_reads).
    assert (HW : Forall wf_rules [ex_rules]) by (constructor; [exact ex_wf|constructor]).
    destruct (h_db_lookup [HRef 5] (u "foo") (u "ubuntu") (u "lucid") (Some (u "apt")) ex_heap) as [r1 h1] eqn:E1.
    vm_compute in E1; inversion E1; subst r1 h1; clear E1.
    specialize (H ex_heap [HRef 5] [ex_rules] (u "foo") (u "ubuntu") (u "lucid") (Some (u "apt")) _ _
                  (u "apt") (HRef 1) (k "packages") HNone _ _ _ HR HW eq_refl eq_refl eq_refl eq_refl).
    replace (db_lookup_values [ex_rules] (u "foo") (u "ubuntu") (u "lucid") (Some (u "apt")))
      with (Ok [(u "apt", ex_rule)]) in H by (vm_compute; reflexivity).
    destruct H as (v & Ev & Hr).
    vm_compute in Ev; inversion Ev; subst v; clear Ev.
    inversion Hr as [| | | | | |a d ps Hn HF Ha Hd]; subst; clear Hr; vm_compute in Hn; inversion Hn; subst d; clear Hn.
    inversion HF as [|x y l l' [_ Hx] _ Hl Hl']; subst; cbn [snd] in Hx; clear HF.
    inversion Hx as [| | | | | |a d ps Hn HF Ha Hd]; subst; clear Hx; vm_compute in Hn; inversion Hn; subst d; clear Hn.
    inversion HF as [|x y m m' [_ Hx] _ Hm Hm']; subst; cbn [snd] in Hx; inversion Hx.
  Qed.
End Examples.

Print Assumptions C89_merge_shares_nothing.
Print Assumptions C90_lookup_reads_only.
Print Assumptions C90_history_independent.
Print Assumptions C90_rules_are_shared_refuted.
