(** The heap functions of Heap.v compute what the functions on values (RulesDict.v) compute,
    and modify nothing but the objects they have made. *)
From Verif Require Import Base Dict PyVal RulesDict Heap.
From Coq Require Import Lia.

Notation path := (list text).
(** A ghost map gives every object of a tree its path in the tree; [None] for the inputs. *)
Notation ghost := (nat -> option path).

Definition sub (o : option path) (k : text) : option path :=
  match o with Some p => Some (p ++ [k]) | None => None end.

(** [o'] is at or below [o]. *)
Definition under (o o' : option path) : Prop :=
  match o with
  | None => o' = None
  | Some p => exists q, o' = Some (p ++ q)
  end.

Lemma under_refl o : under o o.
Proof. destruct o as [p|]; simpl; [exists []; rewrite app_nil_r|]; reflexivity. Qed.

Lemma under_sub o k o' : under (sub o k) o' -> under o o'.
Proof.
  destruct o as [p|]; simpl; [|auto].
  intros (q & ->); exists ([k] ++ q); now rewrite <- app_assoc.
Qed.

Lemma under_sub_self p k : ~ under (sub (Some p) k) (Some p).
Proof.
  simpl; intros (q & E); inversion E as [E']; apply (f_equal (@List.length _)) in E'.
  rewrite !app_length in E'; simpl in E'; lia.
Qed.

Lemma under_sub_disj p k k' o : k <> k' -> under (sub (Some p) k) o -> ~ under (sub (Some p) k') o.
Proof.
  simpl; intros Hk (q & ->) (q' & E); inversion E as [E'].
  rewrite <- !app_assoc in E'; apply app_inv_head in E'; simpl in E'; congruence.
Qed.

Lemma under_None p o : under None o -> ~ under (Some p) o.
Proof. simpl; intros -> (q & E); discriminate. Qed.

(** Nothing that exists is changed outside of [o]; ghosts are kept. *)
Definition upd (o : option path) (g : ghost) (h : heap) (g' : ghost) (h' : heap) : Prop :=
  List.length h <= List.length h' /\
  forall a, a < List.length h ->
    g' a = g a /\ (~ under o (g a) -> nth_error h' a = nth_error h a).

Lemma upd_refl o g h : upd o g h g h.
Proof. split; [lia|]; auto. Qed.

Lemma upd_trans o g h g1 h1 g2 h2 : upd o g h g1 h1 -> upd o g1 h1 g2 h2 -> upd o g h g2 h2.
Proof.
  intros [L1 U1] [L2 U2]; split; [lia|]; intros a Ha.
  destruct (U1 a Ha) as [G1 N1]; destruct (U2 a ltac:(lia)) as [G2 N2].
  split; [congruence|]; intros Hn; rewrite N2, N1; auto; now rewrite G1.
Qed.

Lemma upd_sub o k g h g' h' : upd (sub o k) g h g' h' -> upd o g h g' h'.
Proof.
  intros [L U]; split; [assumption|]; intros a Ha; destruct (U a Ha) as [G N]; split; [assumption|].
  intros Hn; apply N; intros Hu; apply Hn; eapply under_sub; eassumption.
Qed.

(** Predicates on values in a heap. *)
Notation pred X := (ghost -> heap -> option path -> hval -> X -> Prop).

Definition same_under (o : option path) (g : ghost) (h : heap) (g' : ghost) (h' : heap) : Prop :=
  forall a, a < List.length h -> under o (g a) -> g' a = g a /\ nth_error h' a = nth_error h a.

Definition stable {X} (P : pred X) : Prop :=
  forall g h g' h' o v x, same_under o g h g' h' -> P g h o v x -> P g' h' o v x.

Section Leaf.
(** Rules are not looked at by merging: any relation on them that does not depend on the heap. *)
Context {LF : Type} (lf : hval -> LF -> Prop).
Definition leaf : pred LF := fun _ _ _ x y => lf x y.
Lemma stable_leaf : stable leaf.
Proof. intros g h g' h' o v x _ H; exact H. Qed.

(** [m] and [D] have the same keys in the same order and related values. *)
Definition rel {X} (P : text -> hval -> X -> Prop) (m : dict pkey hval) (D : dict text X) : Prop :=
  Forall2 (fun x y => fst x = KStr (fst y) /\ P (fst y) (snd x) (snd y)) m D.

(** The value is a dict object at [o] with contents [D]. *)
Definition own {X} (P : pred X) : pred (dict text X) := fun g h o v D =>
  wf D /\ exists a m, v = HRef a /\ g a = o /\ nth_error h a = Some (ODict m) /\
                      rel (fun k => P g h (sub o k)) m D.

Lemma rel_impl {X} (P Q : text -> hval -> X -> Prop) m D :
  (forall k v x, P k v x -> Q k v x) -> rel P m D -> rel Q m D.
Proof.
  intros H R; induction R as [|x y m D [E Hp] R IH]; constructor; [split; auto|exact IH].
Qed.

Lemma nth_error_lt {A} (l : list A) n x : nth_error l n = Some x -> n < List.length l.
Proof. intros H; apply nth_error_Some; congruence. Qed.

Lemma stable_own {X} (P : pred X) : stable P -> stable (own P).
Proof.
  intros HP g h g' h' o v D HS (Hw & a & m & -> & Hg & Hn & R).
  split; [assumption|].
  destruct (HS a (nth_error_lt _ _ _ Hn) ltac:(rewrite Hg; apply under_refl)) as [Hg' Hn'].
  exists a, m; split; [reflexivity|]; split; [congruence|]; split; [congruence|].
  eapply rel_impl; [|exact R]; intros k v x Hp; cbv beta in *.
  eapply HP; [|exact Hp]; intros b Hb Hu; apply HS; [assumption|eapply under_sub; exact Hu].
Qed.

Notation inst := (own leaf).
Notation ver := (own inst).
Notation os_ := (own ver).
Notation rules_ := (own os_).

Lemma stable_inst : stable inst. Proof. apply stable_own, stable_leaf. Qed.
Lemma stable_ver : stable ver. Proof. apply stable_own, stable_inst. Qed.
Lemma stable_os : stable os_. Proof. apply stable_own, stable_ver. Qed.
Lemma stable_rules : stable rules_. Proof. apply stable_own, stable_os. Qed.
#[local] Hint Resolve stable_leaf stable_inst stable_ver stable_os stable_rules : stable.

(** The inputs are not touched by updates below a path. *)
Lemma upd_input {X} (P : pred X) p g h g' h' v x :
  stable P -> upd (Some p) g h g' h' -> P g h None v x -> P g' h' None v x.
Proof.
  intros HP [L U] H; eapply HP; [|exact H]; intros a Ha Hu; destruct (U a Ha) as [G N].
  split; [assumption|]; apply N, under_None, Hu.
Qed.

(** Nor other parts of the tree. *)
Lemma upd_sibling {X} (P : pred X) p k k' g h g' h' v x :
  stable P -> k <> k' -> upd (Some (p ++ [k])) g h g' h' -> P g h (sub (Some p) k') v x -> P g' h' (sub (Some p) k') v x.
Proof.
  intros HP Hk [L U] H; eapply HP; [|exact H]; intros a Ha Hu; destruct (U a Ha) as [G N].
  split; [assumption|]; apply N; intros Hu'.
  eapply (under_sub_disj p k k'); [exact Hk|exact Hu'|exact Hu].
Qed.

(** ** [rel] and dict operations *)
Lemma eqb_KStr (a b : text) : eqb (KStr a) (KStr b) = eqb a b.
Proof. reflexivity. Qed.

Section Rel.
  Context {X : Type}.
  Implicit Types (P Q : text -> hval -> X -> Prop) (m : dict pkey hval) (D : dict text X).

  Lemma rel_get P m D k : rel P m D ->
    match get k D with
    | Some x => exists v, get (KStr k) m = Some v /\ P k v x
    | None => get (KStr k) m = None
    end.
  Proof.
    intros R; induction R as [|[k1 v] [k2 x] m D [E Hp] R IH]; simpl in *; [now rewrite !get_nil|].
    subst k1; rewrite !get_cons, eqb_KStr.
    destruct (eqb_spec k k2) as [Hs|Hs]; [subst; exists v; auto|exact IH].
  Qed.

  Lemma rel_has P m D k : rel P m D -> has (KStr k) m = has k D.
  Proof.
    intros R; pose proof (rel_get P m D k R) as H; unfold has; destruct (get k D) as [x|].
    - destruct H as (v & -> & _); reflexivity.
    - now rewrite H.
  Qed.

  Lemma rel_set P m D k v x : rel P m D -> P k v x -> rel P (set (KStr k) v m) (set k x D).
  Proof.
    intros R Hp; induction R as [|[k1 v1] [k2 x1] m D [E Hp1] R IH]; simpl in *.
    - rewrite !set_nil; constructor; [split; [reflexivity|exact Hp]|constructor].
    - subst k1; rewrite !set_cons, eqb_KStr; destruct (eqb_spec k k2) as [Hs|Hs].
      + subst; constructor; [split; [reflexivity|exact Hp]|exact R].
      + constructor; [split; [reflexivity|exact Hp1]|exact IH].
  Qed.

  Lemma rel_del P m D k : rel P m D -> rel P (del (KStr k) m) (del k D).
  Proof.
    intros R; unfold del; induction R as [|[k1 v1] [k2 x1] m D [E Hp1] R IH]; simpl in *; [constructor|].
    subst k1; rewrite eqb_KStr; destruct (eqb_spec k k2) as [Hs|Hs]; simpl; [exact IH|].
    constructor; [split; [reflexivity|exact Hp1]|exact IH].
  Qed.

  Lemma rel_child P Q m D k v x : rel P m D -> wf D -> get (KStr k) m = Some v ->
    (forall k' v' x', k' <> k -> P k' v' x' -> Q k' v' x') -> Q k v x -> rel Q m (set k x D).
  Proof.
    intros R Hw Hg Hother Hq; revert Hw Hg; induction R as [|[k1 v1] [k2 x1] m D [E Hp1] R IH]; simpl in *; intros Hw Hg.
    - now rewrite get_nil in Hg.
    - subst k1; rewrite get_cons, eqb_KStr in Hg; rewrite set_cons.
      apply wf_cons in Hw; destruct Hw as [Hnone Hw].
      destruct (eqb_spec k k2) as [Hs|Hs].
      + subst k2; inversion Hg; subst v1; constructor; [split; [reflexivity|exact Hq]|].
        clear IH Hg Hp1; revert Hnone; induction R as [|[k1 v1] [k2 x2] m D [E Hp1] R IH]; simpl in *; intros Hnone; [constructor|].
        rewrite get_cons in Hnone; destruct (eqb_spec k k2) as [Hs|Hs]; [discriminate|].
        constructor.
        * split; [exact E|]; apply Hother; [intros Heq; apply Hs; symmetry; exact Heq|exact Hp1].
        * apply IH; [apply wf_cons in Hw; tauto|assumption].
      + constructor; [split; [reflexivity|apply Hother; [intros Heq; apply Hs; symmetry; exact Heq|exact Hp1]]|apply IH; assumption].
  Qed.

  Lemma rel_replace P Q m D k v x : rel P m D -> wf D ->
    (forall k' v' x', k' <> k -> P k' v' x' -> Q k' v' x') -> Q k v x -> rel Q (set (KStr k) v m) (set k x D).
  Proof.
    intros R Hw Hother Hq; revert Hw; induction R as [|[k1 v1] [k2 x1] m D [E Hp1] R IH]; simpl in *; intros Hw.
    - rewrite !set_nil; constructor; [split; [reflexivity|exact Hq]|constructor].
    - subst k1; rewrite !set_cons, eqb_KStr; apply wf_cons in Hw; destruct Hw as [Hnone Hw].
      destruct (eqb_spec k k2) as [Hs|Hs].
      + subst k2; constructor; [split; [reflexivity|exact Hq]|].
        clear IH Hp1; revert Hnone; induction R as [|[k1 v2] [k2 x2] m D [E Hp1] R IH]; simpl in *; intros Hnone; [constructor|].
        rewrite get_cons in Hnone; destruct (eqb_spec k k2) as [Hs|Hs]; [discriminate|].
        constructor.
        * split; [exact E|]; apply Hother; [intros Heq; apply Hs; symmetry; exact Heq|exact Hp1].
        * apply IH; [apply wf_cons in Hw; tauto|assumption].
      + constructor; [split; [reflexivity|apply Hother; [intros Heq; apply Hs; symmetry; exact Heq|exact Hp1]]|apply IH; assumption].
  Qed.

  Lemma rel_keys P m D : rel P m D -> keys m = map KStr (keys D).
  Proof.
    intros R; induction R as [|[k1 v] [k2 x] m D [E Hp] R IH]; simpl in *; [reflexivity|].
    unfold keys in *; simpl; subst; now rewrite IH.
  Qed.

  Lemma rel_nil_iff P m D : rel P m D ->
    (match m with [] => true | _ => false end) = (match D with [] => true | _ => false end).
  Proof. intros R; destruct R; reflexivity. Qed.
End Rel.

(** ** Primitive operations *)
Lemma items_own {X} (P : pred X) g h o v D : own P g h o v D ->
  exists m, items v h = (Ok m, h) /\ rel (fun k => P g h (sub o k)) m D.
Proof.
  intros (_ & a & m & -> & _ & Hn & R); exists m; unfold items; rewrite Hn; auto.
Qed.

Lemma hhas_own {X} (P : pred X) g h o v D k : own P g h o v D -> hhas v (KStr k) h = (Ok (has k D), h).
Proof.
  intros H; destruct (items_own P g h o v D H) as (m & E & R).
  unfold hhas, hbind; rewrite E; unfold ret; now rewrite (rel_has _ m D k R).
Qed.

Lemma hempty_own {X} (P : pred X) g h o v D : own P g h o v D ->
  hempty v h = (Ok (match D with [] => true | _ => false end), h).
Proof.
  intros H; destruct (items_own P g h o v D H) as (m & E & R).
  unfold hempty, hbind; rewrite E; unfold ret; now rewrite (rel_nil_iff _ m D R).
Qed.

Lemma hget_own {X} (P : pred X) g h o v D k : own P g h o v D ->
  match get k D with
  | Some x => exists w, hget v (KStr k) h = (Ok w, h) /\ P g h (sub o k) w x
  | None => hget v (KStr k) h = (Err KeyError, h)
  end.
Proof.
  intros H; destruct (items_own P g h o v D H) as (m & E & R).
  unfold hget, hbind; rewrite E; unfold lift, getitem.
  pose proof (rel_get _ m D k R) as Hg; destruct (get k D) as [x|].
  - destruct Hg as (w & -> & Hp); exists w; auto.
  - now rewrite Hg.
Qed.

Lemma nth_update {A} (l : list A) n x k :
  nth_error (update_nth l n x) k = if Nat.eqb n k then match nth_error l n with Some _ => Some x | None => None end
                                   else nth_error l k.
Proof.
  revert n k; induction l as [|y l IH]; intros [|n] [|k]; simpl; try reflexivity.
  - now destruct (Nat.eqb n k).
  - now rewrite IH.
Qed.
Lemma length_update {A} (l : list A) n x : List.length (update_nth l n x) = List.length l.
Proof. revert n; induction l as [|y l IH]; intros [|n]; simpl; auto. Qed.

(** Writing the dict object at [Some p] itself. *)
Lemma write_own {X} (P : pred X) g h p v D m' D' : stable P -> own P g h (Some p) v D -> wf D' ->
  rel (fun k => P g h (sub (Some p) k)) m' D' ->
  exists h', write v m' h = (Ok tt, h') /\ upd (Some p) g h g h' /\ own P g h' (Some p) v D'.
Proof.
  intros HP (Hw & a & m & -> & Hg & Hn & R) Hw' R'.
  exists (update_nth h a (ODict m')); split; [reflexivity|].
  assert (Hother : forall b, b < List.length h -> g b <> Some p -> nth_error (update_nth h a (ODict m')) b = nth_error h b).
  { intros b Hb Hgb; rewrite nth_update; destruct (Nat.eqb_spec a b); [congruence|reflexivity]. }
  split.
  - split; [now rewrite length_update|]; intros b Hb; split; [reflexivity|].
    intros Hu; apply Hother; [assumption|]; intros E; apply Hu; rewrite E; apply under_refl.
  - split; [assumption|]; exists a, m'; split; [reflexivity|]; split; [assumption|]; split.
    + rewrite nth_update, Nat.eqb_refl, Hn; reflexivity.
    + eapply rel_impl; [|exact R']; intros k w x Hp; cbv beta in *.
      eapply HP; [|exact Hp]; intros b Hb Hu; split; [reflexivity|].
      apply Hother; [assumption|]; intros E; rewrite E in Hu; exact (under_sub_self p k Hu).
Qed.

Lemma hset_own {X} (P : pred X) g h p v D k w x : stable P -> own P g h (Some p) v D ->
  P g h (sub (Some p) k) w x ->
  exists h', hset v (KStr k) w h = (Ok tt, h') /\ upd (Some p) g h g h' /\ own P g h' (Some p) v (set k x D).
Proof.
  intros HP H Hp; destruct (items_own P g h _ v D H) as (m & E & R).
  destruct (write_own P g h p v D (set (KStr k) w m) (set k x D) HP H) as (h' & E' & U & H').
  - apply wf_set, H.
  - apply rel_set; assumption.
  - exists h'; split; [|auto]; unfold hset, hbind; rewrite E; exact E'.
Qed.

Lemma hdel_own {X} (P : pred X) g h p v D k : stable P -> own P g h (Some p) v D -> has k D = true ->
  exists h', hdel v (KStr k) h = (Ok tt, h') /\ upd (Some p) g h g h' /\ own P g h' (Some p) v (del k D).
Proof.
  intros HP H Hk; destruct (items_own P g h _ v D H) as (m & E & R).
  destruct (write_own P g h p v D (del (KStr k) m) (del k D) HP H) as (h' & E' & U & H').
  - apply wf_del, H.
  - apply rel_del; assumption.
  - exists h'; split; [|auto]; unfold hdel, hbind; rewrite E; unfold lift, getitem.
    rewrite <- (rel_has _ m D k R) in Hk; unfold has in Hk; destruct (get (KStr k) m); [exact E'|discriminate].
Qed.

(** Changing an entry. *)
Lemma child_own {X} (P : pred X) g h g' h' p v D k w x : stable P -> own P g h (Some p) v D ->
  upd (Some (p ++ [k])) g h g' h' -> hget v (KStr k) h = (Ok w, h) -> P g' h' (sub (Some p) k) w x ->
  own P g' h' (Some p) v (set k x D).
Proof.
  intros HP (Hw & a & m & -> & Hg & Hn & R) U Hget Hp; split; [now apply wf_set|].
  pose proof (nth_error_lt _ _ _ Hn) as Ha; destruct U as [L U]; destruct (U a Ha) as [G N].
  exists a, m; split; [reflexivity|]; split; [congruence|]; split.
  - rewrite N; [assumption|]; rewrite Hg; intros Hu; exact (under_sub_self p k Hu).
  - unfold hget, hbind, items in Hget; rewrite Hn in Hget; unfold lift, getitem in Hget.
    assert (Hm : get (KStr k) m = Some w) by (destruct (get (KStr k) m); congruence).
    eapply rel_child; [exact R|assumption|exact Hm| |exact Hp].
    intros k' v' x' Hk Hp'; cbv beta in *; eapply upd_sibling; [exact HP| |split; [exact L|exact U]|exact Hp']; intros Heq; apply Hk; symmetry; exact Heq.
Qed.

Definition extend (g : ghost) (a : nat) (o : option path) : ghost := fun b => if Nat.eqb a b then o else g b.

Lemma new_dict_own {X} (P : pred X) g h o :
  exists g' h', new_dict h = (Ok (HRef (List.length h)), h') /\
    List.length h <= List.length h' /\
    (forall a, a < List.length h -> g' a = g a /\ nth_error h' a = nth_error h a) /\
    own P g' h' o (HRef (List.length h)) [].
Proof.
  exists (extend g (List.length h) o), (h ++ [ODict []]); split; [reflexivity|].
  rewrite app_length; split; [lia|]; split.
  - intros a Ha; unfold extend; destruct (Nat.eqb_spec (List.length h) a); [lia|].
    split; [reflexivity|]; now rewrite nth_error_app1.
  - split; [constructor|]; exists (List.length h), []; split; [reflexivity|]; split.
    + unfold extend; now rewrite Nat.eqb_refl.
    + split; [rewrite nth_error_app2, Nat.sub_diag by lia; reflexivity|constructor].
Qed.

Lemma same_upd o g h g' h' : List.length h <= List.length h' ->
  (forall a, a < List.length h -> g' a = g a /\ nth_error h' a = nth_error h a) -> upd o g h g' h'.
Proof. intros L H; split; [assumption|]; intros a Ha; destruct (H a Ha); auto. Qed.

(** ** Simulation of an operation that updates the tree at [p] *)
(** [f] started in [h] ends like the value [F] and leaves [v] with the contents. *)
Definition sim {X} (P : pred X) (p : path) (g : ghost) (h : heap) (f : hm unit) (v : hval) (F : res X) : Prop :=
  exists g' h' r, f h = (r, h') /\ upd (Some p) g h g' h' /\
    match F with
    | Ok D => r = Ok tt /\ P g' h' (Some p) v D
    | Err e => r = Err e
    end.

(** The same for operations that make the object. *)
Definition sim_new {X} (P : pred X) (p : path) (g : ghost) (h : heap) (f : hm hval) (F : res X) : Prop :=
  exists g' h' r, f h = (r, h') /\ upd (Some p) g h g' h' /\
    match F with
    | Ok D => exists v, r = Ok v /\ P g' h' (Some p) v D
    | Err e => r = Err e
    end.

(** Loops over the items of an input. *)
Lemma hfor_sim {X Y} (P : pred X) (Q : pred Y) (p : path) (v : hval)
    (f : pkey * hval -> hm unit) (F : X -> text * Y -> res X) :
  stable Q ->
  (forall g h D k w y, P g h (Some p) v D -> Q g h None w y -> sim P p g h (f (KStr k, w)) v (F D (k, y))) ->
  forall m N g h D, rel (fun _ => Q g h None) m N -> P g h (Some p) v D ->
    sim P p g h (hfor m f) v (foldM F N D).
Proof.
  intros HQ Hf m N g h D R; revert g h D R.
  revert N; induction m as [|[k1 w] m IH]; intros [|[k y] N] g h D R HP; inversion R as [|? ? ? ? [E Hq] R']; subst.
  - exists g, h, (Ok tt); split; [reflexivity|]; split; [apply upd_refl|]; simpl; auto.
  - simpl in E, Hq; subst k1.
    destruct (Hf g h D k w y HP Hq) as (g1 & h1 & r & E1 & U1 & S1); simpl.
    destruct (F D (k, y)) as [D1|e]; simpl.
    + destruct S1 as [-> HP1].
      destruct (IH N g1 h1 D1) as (g2 & h2 & r2 & E2 & U2 & S2); [|exact HP1|].
      * change (rel (fun _ => Q g h None) m N) in R'.
        revert R'; apply rel_impl; intros k' v' x' H'; cbv beta in *; eapply upd_input; [exact HQ|exact U1|exact H'].
      * exists g2, h2, r2; split; [unfold hbind; rewrite E1; exact E2|]; split; [eapply upd_trans; eassumption|exact S2].
    + exists g1, h1, (Err e); split; [unfold hbind; rewrite E1, S1; reflexivity|]; auto.
Qed.

Lemma h_replace_eq k def : h_replace (KStr k) def = match replace_default_installer k def with Ok n => Ok (KStr n) | Err e => Err e end.
Proof.
  unfold h_replace, replace_default_installer; rewrite eqb_KStr.
  destruct (eqb k default_installer); [|reflexivity]; destruct def as [[|c n]|]; reflexivity.
Qed.

(** ** The functions, bottom up *)
Section Sims.
  Implicit Types (g : ghost) (h : heap) (p : path).

  Definition add_rule (def : option text) (c : dict text LF) (q : text * LF) : res (dict text LF) :=
    let* name := replace_default_installer (fst q) def in Ok (set name (snd q) c).

  Lemma add_rule_sim def g h p v D k w y :
    inst g h (Some p) v D -> lf w y ->
    sim inst p g h (do name <- lift (h_replace (KStr k) def); hset v name w) v (add_rule def D (k, y)).
  Proof.
    intros H Hy; unfold hbind, lift, add_rule; rewrite h_replace_eq; cbn [fst snd].
    destruct (replace_default_installer k def) as [n|e] eqn:En; cbn [bind].
    - destruct (hset_own leaf g h p v D n w y) as (h' & E & U & H'); [apply stable_leaf|exact H|exact Hy|].
      exists g, h', (Ok tt); unfold sim; rewrite E; auto.
    - exists g, h, (Err e); split; [reflexivity|]; split; [apply upd_refl|reflexivity].
  Qed.

  Lemma items_input {X} (P : pred X) g h v D : own P g h None v D ->
    exists m, items v h = (Ok m, h) /\ rel (fun _ => P g h None) m D.
  Proof. intros H; exact (items_own P g h None v D H). Qed.

  Lemma merge_installer_sim g h p new v N D def :
    inst g h None new N -> inst g h (Some p) v D ->
    sim inst p g h (h_merge_installer_dict new v def) v (merge_installer_dict N D def).
  Proof.
    intros HN HD; destruct (items_input leaf g h new N HN) as (m & E & R).
    unfold h_merge_installer_dict, sim, hbind at 1; rewrite E.
    change (merge_installer_dict N D def) with (foldM (add_rule def) N D).
    apply (hfor_sim inst leaf p v _ (add_rule def) stable_leaf); [|exact R|exact HD].
    intros g1 h1 D1 k w y H1 Hy; apply add_rule_sim; [exact H1|exact Hy].
  Qed.

  (** A new dict filled by a loop. *)
  Lemma fill_sim {X Y} (P : pred X) (Q : pred Y) p g h id N
      (f : hval -> pkey * hval -> hm unit) (F : dict text X -> text * Y -> res (dict text X)) :
    stable Q ->
    (forall g h v D k w y, own P g h (Some p) v D -> Q g h None w y -> sim (own P) p g h (f v (KStr k, w)) v (F D (k, y))) ->
    own Q g h None id N ->
    sim_new (own P) p g h (do r <- new_dict; do l <- items id; hfor l (f r) ;; ret r) (foldM F N []).
  Proof.
    intros HQ Hf HN; destruct (new_dict_own P g h (Some p)) as (g1 & h1 & E1 & L1 & S1 & H1).
    pose proof (same_upd (Some p) g h g1 h1 L1 S1) as U1.
    assert (HN1 : own Q g1 h1 None id N) by (eapply upd_input; [apply stable_own, HQ|exact U1|exact HN]).
    destruct (items_input Q g1 h1 id N HN1) as (m & Em & R).
    destruct (hfor_sim (own P) Q p (HRef (List.length h)) (f (HRef (List.length h))) F HQ
                (fun g h => Hf g h _) m N g1 h1 [] R H1) as (g2 & h2 & r & E2 & U2 & S2).
    unfold sim_new, hbind at 1; rewrite E1; unfold hbind at 1; rewrite Em; unfold hbind at 1; rewrite E2.
    exists g2, h2; destruct (foldM F N []) as [D|e].
    - destruct S2 as [-> H2]; exists (Ok (HRef (List.length h))); split; [reflexivity|].
      split; [eapply upd_trans; eassumption|]; eauto.
    - subst r; exists (Err e); split; [reflexivity|]; split; [eapply upd_trans; eassumption|reflexivity].
  Qed.

  Lemma copy_installer_sim g h p id N def :
    inst g h None id N -> sim_new inst p g h (h_copy_installer_dict id def) (copy_installer_dict N def).
  Proof.
    intros HN; unfold h_copy_installer_dict.
    change (copy_installer_dict N def) with (foldM (add_rule def) N []).
    apply (fill_sim leaf leaf p g h id N
             (fun r q => do name <- lift (h_replace (fst q) def); hset r name (snd q)) (add_rule def) stable_leaf); [|exact HN].
    intros g1 h1 v D k w y H1 Hy; apply add_rule_sim; [exact H1|exact Hy].
  Qed.

  (** Make a child and store it. *)
  Lemma store_sim {X} (P : pred X) p g h v D k (f : hm hval) (F : res X) :
    stable P -> own P g h (Some p) v D ->
    sim_new P (p ++ [k]) g h f F ->
    sim (own P) p g h (do c <- f; hset v (KStr k) c) v (let* d := F in Ok (set k d D)).
  Proof.
    intros HP (Hw & a & m & -> & Hg & Hn & R) (g1 & h1 & r & E1 & U1 & S1).
    pose proof (nth_error_lt _ _ _ Hn) as Ha; pose proof U1 as [L U]; destruct (U a Ha) as [G N].
    assert (Hn1 : nth_error h1 a = Some (ODict m)).
    { rewrite N; [assumption|]; rewrite Hg; intros Hu; exact (under_sub_self p k Hu). }
    unfold sim, hbind; rewrite E1; destruct F as [d|e]; cbn [bind].
    - destruct S1 as (w & -> & Hp).
      assert (R' : rel (fun k' => P g1 h1 (sub (Some p) k')) (set (KStr k) w m) (set k d D)).
      { eapply rel_replace; [exact R|assumption| |exact Hp].
        intros k' v' x' Hne Hp'; cbv beta in *.
        eapply upd_sibling; [exact HP| |exact U1|exact Hp']; intros Heq; apply Hne; symmetry; exact Heq. }
      set (m' := set (KStr k) w m) in *.
      exists g1, (update_nth h1 a (ODict m')), (Ok tt).
      split; [unfold hset, hbind, items; rewrite Hn1; reflexivity|].
      assert (Hother : forall b, b < List.length h1 -> g1 b <> Some p ->
                nth_error (update_nth h1 a (ODict m')) b = nth_error h1 b).
      { intros b Hb Hgb; rewrite nth_update; destruct (Nat.eqb_spec a b); [congruence|reflexivity]. }
      split.
      + eapply upd_trans; [apply (upd_sub (Some p) k); exact U1|].
        split; [now rewrite length_update|]; intros b Hb; split; [reflexivity|].
        intros Hu; apply Hother; [assumption|]; intros E; apply Hu; rewrite E; apply under_refl.
      + split; [reflexivity|]; split; [now apply wf_set|].
        exists a, m'; split; [reflexivity|]; split; [congruence|]; split.
        * rewrite nth_update, Nat.eqb_refl, Hn1; reflexivity.
        * eapply rel_impl; [|exact R']; intros k' w' x' Hp'; cbv beta in *.
          eapply HP; [|exact Hp']; intros b Hb Hu; split; [reflexivity|].
          apply Hother; [assumption|]; intros E; rewrite E in Hu; exact (under_sub_self p k' Hu).
    - subst r; exists g1, h1, (Err e); split; [reflexivity|]; split; [apply (upd_sub (Some p) k); exact U1|reflexivity].
  Qed.

  Lemma copy_version_sim g h p vd N def :
    ver g h None vd N -> sim_new ver p g h (h_copy_version_dict vd def) (copy_version_dict N def).
  Proof.
    intros HN; unfold h_copy_version_dict, copy_version_dict.
    apply (fill_sim inst inst p g h vd N
             (fun r q => do id <- h_copy_installer_dict (snd q) def; hset r (fst q) id)
             (fun c q => let* id := copy_installer_dict (snd q) def in Ok (set (fst q) id c)) stable_inst); [|exact HN].
    intros g1 h1 v D k w y H1 Hy; cbn [fst snd].
    apply store_sim; [apply stable_inst|exact H1|]; apply copy_installer_sim; exact Hy.
  Qed.

  Lemma ret_sim {X} (P : pred X) p g h v D : P g h (Some p) v D -> sim P p g h (ret tt) v (Ok D).
  Proof. intros H; exists g, h, (Ok tt); split; [reflexivity|]; split; [apply upd_refl|auto]. Qed.

  Lemma copy_os_sim g h p od N defs :
    os_ g h None od N -> sim_new os_ p g h (h_copy_os_dict defs od) (copy_os_dict N defs).
  Proof.
    intros HN; unfold h_copy_os_dict, copy_os_dict.
    apply (fill_sim ver ver p g h od N
      (fun r q => if eqb (fst q) (KStr any_os) then
        do vd <- h_copy_version_dict (snd q) None; hset r (fst q) vd
      else match def_of defs (fst q) with
           | Some def => do vd <- h_copy_version_dict (snd q) def; hset r (fst q) vd
           | None => ret tt
           end)
      (fun c q => if eqb (fst q) any_os then
               let* vd := copy_version_dict (snd q) None in Ok (set (fst q) vd c)
             else match get (fst q) defs with
                  | Some def => let* vd := copy_version_dict (snd q) def in Ok (set (fst q) vd c)
                  | None => Ok c
                  end) stable_ver); [|exact HN].
    intros g1 h1 v D k w y H1 Hy; cbn [fst snd def_of]; rewrite eqb_KStr.
    destruct (eqb k any_os); [apply store_sim; [apply stable_ver|exact H1|apply copy_version_sim; exact Hy]|].
    destruct (get k defs) as [def|]; [|apply ret_sim; exact H1].
    apply store_sim; [apply stable_ver|exact H1|apply copy_version_sim; exact Hy].
  Qed.

  (** Sequencing *)
  Lemma seq_sim {X} (P : pred X) p g h v (f1 f2 : hm unit) (F1 : res X) (F2 : X -> res X) :
    sim P p g h f1 v F1 ->
    (forall g' h' D, upd (Some p) g h g' h' -> P g' h' (Some p) v D -> F1 = Ok D -> sim P p g' h' f2 v (F2 D)) ->
    sim P p g h (f1 ;; f2) v (let* D := F1 in F2 D).
  Proof.
    intros (g1 & h1 & r & E1 & U1 & S1) H2; unfold sim, hbind; rewrite E1.
    destruct F1 as [D|e]; cbn [bind].
    - destruct S1 as [-> H1]; destruct (H2 g1 h1 D U1 H1 eq_refl) as (g2 & h2 & r & E2 & U2 & S2).
      exists g2, h2, r; split; [exact E2|]; split; [eapply upd_trans; eassumption|exact S2].
    - subst r; exists g1, h1, (Err e); auto.
  Qed.

  (** An operation on the entry [k]. *)
  Lemma child_sim {X} (P : pred X) p g h v D k w (f : hm unit) (F : res X) :
    stable P -> own P g h (Some p) v D -> hget v (KStr k) h = (Ok w, h) ->
    sim P (p ++ [k]) g h f w F ->
    sim (own P) p g h f v (let* d := F in Ok (set k d D)).
  Proof.
    intros HP HD Hg (g1 & h1 & r & E1 & U1 & S1); exists g1, h1, r; split; [exact E1|].
    split; [apply (upd_sub (Some p) k); exact U1|]; destruct F as [d|e]; cbn [bind]; [|exact S1].
    destruct S1 as [-> Hp]; split; [reflexivity|].
    eapply child_own; [exact HP|exact HD|exact U1|exact Hg|exact Hp].
  Qed.

  (** Reading steps. *)
  Lemma read_sim {X A} (P : pred X) p g h v (f : hm A) (a : A) (f2 : A -> hm unit) (F : res X) :
    f h = (Ok a, h) -> sim P p g h (f2 a) v F -> sim P p g h (do x <- f; f2 x) v F.
  Proof. intros E (g1 & h1 & r & E1 & R); exists g1, h1, r; split; [unfold hbind; rewrite E; exact E1|exact R]. Qed.

  Lemma del_absent {V} k (D : dict text V) : has k D = false -> del k D = D.
  Proof.
    intros H; apply has_false in H; rewrite get_None in H; unfold del.
    induction D as [|[k' x] D IH]; simpl; [reflexivity|].
    destruct (eqb_spec k k') as [Hs|Hs]; [subst; elim H; left; reflexivity|simpl].
    rewrite IH; [reflexivity|]; intros Hin; apply H; right; exact Hin.
  Qed.

  (** The state of the loops of the two functions that remove rules: the processed entries
      [D1], the others [D2]. *)
  Lemma del_app_mid {V} k (x : V) (D1 D2 : dict text V) : wf (D1 ++ (k, x) :: D2) -> del k (D1 ++ (k, x) :: D2) = D1 ++ D2.
  Proof.
    unfold wf, keys, del; rewrite map_app; simpl; intros H; rewrite filter_app; simpl; rewrite eqb_refl; simpl.
    assert (Hn : ~ In k (map fst D1) /\ ~ In k (map fst D2)).
    { apply NoDup_remove_2 in H; split; intros Hin; apply H, in_or_app; auto. }
    destruct Hn as [H1 H2].
    assert (forall D : dict text V, ~ In k (map fst D) -> filter (fun q : text * V => negb (eqb k (fst q))) D = D) as Hf.
    { clear; induction D as [|[k' y] D IH]; simpl; intros Hn; [reflexivity|].
      destruct (eqb_spec k k') as [Hs|Hs]; [subst; tauto|simpl; rewrite IH; tauto]. }
    now rewrite !Hf.
  Qed.

  Lemma set_app_mid {V} k (x y : V) (D1 D2 : dict text V) : wf (D1 ++ (k, x) :: D2) ->
    set k y (D1 ++ (k, x) :: D2) = D1 ++ (k, y) :: D2.
  Proof.
    unfold wf, keys; rewrite map_app; simpl; intros H; apply NoDup_remove_2 in H.
    assert (H1 : ~ In k (map fst D1)) by (intros Hin; apply H, in_or_app; auto).
    clear H; induction D1 as [|[k' z] D1 IH]; simpl in *.
    - rewrite set_cons, eqb_refl; reflexivity.
    - rewrite set_cons; destruct (eqb_spec k k') as [Hs|Hs]; [subst; tauto|]; rewrite IH; tauto.
  Qed.

  Lemma get_app_mid {V} k (x : V) (D1 D2 : dict text V) : wf (D1 ++ (k, x) :: D2) -> get k (D1 ++ (k, x) :: D2) = Some x.
  Proof. intros H; apply In_get; [exact H|]; apply in_or_app; right; left; reflexivity. Qed.

  (** The reference in an entry. *)
  Definition entry (v : hval) (k : text) (w : hval) (h : heap) : Prop := hget v (KStr k) h = (Ok w, h).

  Lemma entry_own {X} (P : pred X) g h o v D k x w :
    own P g h o v D -> get k D = Some x -> entry v k w h -> P g h (sub o k) w x.
  Proof.
    intros HD Hx He; pose proof (hget_own P g h o v D k HD) as H; rewrite Hx in H.
    destruct H as (w' & E & Hp); unfold entry in He; rewrite He in E; inversion E; subst; exact Hp.
  Qed.

  Lemma entry_del v k k' w h h' : hdel v (KStr k) h = (Ok tt, h') -> k' <> k -> entry v k' w h -> entry v k' w h'.
  Proof.
    unfold entry, hdel, hget, hbind, items; destruct v as [| | | | |a]; try discriminate.
    destruct (nth_error h a) as [[l|d]|] eqn:Hn; try discriminate.
    unfold lift, getitem; destruct (get (KStr k) d) as [x|]; [|discriminate].
    intros E Hk He; inversion E; subst h'; clear E.
    rewrite nth_update, Nat.eqb_refl, Hn; rewrite get_del, eqb_KStr.
    destruct (eqb_spec k' k) as [Hs|Hs]; [contradiction|].
    destruct (get (KStr k') d); inversion He; subst; reflexivity.
  Qed.

  (** Entries are kept by an update below. *)
  Lemma entry_upd {X} (P : pred X) g h g' h' p k0 v D k w :
    own P g h (Some p) v D -> upd (Some (p ++ [k0])) g h g' h' -> entry v k w h -> entry v k w h'.
  Proof.
    intros (Hw & a & m & -> & Hg & Hn & R) [L U]; unfold entry, hget, hbind, items; rewrite Hn.
    destruct (U a (nth_error_lt _ _ _ Hn)) as [G N]; rewrite N, Hn.
    - unfold lift; intros E; inversion E; reflexivity.
    - rewrite Hg; intros Hu; exact (under_sub_self p k0 Hu).
  Qed.

  (** A loop over a snapshot of the items of the tree itself.  [keep k x] is what becomes of
      an entry: [None] if it is deleted. *)
  Lemma sweep_sim {X} (P : pred X) p v (f : pkey * hval -> hm unit) (keep : text -> X -> option X) :
    stable P ->
    (forall g h D k w x, own P g h (Some p) v D -> get k D = Some x -> entry v k w h ->
       exists g' h', f (KStr k, w) h = (Ok tt, h') /\ upd (Some p) g h g' h' /\
         own P g' h' (Some p) v (match keep k x with Some y => set k y D | None => del k D end) /\
         forall k' w', k' <> k -> entry v k' w' h -> entry v k' w' h') ->
    forall m2 D2 D1 g h, Forall2 (fun x y => fst x = KStr (fst y) /\ entry v (fst y) (snd x) h) m2 D2 ->
      own P g h (Some p) v (D1 ++ D2) ->
      sim (own P) p g h (hfor m2 f) v
        (Ok (D1 ++ flat_map (fun q => match keep (fst q) (snd q) with Some y => [(fst q, y)] | None => [] end) D2)).
  Proof.
    intros HP Hf m2; induction m2 as [|[k1 w] m2 IH]; intros [|[k x] D2] D1 g h HE HD; inversion HE as [|? ? ? ? [E He] HE']; subst.
    - simpl; apply ret_sim; exact HD.
    - simpl in E, He; subst k1.
      pose proof (proj1 HD) as Hw.
      destruct (Hf g h _ k w x HD (get_app_mid k x D1 D2 Hw) He) as (g1 & h1 & E1 & U1 & H1 & Hent).
      assert (Hk2 : forall q, In q D2 -> fst q <> k).
      { intros q Hq Heq; unfold wf, keys in Hw; rewrite map_app in Hw; simpl in Hw; apply NoDup_remove_2 in Hw.
        apply Hw, in_or_app; right; rewrite <- Heq; apply in_map; exact Hq. }
      assert (HE1 : Forall2 (fun x y => fst x = KStr (fst y) /\ entry v (fst y) (snd x) h1) m2 D2).
      { clear -HE' Hent Hk2; induction HE' as [|q1 q2 m2 D2 [E He] HE' IH]; constructor.
        - split; [exact E|]; apply Hent; [apply Hk2; left; reflexivity|exact He].
        - apply IH; intros q Hq; apply Hk2; right; exact Hq. }
      simpl; destruct (keep k x) as [y|] eqn:Ek.
      + rewrite (set_app_mid k x y D1 D2 Hw) in H1.
        change (D1 ++ (k, y) :: D2) with (D1 ++ [(k, y)] ++ D2) in H1; rewrite app_assoc in H1.
        destruct (IH D2 (D1 ++ [(k, y)]) g1 h1 HE1 H1) as (g2 & h2 & r & E2 & U2 & S2).
        exists g2, h2, r; split; [unfold hbind; rewrite E1; exact E2|].
        split; [eapply upd_trans; eassumption|].
        rewrite <- app_assoc in S2; exact S2.
      + rewrite (del_app_mid k x D1 D2 Hw) in H1.
        destruct (IH D2 D1 g1 h1 HE1 H1) as (g2 & h2 & r & E2 & U2 & S2).
        exists g2, h2, r; split; [unfold hbind; rewrite E1; exact E2|].
        split; [eapply upd_trans; eassumption|exact S2].
  Qed.

  Lemma snapshot {X} (P : pred X) g h o v D : own P g h o v D ->
    exists m, items v h = (Ok m, h) /\
      Forall2 (fun x y => fst x = KStr (fst y) /\ entry v (fst y) (snd x) h) m D.
  Proof.
    intros HD; destruct (items_own P g h o v D HD) as (m & E & R); exists m; split; [exact E|].
    pose proof (proj1 HD) as Hw.
    assert (Hall : forall k w, In (KStr k, w) m -> In k (keys D) -> entry v k w h).
    { intros k w Hin _; unfold entry, hget, hbind; rewrite E; unfold lift, getitem.
      assert (wf m).
      { unfold wf; rewrite (rel_keys _ m D R); apply FinFun.Injective_map_NoDup; [|exact Hw].
        intros x y Hxy; now inversion Hxy. }
      now rewrite (In_get _ _ _ H Hin). }
    clear Hw E HD; induction R as [|[k1 w] [k x] m D [Ek Hp] R IH]; constructor.
    - split; [exact Ek|]; simpl in *; apply Hall; left; congruence.
    - apply IH; intros k' w' Hin Hk; apply Hall; right; assumption.
  Qed.

  (** What becomes of the entries in [remove_rule_for_all_versions]. *)
  Definition keep_version (name : text) (retain : bool) (v : text) (id : dict text LF) : option (dict text LF) :=
    if retain && eqb v any_version then Some id
    else match (if has name id then del name id else id) with
         | [] => None
         | id' => Some id'
         end.

  Lemma remove_versions_eq vd name retain :
    remove_rule_for_all_versions vd name retain =
    flat_map (fun q => match keep_version name retain (fst q) (snd q) with Some y => [(fst q, y)] | None => [] end) vd.
  Proof.
    induction vd as [|[v id] vd IH]; simpl; [reflexivity|]; rewrite IH; unfold keep_version; simpl.
    destruct (retain && eqb v any_version); [reflexivity|].
    destruct (if has name id then del name id else id) as [|q id']; reflexivity.
  Qed.

  Lemma set_same {V} k (x : V) D : get k D = Some x -> set k x D = D.
  Proof. apply set_id. Qed.

  Lemma remove_versions_sim g h p v D name retain :
    ver g h (Some p) v D ->
    sim ver p g h (h_remove_rule_for_all_versions v (KStr name) retain) v
      (Ok (remove_rule_for_all_versions D name retain)).
  Proof.
    intros HD; rewrite remove_versions_eq.
    destruct (snapshot inst g h _ v D HD) as (m & E & HE).
    unfold h_remove_rule_for_all_versions; apply (read_sim ver p g h v (items v) m _ _ E).
    refine (sweep_sim inst p v _ (keep_version name retain) stable_inst _ m D [] g h HE HD).
    clear; intros g h D k w id HD Hk He; unfold keep_version; cbn [fst snd]; rewrite eqb_KStr.
    destruct (retain && eqb k any_version) eqn:Er.
    { exists g, h; split; [reflexivity|]; split; [apply upd_refl|]; rewrite (set_id k id D Hk); auto. }
    pose proof (entry_own inst g h _ v D k id w HD Hk He) as Hid.
    change (sub (Some p) k) with (Some (p ++ [k])) in Hid.
    unfold hbind at 1; rewrite (hhas_own leaf g h _ w id name Hid).
    assert (S1 : exists h1, (if has name id then hdel w (KStr name) else ret tt) h = (Ok tt, h1) /\
                   upd (Some (p ++ [k])) g h g h1 /\
                   inst g h1 (Some (p ++ [k])) w (if has name id then del name id else id)).
    { destruct (has name id) eqn:Hh.
      - exact (hdel_own leaf g h _ w id name stable_leaf Hid Hh).
      - exists h; split; [reflexivity|]; split; [apply upd_refl|exact Hid]. }
    destruct S1 as (h1 & E1 & U1 & Hid1).
    set (id1 := if has name id then del name id else id) in *.
    unfold hbind at 1; rewrite E1; unfold hbind at 1; rewrite (hempty_own leaf g h1 _ w id1 Hid1).
    assert (HD1 : ver g h1 (Some p) v (set k id1 D)).
    { eapply child_own; [apply stable_inst|exact HD|exact U1|exact He|exact Hid1]. }
    destruct id1 as [|q id1].
    - destruct (hdel_own inst g h1 p v (set k [] D) k stable_inst HD1) as (h2 & E2 & U2 & HD2).
      { apply has_true; rewrite get_set_same; eauto. }
      exists g, h2; split; [exact E2|]; split; [|split].
      + eapply upd_trans; [apply (upd_sub (Some p) k); exact U1|exact U2].
      + assert (Hds : del k (set k [] D) = del k D).
        { clear; induction D as [|[k' x] D IH]; simpl.
          - rewrite set_nil; unfold del; simpl; rewrite eqb_refl; reflexivity.
          - rewrite set_cons; destruct (eqb_spec k k') as [Hs|Hs]; unfold del in *; simpl.
            + subst; rewrite eqb_refl; reflexivity.
            + destruct (eqb k k') eqn:Ekk; simpl; [exact IH|now rewrite IH]. }
        rewrite Hds in HD2; exact HD2.
      + intros k' w' Hne He'; eapply entry_del; [exact E2|exact Hne|].
        eapply entry_upd; [exact HD|exact U1|exact He'].
    - exists g, h1; split; [reflexivity|]; split; [apply (upd_sub (Some p) k); exact U1|]; split; [exact HD1|].
      intros k' w' Hne He'; eapply entry_upd; [exact HD|exact U1|exact He'].
  Qed.

  Definition keep_os (name : text) (os : text) (vd : dict text (dict text LF)) : option (dict text (dict text LF)) :=
    if eqb os any_os then Some vd
    else match remove_rule_for_all_versions vd name false with
         | [] => None
         | vd' => Some vd'
         end.

  Lemma remove_os_eq od name :
    remove_rule_for_all_os od name =
    flat_map (fun q => match keep_os name (fst q) (snd q) with Some y => [(fst q, y)] | None => [] end) od.
  Proof.
    induction od as [|[o vd] od IH]; simpl; [reflexivity|]; rewrite IH; unfold keep_os; simpl.
    destruct (eqb o any_os); [reflexivity|].
    destruct (remove_rule_for_all_versions vd name false) as [|q vd']; reflexivity.
  Qed.

  Lemma del_set {V} k (x : V) (D : dict text V) : del k (set k x D) = del k D.
  Proof.
    induction D as [|[k' y] D IH]; simpl.
    - rewrite set_nil; unfold del; simpl; rewrite eqb_refl; reflexivity.
    - rewrite set_cons; destruct (eqb_spec k k') as [Hs|Hs]; unfold del in *; simpl.
      + subst; rewrite eqb_refl; reflexivity.
      + destruct (eqb k k') eqn:Ekk; simpl; [exact IH|now rewrite IH].
  Qed.

  Lemma remove_os_sim g h p v D name :
    os_ g h (Some p) v D ->
    sim os_ p g h (h_remove_rule_for_all_os v (KStr name)) v (Ok (remove_rule_for_all_os D name)).
  Proof.
    intros HD; rewrite remove_os_eq.
    destruct (snapshot ver g h _ v D HD) as (m & E & HE).
    unfold h_remove_rule_for_all_os; apply (read_sim os_ p g h v (items v) m _ _ E).
    refine (sweep_sim ver p v _ (keep_os name) stable_ver _ m D [] g h HE HD).
    clear; intros g h D k w vd HD Hk He; unfold keep_os; cbn [fst snd]; rewrite eqb_KStr.
    destruct (eqb k any_os) eqn:Er.
    { exists g, h; split; [reflexivity|]; split; [apply upd_refl|]; rewrite (set_id k vd D Hk); auto. }
    pose proof (entry_own ver g h _ v D k vd w HD Hk He) as Hvd.
    change (sub (Some p) k) with (Some (p ++ [k])) in Hvd.
    destruct (remove_versions_sim g h _ w vd name false Hvd) as (g1 & h1 & r & E1 & U1 & -> & Hvd1).
    unfold hbind at 1; rewrite E1.
    set (vd1 := remove_rule_for_all_versions vd name false) in *.
    unfold hbind at 1; rewrite (hempty_own inst g1 h1 _ w vd1 Hvd1).
    assert (HD1 : os_ g1 h1 (Some p) v (set k vd1 D)).
    { eapply child_own; [apply stable_ver|exact HD|exact U1|exact He|exact Hvd1]. }
    destruct vd1 as [|q vd1].
    - destruct (hdel_own ver g1 h1 p v (set k [] D) k stable_ver HD1) as (h2 & E2 & U2 & HD2).
      { apply has_true; rewrite get_set_same; eauto. }
      exists g1, h2; split; [exact E2|]; split; [|split].
      + eapply upd_trans; [apply (upd_sub (Some p) k); exact U1|exact U2].
      + rewrite del_set in HD2; exact HD2.
      + intros k' w' Hne He'; eapply entry_del; [exact E2|exact Hne|].
        eapply entry_upd; [exact HD|exact U1|exact He'].
    - exists g1, h1; split; [reflexivity|]; split; [apply (upd_sub (Some p) k); exact U1|]; split; [exact HD1|].
      intros k' w' Hne He'; eapply entry_upd; [exact HD|exact U1|exact He'].
  Qed.

  (** Loops over keys of an input. *)
  Lemma keys_sim {X} (P : pred X) p v (f : pkey -> hm unit) (F : X -> text -> res X) :
    (forall g h D k, P g h (Some p) v D -> sim P p g h (f (KStr k)) v (F D k)) ->
    forall l g h D, P g h (Some p) v D -> sim P p g h (hfor (map KStr l) f) v (foldM F l D).
  Proof.
    intros Hf l; induction l as [|k l IH]; intros g h D HD; simpl; [apply ret_sim; exact HD|].
    apply (seq_sim P p g h v (f (KStr k)) (hfor (map KStr l) f) (F D k) (foldM F l)); [apply Hf; exact HD|].
    intros g1 h1 D1 _ H1 _; apply IH; exact H1.
  Qed.

  Lemma get_has {V} k (D : dict text V) : has k D = match get k D with Some _ => true | None => false end.
  Proof. reflexivity. Qed.

  Lemma sim_upd {X} (P : pred X) p g h f v F g' h' r :
    sim P p g h f v F -> f h = (r, h') -> exists g'', upd (Some p) g h g'' h'.
  Proof. intros (g1 & h1 & r1 & E & U & _) E'; rewrite E in E'; inversion E'; subst; eauto. Qed.

  Lemma merge_any_version_sim g h p new v N D def :
    ver g h None new N -> ver g h (Some p) v D ->
    sim ver p g h (h_merge_any_version new v def) v (merge_any_version N D def).
  Proof.
    intros HN HD; unfold h_merge_any_version, merge_any_version.
    apply (read_sim ver p g h v _ (has any_version N) _ _ (hhas_own inst g h None new N any_version HN)).
    rewrite get_has; pose proof (hget_own inst g h None new N any_version HN) as Hg.
    destruct (get any_version N) as [nid|]; [|apply ret_sim; exact HD].
    destruct Hg as (w & Ew & Hw); simpl sub in Hw.
    apply (read_sim ver p g h v _ w _ _ Ew).
    destruct (items_input leaf g h w nid Hw) as (m & Em & R).
    apply (read_sim ver p g h v _ m _ _ Em).
    rewrite (rel_keys _ m nid R).
    apply (seq_sim ver p g h v (hfor (map KStr (keys nid)) _) _
             (foldM (fun c name => let* n := replace_default_installer name def in
                                   Ok (remove_rule_for_all_versions c n true)) (keys nid) D)).
    - apply keys_sim; [|exact HD]; clear; intros g h D k HD.
      unfold hbind, lift; rewrite h_replace_eq; destruct (replace_default_installer k def) as [n|e]; cbn [bind].
      + destruct (remove_versions_sim g h p v D n true HD) as (g1 & h1 & r & E & S); exists g1, h1, r; split; [exact E|exact S].
      + exists g, h, (Err e); split; [reflexivity|]; split; [apply upd_refl|reflexivity].
    - intros g1 h1 D1 U1 HD1 _.
      assert (Hw1 : inst g1 h1 None w nid) by (eapply upd_input; [apply stable_inst|exact U1|exact Hw]).
      apply (read_sim ver p g1 h1 v _ (has any_version D1) _ _ (hhas_own inst g1 h1 _ v D1 any_version HD1)).
      rewrite get_has; pose proof (hget_own inst g1 h1 _ v D1 any_version HD1) as Hg.
      destruct (get any_version D1) as [cid|] eqn:Ec.
      + destruct Hg as (c & Egc & Hc).
        apply (read_sim ver p g1 h1 v _ c _ _ Egc).
        apply (child_sim inst p g1 h1 v D1 any_version c _ _ stable_inst HD1 Egc).
        apply merge_installer_sim; [exact Hw1|exact Hc].
      + apply (store_sim inst p g1 h1 v D1 any_version _ _ stable_inst HD1).
        apply copy_installer_sim; exact Hw1.
  Qed.

  Lemma merge_version_sim g h p new v N D def :
    ver g h None new N -> ver g h (Some p) v D ->
    sim ver p g h (h_merge_version_dict new v def) v (merge_version_dict N D def).
  Proof.
    intros HN HD; unfold h_merge_version_dict, merge_version_dict.
    apply (seq_sim ver p g h v (h_merge_any_version new v def) _ (merge_any_version N D def) (foldM (merge_version_step def) N));
      [apply merge_any_version_sim; assumption|].
    intros g1 h1 D1 U1 HD1 _.
    assert (HN1 : ver g1 h1 None new N) by (eapply upd_input; [apply stable_ver|exact U1|exact HN]).
    destruct (items_input inst g1 h1 new N HN1) as (m & Em & R).
    apply (read_sim ver p g1 h1 v _ m _ _ Em).
    refine (hfor_sim ver inst p v _ (merge_version_step def) stable_inst _ m N g1 h1 D1 R HD1).
    clear; intros g h D k w y HD Hy; unfold merge_version_step; cbn [fst snd].
    apply (read_sim ver p g h v _ (has k D) _ _ (hhas_own inst g h _ v D k HD)).
    rewrite get_has; pose proof (hget_own inst g h _ v D k HD) as Hg; destruct (get k D) as [cid|].
    - destruct Hg as (c & Egc & Hc).
      apply (read_sim ver p g h v _ c _ _ Egc).
      apply (child_sim inst p g h v D k c _ _ stable_inst HD Egc).
      apply merge_installer_sim; [exact Hy|exact Hc].
    - apply (store_sim inst p g h v D k _ _ stable_inst HD); apply copy_installer_sim; exact Hy.
  Qed.

  Lemma merge_any_os_sim g h p new v N D :
    os_ g h None new N -> os_ g h (Some p) v D ->
    sim os_ p g h (h_merge_any_os new v) v (merge_any_os N D).
  Proof.
    intros HN HD; unfold h_merge_any_os, merge_any_os.
    apply (read_sim os_ p g h v _ (has any_os N) _ _ (hhas_own ver g h None new N any_os HN)).
    rewrite get_has; pose proof (hget_own ver g h None new N any_os HN) as Hg.
    destruct (get any_os N) as [nvd|]; [|apply ret_sim; exact HD].
    destruct Hg as (w & Ew & Hw); simpl sub in Hw.
    apply (read_sim os_ p g h v _ w _ _ Ew).
    pose proof (hget_own inst g h None w nvd any_version Hw) as Hg; unfold getitem.
    destruct (get any_version nvd) as [nid|]; cbn [bind].
    2:{ exists g, h, (Err KeyError); split; [unfold hbind; rewrite Hg; reflexivity|]; split; [apply upd_refl|reflexivity]. }
    destruct Hg as (w2 & Ew2 & Hw2); simpl sub in Hw2.
    apply (read_sim os_ p g h v _ w2 _ _ Ew2).
    destruct (items_input leaf g h w2 nid Hw2) as (m & Em & R).
    apply (read_sim os_ p g h v _ m _ _ Em).
    rewrite (rel_keys _ m nid R).
    apply (seq_sim os_ p g h v (hfor (map KStr (keys nid)) _) _
             (foldM (fun c name => let* n := replace_default_installer name None in
                                   Ok (remove_rule_for_all_os c n)) (keys nid) D)).
    - apply keys_sim; [|exact HD]; clear; intros g h D k HD.
      unfold hbind, lift; rewrite h_replace_eq; destruct (replace_default_installer k None) as [n|e]; cbn [bind].
      + destruct (remove_os_sim g h p v D n HD) as (g1 & h1 & r & E & S); exists g1, h1, r; split; [exact E|exact S].
      + exists g, h, (Err e); split; [reflexivity|]; split; [apply upd_refl|reflexivity].
    - intros g1 h1 D1 U1 HD1 _.
      assert (Hw1 : ver g1 h1 None w nvd) by (eapply upd_input; [apply stable_ver|exact U1|exact Hw]).
      assert (Hw21 : inst g1 h1 None w2 nid) by (eapply upd_input; [apply stable_inst|exact U1|exact Hw2]).
      apply (read_sim os_ p g1 h1 v _ (has any_os D1) _ _ (hhas_own ver g1 h1 _ v D1 any_os HD1)).
      rewrite get_has; pose proof (hget_own ver g1 h1 _ v D1 any_os HD1) as Hg.
      destruct (get any_os D1) as [cvd|] eqn:Ec.
      + destruct Hg as (c & Egc & Hc); simpl sub in Hc.
        apply (read_sim os_ p g1 h1 v _ c _ _ Egc).
        assert (Hs : sim ver (p ++ [any_os]) g1 h1
                  (do cid <- hget c (KStr any_version); h_merge_installer_dict w2 cid None) c
                  (let* cid := getitem any_version cvd in
                   let* cid' := merge_installer_dict nid cid None in Ok (set any_version cid' cvd))).
        { pose proof (hget_own inst g1 h1 _ c cvd any_version Hc) as Hg; unfold getitem.
          destruct (get any_version cvd) as [cid|]; cbn [bind].
          - destruct Hg as (c2 & Egc2 & Hc2).
            apply (read_sim ver _ g1 h1 c _ c2 _ _ Egc2).
            apply (child_sim inst _ g1 h1 c cvd any_version c2 _ _ stable_inst Hc Egc2).
            apply merge_installer_sim; [exact Hw21|exact Hc2].
          - exists g1, h1, (Err KeyError); split; [unfold hbind; rewrite Hg; reflexivity|]; split; [apply upd_refl|reflexivity]. }
        pose proof (child_sim ver p g1 h1 v D1 any_os c _ _ stable_ver HD1 Egc Hs) as Hs'.
        unfold getitem in Hs' |- *; destruct (get any_version cvd) as [cid|]; cbn [bind] in Hs' |- *; [|exact Hs'].
        destruct (merge_installer_dict nid cid None); cbn [bind] in Hs' |- *; exact Hs'.
      + apply (store_sim ver p g1 h1 v D1 any_os _ _ stable_ver HD1).
        apply copy_version_sim; exact Hw1.
  Qed.

  Lemma merge_os_sim g h p new v N D defs :
    os_ g h None new N -> os_ g h (Some p) v D ->
    sim os_ p g h (h_merge_os_dict defs new v) v (merge_os_dict N D defs).
  Proof.
    intros HN HD; unfold h_merge_os_dict, merge_os_dict.
    apply (seq_sim os_ p g h v (h_merge_any_os new v) _ (merge_any_os N D) (foldM (merge_os_step defs) N));
      [apply merge_any_os_sim; assumption|].
    intros g1 h1 D1 U1 HD1 _.
    assert (HN1 : os_ g1 h1 None new N) by (eapply upd_input; [apply stable_os|exact U1|exact HN]).
    destruct (items_input ver g1 h1 new N HN1) as (m & Em & R).
    apply (read_sim os_ p g1 h1 v _ m _ _ Em).
    refine (hfor_sim os_ ver p v _ (merge_os_step defs) stable_ver _ m N g1 h1 D1 R HD1).
    clear; intros g h D k w y HD Hy; unfold merge_os_step; cbn [fst snd def_of].
    destruct (get k defs) as [def|]; [|apply ret_sim; exact HD].
    apply (read_sim os_ p g h v _ (has k D) _ _ (hhas_own ver g h _ v D k HD)).
    rewrite get_has; pose proof (hget_own ver g h _ v D k HD) as Hg; destruct (get k D) as [cvd|].
    - destruct Hg as (c & Egc & Hc).
      apply (read_sim os_ p g h v _ c _ _ Egc).
      apply (child_sim ver p g h v D k c _ _ stable_ver HD Egc).
      apply merge_version_sim; [exact Hy|exact Hc].
    - apply (store_sim ver p g h v D k _ _ stable_ver HD); apply copy_version_sim; exact Hy.
  Qed.

  Lemma merge_rules_step_sim g h p v D defs k w y :
    rules_ g h (Some p) v D -> os_ g h None w y ->
    sim rules_ p g h
      (do b <- hhas v (KStr k);
       if b then do cod <- hget v (KStr k); h_merge_os_dict defs w cod
       else do c <- h_copy_os_dict defs w;
            do e <- hempty c;
            if e then ret tt else hset v (KStr k) c) v
      (merge_rules_step defs D (k, y)).
  Proof.
    intros HD Hy; unfold merge_rules_step; cbn [fst snd].
    apply (read_sim rules_ p g h v _ (has k D) _ _ (hhas_own os_ g h _ v D k HD)).
    rewrite get_has; pose proof (hget_own os_ g h _ v D k HD) as Hg; destruct (get k D) as [cod|] eqn:Ek.
    - destruct Hg as (c & Egc & Hc).
      apply (read_sim rules_ p g h v _ c _ _ Egc).
      apply (child_sim os_ p g h v D k c _ _ stable_os HD Egc).
      apply merge_os_sim; [exact Hy|exact Hc].
    - pose proof (copy_os_sim g h (p ++ [k]) w y defs Hy) as Hs.
      pose proof (store_sim os_ p g h v D k _ _ stable_os HD Hs) as Hstore.
      destruct Hs as (g1 & h1 & r & E1 & U1 & S1).
      destruct (copy_os_dict y defs) as [od|e] eqn:Eod; cbn [bind] in *.
      + destruct S1 as (c & -> & Hc).
        destruct od as [|q od].
        * exists g1, h1, (Ok tt); split.
          { unfold hbind at 1; rewrite E1; unfold hbind at 1; rewrite (hempty_own ver g1 h1 _ c [] Hc); reflexivity. }
          split; [apply (upd_sub (Some p) k); exact U1|]; split; [reflexivity|].
          (* the new empty dict is dropped; the tree is as before *)
          destruct HD as (Hw & a & m & -> & Hga & Hn & R); split; [assumption|].
          pose proof (nth_error_lt _ _ _ Hn) as Ha; pose proof U1 as [L U]; destruct (U a Ha) as [G N].
          exists a, m; split; [reflexivity|]; split; [congruence|]; split.
          { rewrite N; [assumption|]; rewrite Hga; intros Hu; exact (under_sub_self p k Hu). }
          rewrite get_None in Ek.
          assert (R' : rel (fun k' v x => k' <> k /\ os_ g h (sub (Some p) k') v x) m D).
          { clear -R Ek; induction R as [|[k1 w] [k2 x] m D [E Hp] R IH]; constructor; simpl in *.
            - split; [exact E|]; split; [intros ->; apply Ek; left; reflexivity|exact Hp].
            - apply IH; intros Hin; apply Ek; right; exact Hin. }
          eapply rel_impl; [|exact R']; intros k' v' x' [Hne Hp]; cbv beta in *.
          eapply upd_sibling; [apply stable_os| |exact U1|exact Hp]; intros Heq; apply Hne; symmetry; exact Heq.
        * destruct Hstore as (g2 & h2 & r & E2 & U2 & S2); exists g2, h2, r; split; [|split; [exact U2|exact S2]].
          unfold hbind at 1; rewrite E1; unfold hbind at 1; rewrite (hempty_own ver g1 h1 _ c (q :: od) Hc).
          unfold hbind at 1 in E2; rewrite E1 in E2; exact E2.
      + subst r; exists g1, h1, (Err e); split; [unfold hbind; rewrite E1; reflexivity|].
        split; [apply (upd_sub (Some p) k); exact U1|reflexivity].
  Qed.

  Lemma merge_rules_sim g h defs l Ns :
    Forall2 (fun v N => rules_ g h None v N) l Ns ->
    sim_new rules_ [] g h (h_merge_rules defs l) (merge_rules Ns defs).
  Proof.
    intros HN; unfold h_merge_rules, merge_rules.
    destruct (new_dict_own os_ g h (Some [])) as (g1 & h1 & E1 & L1 & S1 & H1).
    pose proof (same_upd (Some []) g h g1 h1 L1 S1) as U1.
    assert (HN1 : Forall2 (fun v N => rules_ g1 h1 None v N) (rev l) (rev Ns)).
    { assert (HN1 : Forall2 (fun v N => rules_ g1 h1 None v N) l Ns).
      { clear -HN U1; induction HN as [|v N l Ns Hv HN IH]; constructor; [|exact IH].
        eapply upd_input; [apply stable_rules|exact U1|exact Hv]. }
      clear -HN1; induction HN1 as [|v N l Ns Hv HN IH]; [constructor|]; simpl.
      apply Forall2_app; [exact IH|constructor; [exact Hv|constructor]]. }
    clear HN; set (r := HRef (List.length h)) in *; clearbody r.
    set (step := fun rules => do ps <- items rules;
           hfor ps (fun q : pkey * hval => do b <- hhas r (fst q);
             if b then do cod <- hget r (fst q); h_merge_os_dict defs (snd q) cod
             else do c <- h_copy_os_dict defs (snd q);
                  do e <- hempty c;
                  if e then ret tt else hset r (fst q) c)).
    assert (Hloop : forall vs Ms g h D, Forall2 (fun v N => rules_ g h None v N) vs Ms -> rules_ g h (Some []) r D ->
              sim rules_ [] g h (hfor vs step) r (foldM (fun c rules => foldM (merge_rules_step defs) rules c) Ms D)).
    { clear; induction vs as [|v vs IH]; intros [|M Ms] g h D HV HD; inversion HV as [|? ? ? ? Hv HV']; subst; simpl.
      - apply ret_sim; exact HD.
      - apply (seq_sim rules_ [] g h r (step v) (hfor vs step) (foldM (merge_rules_step defs) M D)
                 (foldM (fun c rules => foldM (merge_rules_step defs) rules c) Ms)).
        + unfold step; destruct (items_input os_ g h v M Hv) as (m & Em & R).
          apply (read_sim rules_ [] g h r _ m _ _ Em).
          refine (hfor_sim rules_ os_ [] r _ (merge_rules_step defs) stable_os _ m M g h D R HD).
          clear; intros g h D k w y HD Hy; cbn [fst snd]; apply merge_rules_step_sim; assumption.
        + intros g1 h1 D1 U1 HD1 _; apply IH; [|exact HD1].
          clear -HV' U1; induction HV' as [|v N l Ns Hv HN IH]; constructor; [|exact IH].
          eapply upd_input; [apply stable_rules|exact U1|exact Hv]. }
    destruct (Hloop (rev l) (rev Ns) g1 h1 [] HN1 H1) as (g2 & h2 & r2 & E2 & U2 & S2).
    unfold sim_new, hbind at 1; rewrite E1.
    change (hfor (rev l) _) with (hfor (rev l) step); unfold hbind at 1; rewrite E2.
    exists g2, h2; destruct (foldM _ (rev Ns) []) as [D|e].
    - destruct S2 as [-> H2]; exists (Ok r); split; [reflexivity|]; split; [eapply upd_trans; eassumption|eauto].
    - subst r2; exists (Err e); split; [reflexivity|]; split; [eapply upd_trans; eassumption|reflexivity].
  Qed.
End Sims.

(** ** Lookup *)
Section Lookup.
  Implicit Types (g : ghost) (h : heap) (p : path).

  (** Operations that only make new objects. *)
  Definition grows (g : ghost) (h : heap) (g' : ghost) (h' : heap) : Prop :=
    List.length h <= List.length h' /\
    forall a, a < List.length h -> g' a = g a /\ nth_error h' a = nth_error h a.

  Lemma grows_refl g h : grows g h g h.
  Proof. split; [lia|auto]. Qed.
  Lemma grows_trans g h g1 h1 g2 h2 : grows g h g1 h1 -> grows g1 h1 g2 h2 -> grows g h g2 h2.
  Proof.
    intros [L1 U1] [L2 U2]; split; [lia|]; intros a Ha.
    destruct (U1 a Ha); destruct (U2 a ltac:(lia)); split; congruence.
  Qed.
  Lemma grows_pred {X} (P : pred X) g h g' h' o v x : stable P -> grows g h g' h' -> P g h o v x -> P g' h' o v x.
  Proof. intros HP [L U] H; eapply HP; [|exact H]; intros a Ha _; apply U; exact Ha. Qed.

  Lemma hgetd_own {X} (P : pred (list X)) g h v D k :
    (forall g h, P = P -> exists g' h', new_dict h = (Ok (HRef (List.length h)), h') /\ grows g h g' h' /\ P g' h' None (HRef (List.length h)) []) ->
    stable P -> own P g h None v D ->
    exists g' h' w, hgetd v (KStr k) h = (Ok w, h') /\ grows g h g' h' /\ P g' h' None w (getd k D).
  Proof.
    intros Hnew HP HD; destruct (Hnew g h eq_refl) as (g1 & h1 & E1 & G1 & H1).
    assert (HD1 : own P g1 h1 None v D) by (eapply grows_pred; [apply stable_own, HP|exact G1|exact HD]).
    destruct (items_own P g1 h1 None v D HD1) as (m & Em & R).
    unfold hgetd, hbind at 1; rewrite E1; unfold hbind at 1; rewrite Em; unfold ret, getd.
    pose proof (rel_get _ m D k R) as Hg; destruct (get k D) as [x|].
    - destruct Hg as (w & -> & Hw); exists g1, h1, w; auto.
    - rewrite Hg; exists g1, h1, (HRef (List.length h)); auto.
  Qed.

  Lemma new_own {X} (P : pred X) g h o :
    exists g' h', new_dict h = (Ok (HRef (List.length h)), h') /\ grows g h g' h' /\ own P g' h' o (HRef (List.length h)) [].
  Proof.
    destruct (new_dict_own P g h o) as (g' & h' & E & L & U & H); exists g', h'; split; [exact E|].
    split; [split; assumption|exact H].
  Qed.

  Lemma grows_upd o g h g' h' : grows g h g' h' -> upd o g h g' h'.
  Proof. intros [L U]; apply same_upd; assumption. Qed.

  Lemma lookup_sim g h p rules R key os version def :
    rules_ g h None rules R ->
    sim_new inst p g h (h_lookup_rules rules key os version def) (lookup_rules R key os version def).
  Proof.
    intros HR; unfold h_lookup_rules, lookup_rules.
    destruct (hgetd_own os_ g h rules R key (fun g h _ => new_own ver g h None) stable_os HR)
      as (g1 & h1 & od & E1 & G1 & H1).
    destruct (hgetd_own ver g1 h1 od _ os (fun g h _ => new_own inst g h None) stable_ver H1)
      as (g2 & h2 & vd & E2 & G2 & H2).
    pose proof (grows_pred os_ g1 h1 g2 h2 None od _ stable_os G2 H1) as H1'.
    destruct (hgetd_own ver g2 h2 od _ any_os (fun g h _ => new_own inst g h None) stable_ver H1')
      as (g3 & h3 & ao & E3 & G3 & H3).
    destruct (hgetd_own inst g3 h3 ao _ any_version (fun g h _ => new_own leaf g h None) stable_inst H3)
      as (g4 & h4 & d1 & E4 & G4 & H4).
    pose proof (grows_pred ver g2 h2 g4 h4 None vd _ stable_ver (grows_trans _ _ _ _ _ _ G3 G4) H2) as H2'.
    destruct (hgetd_own inst g4 h4 vd _ any_version (fun g h _ => new_own leaf g h None) stable_inst H2')
      as (g5 & h5 & d2 & E5 & G5 & H5).
    pose proof (grows_pred ver g4 h4 g5 h5 None vd _ stable_ver G5 H2') as H2''.
    destruct (hgetd_own inst g5 h5 vd _ version (fun g h _ => new_own leaf g h None) stable_inst H2'')
      as (g6 & h6 & d3 & E6 & G6 & H6).
    destruct (new_own leaf g6 h6 (Some p)) as (g7 & h7 & E7 & G7 & H7).
    set (c := HRef (List.length h6)) in *.
    pose proof (grows_pred inst _ _ g7 h7 None d3 _ stable_inst G7 H6) as H6'.
    pose proof (grows_pred inst _ _ g7 h7 None d2 _ stable_inst (grows_trans _ _ _ _ _ _ G6 G7) H5) as H5'.
    pose proof (grows_pred inst _ _ g7 h7 None d1 _ stable_inst
                  (grows_trans _ _ _ _ _ _ G5 (grows_trans _ _ _ _ _ _ G6 G7)) H4) as H4'.
    assert (U : upd (Some p) g h g7 h7).
    { apply grows_upd; repeat (eapply grows_trans; [eassumption|]); apply grows_refl. }
    assert (Hs : sim inst p g7 h7 (h_merge_installer_dict d1 c def ;; h_merge_installer_dict d2 c def ;;
                                   h_merge_installer_dict d3 c def) c
                   (lookup_rules R key os version def)).
    { unfold lookup_rules.
      set (vdR := getd os (getd key R)) in *.
      apply (seq_sim inst p g7 h7 c (h_merge_installer_dict d1 c def)
               (h_merge_installer_dict d2 c def ;; h_merge_installer_dict d3 c def)
               (merge_installer_dict (getd any_version (getd any_os (getd key R))) [] def)
               (fun x => let* y := merge_installer_dict (getd any_version vdR) x def in
                         merge_installer_dict (getd version vdR) y def)).
      - apply merge_installer_sim; assumption.
      - intros g8 h8 D8 U8 H8 _.
        apply (seq_sim inst p g8 h8 c (h_merge_installer_dict d2 c def) (h_merge_installer_dict d3 c def)
                 (merge_installer_dict (getd any_version vdR) D8 def)
                 (fun y => merge_installer_dict (getd version vdR) y def)).
        + apply merge_installer_sim; [|exact H8]; eapply upd_input; [apply stable_inst|exact U8|exact H5'].
        + intros g9 h9 D9 U9 H9 _; apply merge_installer_sim; [|exact H9].
          eapply upd_input; [apply stable_inst|eapply upd_trans; [exact U8|exact U9]|exact H6']. }
    destruct Hs as (g8 & h8 & r & E8 & U8 & S8).
    unfold sim_new, hbind at 1; rewrite E1; unfold hbind at 1; rewrite E2; unfold hbind at 1; rewrite E3.
    unfold hbind at 1; rewrite E4; unfold hbind at 1; rewrite E5; unfold hbind at 1; rewrite E6.
    unfold hbind at 1; rewrite E7; fold c.
    exists g8, h8; change (lookup_rules R key os version def) with (lookup_rules R key os version def) in S8.
    assert (Er : (h_merge_installer_dict d1 c def ;; h_merge_installer_dict d2 c def ;;
                  h_merge_installer_dict d3 c def ;; ret c) h7 =
                 match r with Ok _ => (Ok c, h8) | Err e => (Err e, h8) end).
    { unfold hbind in E8 |- *.
      destruct (h_merge_installer_dict d1 c def h7) as [[[]|e] ha]; [|inversion E8; reflexivity].
      destruct (h_merge_installer_dict d2 c def ha) as [[[]|e] hb]; [|inversion E8; reflexivity].
      rewrite E8; destruct r as [[]|e]; reflexivity. }
    fold (lookup_rules R key os version def).
    destruct (lookup_rules R key os version def) as [D|e].
    - destruct S8 as [-> H8]; exists (Ok c); split; [exact Er|]; split; [eapply upd_trans; eassumption|eauto].
    - subst r; exists (Err e); split; [exact Er|]; split; [eapply upd_trans; eassumption|reflexivity].
  Qed.

  (** Ghosts of a database lookup: the inputs and the one result. *)
  Definition flat (g : ghost) (h : heap) : Prop :=
    forall a, a < List.length h -> g a = None \/ g a = Some [].

  Definition reghost (g : ghost) (h : heap) : ghost :=
    fun b => if Nat.ltb b (List.length h) then g b else None.

  Lemma inst_ghost g g' h o o' v D : inst g h o v D -> (forall a, v = HRef a -> g' a = o') -> inst g' h o' v D.
  Proof.
    intros (Hw & a & m & -> & Hg & Hn & R) H; split; [exact Hw|]; exists a, m.
    split; [reflexivity|]; split; [apply H; reflexivity|]; split; [exact Hn|].
    eapply rel_impl; [|exact R]; intros k v x Hl; exact Hl.
  Qed.

  Definition lookup_all (Rs : list (rules_dict LF)) (key os version : text) (def : option text) (acc : dict text LF) :=
    foldM (fun acc R => let* new := lookup_rules R key os version def in merge_installer_dict new acc None) Rs acc.

  Lemma db_loop_sim key os version def r l Rs g h D :
    Forall2 (fun v R => rules_ g h None v R) l Rs -> flat g h -> inst g h (Some []) r D ->
    exists g' h' rr,
      hfor l (fun data => do new <- h_lookup_rules data key os version def; h_merge_installer_dict new r None) h = (rr, h') /\
      upd (Some []) g h g' h' /\ flat g' h' /\
      match lookup_all Rs key os version def D with
      | Ok D' => rr = Ok tt /\ inst g' h' (Some []) r D'
      | Err e => rr = Err e
      end.
  Proof.
    intros HL; revert g h D HL; revert Rs; induction l as [|v l IH]; intros [|R Rs] g h D HL Hf HD;
      inversion HL as [|? ? ? ? Hv HL']; subst.
    - exists g, h, (Ok tt); split; [reflexivity|]; split; [apply upd_refl|]; split; [exact Hf|]; split; [reflexivity|exact HD].
    - destruct (lookup_sim g h [u "x"] v R key os version def Hv) as (g1 & h1 & rv & E1 & [L1 U1] & S1).
      unfold lookup_all; cbn [foldM hfor]; unfold hbind at 1; unfold hbind at 1; rewrite E1.
      set (g2 := reghost g h).
      assert (G2 : grows g h g2 h1).
      { split; [exact L1|]; intros a Ha; unfold g2, reghost; destruct (Nat.ltb_spec a (List.length h)); [|lia].
        split; [reflexivity|]; apply U1; [exact Ha|].
        destruct (Hf a Ha) as [-> | ->]; intros (q & Eq); discriminate. }
      assert (F2 : flat g2 h1).
      { intros a _; unfold g2, reghost; destruct (Nat.ltb_spec a (List.length h)); [apply Hf; assumption|left; reflexivity]. }
      destruct (lookup_rules R key os version def) as [N|e]; cbn [bind].
      + destruct S1 as (new & -> & Hnew).
        assert (Hnew2 : inst g2 h1 None new N).
        { apply (inst_ghost g1 g2 h1 (Some [u "x"]) None new N Hnew).
          intros a ->; unfold g2, reghost; destruct (Nat.ltb_spec a (List.length h)) as [Hlt|]; [|reflexivity].
          destruct Hnew as (_ & a' & m & E & Hg & _); inversion E; subst a'.
          destruct (U1 a Hlt) as [Hg' _]; rewrite Hg in Hg'; destruct (Hf a Hlt) as [Hx|Hx]; rewrite Hx in Hg'; discriminate. }
        assert (HD2 : inst g2 h1 (Some []) r D) by (eapply grows_pred; [apply stable_inst|exact G2|exact HD]).
        destruct (merge_installer_sim g2 h1 [] new r N D None Hnew2 HD2) as (g3 & h3 & r3 & E3 & U3 & S3).
        rewrite E3.
        set (g4 := reghost g3 h1).
        assert (U4 : upd (Some []) g2 h1 g4 h3).
        { destruct U3 as [L3 U3]; split; [exact L3|]; intros a Ha; unfold g4, reghost.
          destruct (Nat.ltb_spec a (List.length h1)); [apply U3; assumption|lia]. }
        assert (F4 : flat g4 h3).
        { intros a _; unfold g4, reghost; destruct (Nat.ltb_spec a (List.length h1)); [|left; reflexivity].
          destruct U3 as [_ U3]; destruct (U3 a ltac:(assumption)) as [-> _]; apply F2; assumption. }
        pose proof (grows_upd (Some []) _ _ _ _ G2) as U2.
        destruct (merge_installer_dict N D None) as [D'|e]; cbn [bind].
        * destruct S3 as [-> HD3].
          assert (HD4 : inst g4 h3 (Some []) r D').
          { apply (inst_ghost g3 g4 h3 (Some []) (Some []) r D' HD3); intros a ->.
            destruct HD2 as (_ & a2 & m2 & E2 & Hg2 & Hn2 & _); inversion E2; subst a2.
            unfold g4, reghost; destruct (Nat.ltb_spec a (List.length h1)) as [Hlt|Hge];
              [|apply nth_error_lt in Hn2; lia].
            destruct U3 as [_ U3]; destruct (U3 a Hlt) as [-> _]; exact Hg2. }
          assert (HL4 : Forall2 (fun v R => rules_ g4 h3 None v R) l Rs).
          { clear -HL' U2 U4; induction HL' as [|w R' l Rs Hw HL' IH]; constructor; [|exact IH].
            eapply upd_input; [apply stable_rules|exact U4|].
            eapply upd_input; [apply stable_rules|exact U2|exact Hw]. }
          destruct (IH Rs g4 h3 D' HL4 F4 HD4) as (g5 & h5 & r5 & E5 & U5 & F5 & S5).
          exists g5, h5, r5; split; [exact E5|]; split; [|split; [exact F5|exact S5]].
          eapply upd_trans; [exact U2|]; eapply upd_trans; [exact U4|exact U5].
        * subst r3; exists g4, h3, (Err e); split; [reflexivity|]; split; [|split; [exact F4|reflexivity]].
          eapply upd_trans; [exact U2|exact U4].
      + subst rv; exists g2, h1, (Err e); split; [reflexivity|].
        split; [apply grows_upd; exact G2|]; split; [exact F2|reflexivity].
  Qed.

  Lemma db_lookup_sim key os version def l Rs g h :
    Forall2 (fun v R => rules_ g h None v R) l Rs -> (forall a, g a = None) ->
    sim_new inst [] g h (h_db_lookup l key os version def) (lookup_all (rev Rs) key os version def []).
  Proof.
    intros HL Hg; unfold h_db_lookup, sim_new.
    destruct (new_dict_own leaf g h (Some [])) as (g1 & h1 & E1 & L1 & S1 & H1).
    pose proof (same_upd (Some []) g h g1 h1 L1 S1) as U1.
    set (g2 := fun b => if Nat.ltb b (List.length h) then None else Some (@nil text)) in *.
    assert (U2 : upd (Some []) g h g2 h1).
    { destruct U1 as [_ U1]; split; [exact L1|]; intros a Ha; unfold g2.
      destruct (Nat.ltb_spec a (List.length h)); [|lia]; rewrite Hg; split; [reflexivity|].
      intros _; apply S1; exact Ha. }
    assert (H2 : inst g2 h1 (Some []) (HRef (List.length h)) []).
    { apply (inst_ghost g1 g2 h1 (Some []) (Some []) _ [] H1); intros a E; inversion E; subst a.
      unfold g2; destruct (Nat.ltb_spec (List.length h) (List.length h)); [lia|reflexivity]. }
    assert (F2 : flat g2 h1) by (intros a _; unfold g2; destruct (Nat.ltb a (List.length h)); auto).
    assert (HL2 : Forall2 (fun v R => rules_ g2 h1 None v R) (rev l) (rev Rs)).
    { assert (HL2 : Forall2 (fun v R => rules_ g2 h1 None v R) l Rs).
      { clear -HL U2; induction HL as [|w R' l Rs Hw HL IH]; constructor; [|exact IH].
        eapply upd_input; [apply stable_rules|exact U2|exact Hw]. }
      clear -HL2; induction HL2 as [|v N l Ns Hv HN IH]; [constructor|]; simpl.
      apply Forall2_app; [exact IH|constructor; [exact Hv|constructor]]. }
    destruct (db_loop_sim key os version def (HRef (List.length h)) (rev l) (rev Rs) g2 h1 [] HL2 F2 H2)
      as (g3 & h3 & r3 & E3 & U3 & _ & S3).
    exists g3, h3; unfold hbind at 1; rewrite E1; unfold hbind at 1; rewrite E3.
    destruct (lookup_all (rev Rs) key os version def []) as [D|e].
    - destruct S3 as [-> H3]; exists (Ok (HRef (List.length h))); split; [reflexivity|].
      split; [eapply upd_trans; eassumption|eauto].
    - subst r3; exists (Err e); split; [reflexivity|]; split; [eapply upd_trans; eassumption|reflexivity].
  Qed.
End Lookup.

End Leaf.
