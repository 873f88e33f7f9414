(** Proofs about [fmt] and [sanitize]: both are shown to act token-wise. *)
From Verif Require Import Base Dict PyVal Sources Util Terminal.
From Coq Require Import Lia.

Inductive tok := TAt | TBr (c : N) | TC (c : N) | TMac (name : text) | TCode (k : N).

Definition mac (name : text) : text := at_ :: lbrace :: name ++ [rbrace].

Definition rend (t : tok) : text :=
  match t with
  | TAt => [at_; at_]
  | TBr c => [c; c]
  | TC c => [c]
  | TMac n => mac n
  | TCode k => [at_; k]
  end.
Definition render (ts : list tok) : text := flat_map rend ts.

Definition good_name (n : text) : Prop :=
  forallb id_char n = true /\ match n with c :: _ => id_start c = true | [] => False end.

Definition tok_ok (t : tok) : Prop :=
  match t with
  | TAt => True
  | TBr c => c = lbrace \/ c = rbrace
  | TC c => c <> at_
  | TMac n => good_name n
  | TCode k => k <> at_
  end.

Definition no_code (t : tok) : Prop := match t with TCode _ => False | _ => True end.

(** ** [replace] *)
Lemma replace_skip_skipn old new s k :
  replace_skip old new s k = replace_skip old new (skipn k s) 0.
Proof.
  revert k; induction s as [|c s IH]; intros [|k]; try reflexivity.
  simpl; apply IH.
Qed.

Lemma replace_miss old new c s :
  is_prefix old (c :: s) = false ->
  replace_skip old new (c :: s) 0 = c :: replace_skip old new s 0.
Proof. intros E; cbn [replace_skip]; rewrite E; reflexivity. Qed.

Lemma replace_hit old new c s :
  is_prefix old (c :: s) = true ->
  replace_skip old new (c :: s) 0 = new ++ replace_skip old new (skipn (List.length old - 1) s) 0.
Proof. intros E; cbn [replace_skip]; rewrite E, replace_skip_skipn; reflexivity. Qed.

Lemma is_prefix_head_neq a p b t : a <> b -> is_prefix (a :: p) (b :: t) = false.
Proof. intros Hn; cbn [is_prefix]; destruct (eqb_spec a b); [congruence|reflexivity]. Qed.

Lemma eqb_refl' {A} `{EqB A} (x : A) : eqb x x = true.
Proof. destruct (eqb_spec x x); congruence. Qed.

Lemma replace_block a old new w s :
  ~ In a w -> replace_skip (a :: old) new (w ++ s) 0 = w ++ replace_skip (a :: old) new s 0.
Proof.
  induction w as [|c w IH]; intros Hn; [reflexivity|].
  cbn [app]; rewrite replace_miss.
  - f_equal; apply IH; intros Hi; apply Hn; right; exact Hi.
  - apply is_prefix_head_neq; intros ->; apply Hn; left; reflexivity.
Qed.

Lemma replace_single s c new :
  replace s [c] new = flat_map (fun x => if eqb c x then new else [x]) s.
Proof.
  unfold replace; induction s as [|x s IH]; [reflexivity|].
  cbn [flat_map]; destruct (eqb_spec c x) as [->|Hn].
  - rewrite replace_hit by (cbn [is_prefix]; rewrite eqb_refl'; reflexivity).
    simpl; rewrite IH; reflexivity.
  - rewrite replace_miss by (apply is_prefix_head_neq; assumption).
    rewrite IH; reflexivity.
Qed.

(** ** First half of [sanitize] *)
Definition tok_of (c : N) : tok :=
  if eqb c at_ then TAt else if eqb c lbrace then TBr c else if eqb c rbrace then TBr c else TC c.

Lemma flat_map_flat_map {A B C} (f : A -> list B) (g : B -> list C) l :
  flat_map g (flat_map f l) = flat_map (fun x => flat_map g (f x)) l.
Proof.
  induction l as [|x l IH]; simpl; [reflexivity|]; rewrite flat_map_app, IH; reflexivity.
Qed.

Lemma sanitize_first m :
  replace (replace (replace m (u "@") (u "@@")) (u "{") (u "{{")) (u "}") (u "}}")
  = render (map tok_of m).
Proof.
  change (u "@") with [at_]; change (u "{") with [lbrace]; change (u "}") with [rbrace].
  rewrite !replace_single, !flat_map_flat_map; unfold render.
  induction m as [|c m IH]; [reflexivity|].
  cbn [flat_map map]; rewrite IH; f_equal; clear IH.
  unfold tok_of.
  destruct (eqb_spec at_ c) as [<-|H1].
  { reflexivity. }
  destruct (eqb_spec c at_) as [E|_]; [congruence|].
  cbn [flat_map]; rewrite app_nil_r.
  destruct (eqb_spec lbrace c) as [<-|H2].
  { reflexivity. }
  destruct (eqb_spec c lbrace) as [E|_]; [congruence|].
  cbn [flat_map]; rewrite app_nil_r.
  destruct (eqb_spec rbrace c) as [<-|H3]; [reflexivity|].
  destruct (eqb_spec c rbrace) as [E|_]; [congruence|]; reflexivity.
Qed.

Lemma tok_of_ok c : tok_ok (tok_of c) /\ no_code (tok_of c).
Proof.
  unfold tok_of; destruct (eqb_spec c at_) as [|H1]; [simpl; auto|].
  destruct (eqb_spec c lbrace); [simpl; auto|].
  destruct (eqb_spec c rbrace); simpl; auto.
Qed.

(** ** Second half: merging *)
Fixpoint merge (k : N) (name : text) (ts : list tok) : list tok :=
  match ts with
  | [] => []
  | TAt :: r => match r with
                | TC c :: ts' => if eqb c k then TMac name :: merge k name ts' else TAt :: merge k name r
                | _ => TAt :: merge k name r
                end
  | t :: r => t :: merge k name r
  end.

Lemma id_char_not_at : id_char at_ = false.
Proof. reflexivity. Qed.

Lemma good_name_no_at n : good_name n -> ~ In at_ n.
Proof.
  intros [Hall _] Hin; rewrite forallb_forall in Hall.
  specialize (Hall _ Hin); rewrite id_char_not_at in Hall; discriminate.
Qed.

Lemma mac_tail_no_at n : good_name n -> ~ In at_ (lbrace :: n ++ [rbrace]).
Proof.
  intros Hn [E|Hin]; [discriminate E|].
  apply in_app_or in Hin; destruct Hin as [Hin|[E|[]]]; [|discriminate E].
  exact (good_name_no_at n Hn Hin).
Qed.

Lemma tok_list_ind (P : list tok -> Prop) :
  (forall ts, (forall ts', List.length ts' < List.length ts -> P ts') -> P ts) -> forall ts, P ts.
Proof.
  intros H ts; remember (List.length ts) as n eqn:E; revert ts E.
  induction n as [n IH] using (well_founded_induction lt_wf); intros ts ->.
  apply H; intros ts' Hl; apply (IH _ Hl ts' eq_refl).
Qed.

Lemma replace_merge k name ts :
  Forall tok_ok ts -> Forall no_code ts -> k <> at_ -> k <> lbrace -> k <> rbrace ->
  replace_skip [at_; at_; k] (mac name) (render ts) 0 = render (merge k name ts).
Proof.
  induction ts as [ts IH] using tok_list_ind; intros Hok Hnc Hk1 Hk2 Hk3.
  destruct ts as [|t r]; [reflexivity|].
  assert (Hr : replace_skip [at_; at_; k] (mac name) (render r) 0 = render (merge k name r)).
  { apply IH; simpl; [lia| | | | |]; try assumption; [inversion Hok|inversion Hnc]; assumption. }
  inversion Hok as [|? ? Ht Hokr]; subst; inversion Hnc as [|? ? Ht' Hncr]; subst.
  destruct t as [|c|c|n|c].
  - (* TAt *)
    assert (G : (forall c ts', r = TC c :: ts' -> c <> k) ->
                replace_skip [at_; at_; k] (mac name) (render (TAt :: r)) 0 = at_ :: at_ :: render (merge k name r)).
    { intros Hd; change (render (TAt :: r)) with (at_ :: at_ :: render r).
      rewrite replace_miss, replace_miss, Hr; [reflexivity| |].
      - destruct r as [|t r']; [reflexivity|].
        cbn [is_prefix]; rewrite eqb_refl'; simpl.
        destruct t as [|c|c|n|c]; simpl.
        + destruct (eqb_spec k at_); [congruence|reflexivity].
        + destruct (eqb_spec at_ c) as [E|_]; [|reflexivity].
          inversion Hokr as [|? ? Hc _]; subst; simpl in Hc; destruct Hc; discriminate.
        + destruct (eqb_spec at_ c) as [E|_]; [|reflexivity].
          inversion Hokr as [|? ? Hc _]; subst; simpl in Hc; congruence.
        + destruct (eqb_spec k lbrace); [congruence|reflexivity].
        + inversion Hncr as [|? ? Hc _]; subst; simpl in Hc; contradiction.
      - cbn [is_prefix]; rewrite !eqb_refl'; simpl.
        destruct r as [|t r']; [reflexivity|].
        destruct t as [|c|c|n|c]; simpl.
        + destruct (eqb_spec k at_); [congruence|reflexivity].
        + destruct (eqb_spec k c) as [E|_]; [|reflexivity].
          inversion Hokr as [|? ? Hc _]; subst; simpl in Hc; destruct Hc; congruence.
        + destruct (eqb_spec k c) as [E|_]; [|reflexivity].
          subst c; exfalso; exact (Hd k r' eq_refl eq_refl).
        + destruct (eqb_spec k at_); [congruence|reflexivity].
        + destruct (eqb_spec k at_); [congruence|reflexivity]. }
    destruct r as [|t r']; [reflexivity|].
    destruct t as [|c|c|n|c]; try (apply G; intros c0 ts0 E; discriminate E).
    cbn [merge]; destruct (eqb_spec c k) as [->|Hn].
    + change (render (TAt :: TC k :: r')) with (at_ :: at_ :: k :: render r').
      rewrite replace_hit by (cbn [is_prefix]; rewrite !eqb_refl'; reflexivity).
      simpl skipn; cbn [render flat_map rend]; f_equal.
      apply IH; simpl; [lia|inversion Hokr; assumption|inversion Hncr; assumption|assumption|assumption|assumption].
    + apply G; intros c0 ts0 E; congruence.
  - simpl in Ht; change (render (TBr c :: r)) with ([c; c] ++ render r).
    rewrite replace_block, Hr; [reflexivity|simpl; intros [E|[E|[]]]; destruct Ht; subst; discriminate].
  - simpl in Ht; change (render (TC c :: r)) with ([c] ++ render r).
    rewrite replace_block, Hr; [reflexivity|simpl; intros [E|[]]; congruence].
  - simpl in Ht; change (render (TMac n :: r)) with (at_ :: (lbrace :: n ++ [rbrace]) ++ render r).
    rewrite replace_miss.
    + rewrite replace_block, Hr by (apply mac_tail_no_at; assumption); reflexivity.
    + cbn [is_prefix app]; rewrite eqb_refl'; reflexivity.
  - contradiction.
Qed.

Definition merged (m : text) : list tok :=
  merge 124 (u "atbar") (merge 95 (u "atunderscore") (merge 47 (u "atfwdslash")
    (merge 33 (u "atexclimation") (map tok_of m)))).

Lemma merge_ok k name ts : good_name name -> Forall tok_ok ts -> Forall tok_ok (merge k name ts).
Proof.
  intros Hg; induction ts as [ts IH] using tok_list_ind; intros Hok.
  destruct ts as [|t r]; [constructor|].
  assert (Hr : Forall tok_ok (merge k name r))
    by (apply IH; [simpl; lia|inversion Hok; assumption]).
  inversion Hok as [|? ? Ht Hokr]; subst.
  destruct t as [|c|c|n|c]; try (constructor; assumption).
  destruct r as [|[|c|c|n|c] r']; try (constructor; assumption).
  cbn [merge]; destruct (eqb c k); [|constructor; assumption].
  constructor; [assumption|]; apply IH; [simpl; lia|inversion Hokr; assumption].
Qed.

Lemma merge_no_code k name ts : Forall no_code ts -> Forall no_code (merge k name ts).
Proof.
  induction ts as [ts IH] using tok_list_ind; intros Hok.
  destruct ts as [|t r]; [constructor|].
  assert (Hr : Forall no_code (merge k name r))
    by (apply IH; [simpl; lia|inversion Hok; assumption]).
  inversion Hok as [|? ? Ht Hokr]; subst.
  destruct t as [|c|c|n|c]; try (constructor; assumption).
  destruct r as [|[|c|c|n|c] r']; try (constructor; assumption).
  cbn [merge]; destruct (eqb c k); [|constructor; assumption].
  constructor; [exact I|]; apply IH; [simpl; lia|inversion Hokr; assumption].
Qed.

Lemma names_good : good_name (u "atbar") /\ good_name (u "atunderscore") /\
  good_name (u "atfwdslash") /\ good_name (u "atexclimation") /\
  good_name (u "boldon") /\ good_name (u "italicson") /\ good_name (u "ulon") /\ good_name (u "reset").
Proof. repeat (split; [split; reflexivity|]); split; reflexivity. Qed.

Lemma toks_ok m : Forall tok_ok (map tok_of m) /\ Forall no_code (map tok_of m).
Proof.
  induction m as [|c m [IH1 IH2]]; simpl; [split; constructor|].
  destruct (tok_of_ok c); split; constructor; assumption.
Qed.

Lemma merged_ok m : Forall tok_ok (merged m) /\ Forall no_code (merged m).
Proof.
  destruct names_good as (G1 & G2 & G3 & G4 & _), (toks_ok m) as [H1 H2].
  unfold merged; split; [repeat (apply merge_ok; [assumption|])|repeat apply merge_no_code]; assumption.
Qed.

Lemma sanitize_merged m : sanitize m = render (merged m).
Proof.
  destruct names_good as (G1 & G2 & G3 & G4 & _), (toks_ok m) as [H1 H2].
  unfold sanitize; rewrite sanitize_first; unfold replace.
  change (u "@@!") with [at_; at_; 33%N]; change (u "@@/") with [at_; at_; 47%N];
  change (u "@@_") with [at_; at_; 95%N]; change (u "@@|") with [at_; at_; 124%N].
  change (u "@{atexclimation}") with (mac (u "atexclimation"));
  change (u "@{atfwdslash}") with (mac (u "atfwdslash"));
  change (u "@{atunderscore}") with (mac (u "atunderscore"));
  change (u "@{atbar}") with (mac (u "atbar")).
  rewrite replace_merge; try discriminate; try assumption.
  rewrite replace_merge; try discriminate;
    [|apply merge_ok; assumption|apply merge_no_code; assumption].
  rewrite replace_merge; try discriminate;
    [|repeat (apply merge_ok; [assumption|]); assumption|repeat apply merge_no_code; assumption].
  rewrite replace_merge; try discriminate;
    [|repeat (apply merge_ok; [assumption|]); assumption|repeat apply merge_no_code; assumption].
  reflexivity.
Qed.

(** ** [fmt] on tokens *)
(** No '@@' directly followed by the character [k]. *)
Fixpoint nobad (k : N) (ts : list tok) : Prop :=
  match ts with
  | [] => True
  | t :: r => (match t, r with TAt, TC c :: _ => c <> k | _, _ => True end) /\ nobad k r
  end.

Lemma merge_head k name ts c r : merge k name ts = TC c :: r -> exists r', ts = TC c :: r'.
Proof.
  destruct ts as [|[|x|x|n|x] ts']; simpl; try discriminate.
  - destruct ts' as [|[|y|y|n|y] ts'']; try discriminate.
    destruct (eqb y k); discriminate.
  - intros E; injection E as -> <-; eauto.
Qed.

Lemma merge_nobad k name ts : nobad k (merge k name ts).
Proof.
  induction ts as [ts IH] using tok_list_ind.
  destruct ts as [|t r]; [exact I|].
  assert (Hr : nobad k (merge k name r)) by (apply IH; simpl; lia).
  destruct t as [|c|c|n|c]; try (split; [exact I|exact Hr]).
  assert (G : (forall c r', r = TC c :: r' -> c <> k) -> nobad k (TAt :: merge k name r)).
  { intros Hd; split; [|exact Hr].
    destruct (merge k name r) as [|[|x|x|n|x] m'] eqn:E; try exact I.
    apply merge_head in E; destruct E as [r' E]; exact (Hd _ _ E). }
  destruct r as [|[|c|c|n|c] r']; try (apply G; intros c0 r0 E; discriminate E).
  cbn [merge]; destruct (eqb_spec c k) as [->|Hn].
  - split; [exact I|]; apply IH; simpl; lia.
  - apply G; intros c0 r0 E; congruence.
Qed.

Lemma merge_keeps_nobad k k' name ts : nobad k ts -> nobad k (merge k' name ts).
Proof.
  induction ts as [ts IH] using tok_list_ind; intros Hb.
  destruct ts as [|t r]; [exact I|].
  destruct Hb as [Ht Hb].
  assert (Hr : nobad k (merge k' name r)) by (apply IH; [simpl; lia|assumption]).
  destruct t as [|c|c|n|c]; try (split; [exact I|exact Hr]).
  assert (G : nobad k (TAt :: merge k' name r)).
  { split; [|exact Hr].
    destruct (merge k' name r) as [|[|x|x|n|x] m'] eqn:E; try exact I.
    apply merge_head in E; destruct E as [r' E]; subst r; exact Ht. }
  destruct r as [|[|c|c|n|c] r']; try exact G.
  cbn [merge]; destruct (eqb c k'); [|exact G].
  split; [exact I|]; apply IH; [simpl; lia|apply Hb].
Qed.

Definition markup (k : N) : Prop := In k [33; 47; 95; 124]%N.

Lemma merged_nobad m k : markup k -> nobad k (merged m).
Proof.
  unfold merged; intros [<-|[<-|[<-|[<-|[]]]]].
  - do 3 apply merge_keeps_nobad; apply merge_nobad.
  - do 2 apply merge_keeps_nobad; apply merge_nobad.
  - apply merge_keeps_nobad; apply merge_nobad.
  - apply merge_nobad.
Qed.

Definition uncode (k : N) (name : text) (t : tok) : tok :=
  match t with TCode c => if eqb c k then TMac name else t | _ => t end.

Lemma replace_code k name ts :
  Forall tok_ok ts -> nobad k ts -> k <> at_ -> k <> lbrace -> k <> rbrace ->
  replace_skip [at_; k] (mac name) (render ts) 0 = render (map (uncode k name) ts).
Proof.
  induction ts as [|t r IH]; intros Hok Hb Hk1 Hk2 Hk3; [reflexivity|].
  inversion Hok as [|? ? Ht Hokr]; subst.
  destruct Hb as [Hb1 Hb2]; specialize (IH Hokr Hb2 Hk1 Hk2 Hk3).
  destruct t as [|c|c|n|c]; cbn [map uncode].
  - change (render (TAt :: r)) with (at_ :: at_ :: render r).
    rewrite replace_miss, replace_miss, IH; [reflexivity| |].
    + cbn [is_prefix]; rewrite eqb_refl'; simpl.
      destruct r as [|[|c|c|n|c] r']; simpl; try reflexivity.
      * destruct (eqb_spec k at_); [congruence|reflexivity].
      * destruct (eqb_spec k c) as [->|_]; [|reflexivity].
        inversion Hokr as [|? ? Hc _]; subst; simpl in Hc.
        destruct Hc; congruence.
      * destruct (eqb_spec k c) as [->|_]; [congruence|reflexivity].
      * destruct (eqb_spec k at_); [congruence|reflexivity].
      * destruct (eqb_spec k at_); [congruence|reflexivity].
    + cbn [is_prefix]; rewrite eqb_refl'; simpl.
      destruct (eqb_spec k at_); [congruence|reflexivity].
  - simpl in Ht; change (render (TBr c :: r)) with ([c; c] ++ render r).
    rewrite replace_block, IH; [reflexivity|simpl; intros [E|[E|[]]]; destruct Ht; subst; discriminate].
  - simpl in Ht; change (render (TC c :: r)) with ([c] ++ render r).
    rewrite replace_block, IH; [reflexivity|simpl; intros [E|[]]; congruence].
  - simpl in Ht; change (render (TMac n :: r)) with (at_ :: (lbrace :: n ++ [rbrace]) ++ render r).
    rewrite replace_miss.
    + rewrite replace_block, IH by (apply mac_tail_no_at; assumption); reflexivity.
    + cbn [is_prefix app]; rewrite eqb_refl'; simpl.
      destruct (eqb_spec k lbrace); [congruence|reflexivity].
  - simpl in Ht; change (render (TCode c :: r)) with (at_ :: c :: render r).
    destruct (eqb_spec c k) as [->|Hn].
    + rewrite replace_hit by (cbn [is_prefix]; rewrite !eqb_refl'; reflexivity).
      simpl skipn; rewrite IH; reflexivity.
    + rewrite replace_miss by (cbn [is_prefix]; rewrite eqb_refl'; simpl;
        destruct (eqb_spec k c); [congruence|reflexivity]).
      rewrite replace_miss by (apply is_prefix_head_neq; congruence).
      rewrite IH; reflexivity.
Qed.

(** ** [substitute] on tokens *)
Lemma substitute_skipn d s k : substitute d s k = substitute d (skipn k s) 0.
Proof.
  revert k; induction s as [|c s IH]; intros [|k]; try reflexivity.
  simpl; apply IH.
Qed.

Lemma substitute_plain d c s : c <> at_ ->
  substitute d (c :: s) 0 = bind (substitute d s 0) (fun r => Ok (c :: r)).
Proof. intros Hn; cbn [substitute]; destruct (eqb_spec c at_); [congruence|reflexivity]. Qed.

Lemma substitute_at d s :
  substitute d (at_ :: s) 0 =
  bind (template_item d s) (fun p => bind (substitute d (skipn (snd p) s) 0) (fun r => Ok (fst p ++ r))).
Proof.
  change (substitute d (at_ :: s) 0) with
    (let* '(v, n) := template_item d s in let* r := substitute d s n in Ok (v ++ r)).
  destruct (template_item d s) as [[v n]|e]; [|reflexivity].
  cbn [bind fst snd]; rewrite substitute_skipn; reflexivity.
Qed.

Lemma id_span_name n s : forallb id_char n = true -> id_span (n ++ rbrace :: s) = n.
Proof.
  induction n as [|c n IH]; simpl; intros E; [reflexivity|].
  apply andb_true_iff in E; destruct E as [E1 E2]; rewrite E1, IH by exact E2; reflexivity.
Qed.

Lemma ident_name n s : good_name n -> ident (n ++ rbrace :: s) = n.
Proof.
  intros [H1 H2]; destruct n as [|c n]; [contradiction|].
  unfold ident; cbn [app]; rewrite H2; exact (id_span_name (c :: n) s H1).
Qed.

Lemma skipn_app_exact {A} (a b : list A) : skipn (List.length a) (a ++ b) = b.
Proof. induction a; simpl; auto. Qed.

Lemma skipn_app_S {A} (a : list A) x b : skipn (S (List.length a)) (a ++ x :: b) = b.
Proof. induction a as [|y a IH]; [reflexivity|exact IH]. Qed.

Definition mean (d : dict text text) (t : tok) : text :=
  match t with
  | TAt => [at_]
  | TBr c => [c; c]
  | TC c => [c]
  | TMac n => match get n d with Some v => v | None => [] end
  | TCode _ => []
  end.

Definition known (d : dict text text) (t : tok) : Prop :=
  match t with TMac n => get n d <> None | TCode _ => False | _ => True end.

Lemma substitute_render d ts :
  Forall tok_ok ts -> Forall (known d) ts ->
  substitute d (render ts) 0 = Ok (flat_map (mean d) ts).
Proof.
  induction ts as [|t r IH]; intros Hok Hk; [reflexivity|].
  inversion Hok as [|? ? Ht Hokr]; subst; inversion Hk as [|? ? Ht' Hkr]; subst.
  specialize (IH Hokr Hkr).
  destruct t as [|c|c|n|c]; simpl in Ht, Ht'; cbn [flat_map mean].
  - change (render (TAt :: r)) with (at_ :: at_ :: render r).
    rewrite substitute_at; unfold template_item; rewrite eqb_refl'.
    cbn [bind fst snd skipn]; rewrite IH; reflexivity.
  - change (render (TBr c :: r)) with (c :: c :: render r).
    rewrite !substitute_plain, IH by (destruct Ht; subst; discriminate); reflexivity.
  - change (render (TC c :: r)) with (c :: render r).
    rewrite substitute_plain, IH by assumption; reflexivity.
  - change (render (TMac n :: r)) with (at_ :: lbrace :: (n ++ [rbrace]) ++ render r).
    rewrite <- app_assoc; cbn [app].
    rewrite substitute_at; unfold template_item.
    destruct (eqb_spec lbrace at_) as [E|_]; [discriminate E|].
    replace (ident (lbrace :: n ++ rbrace :: render r)) with (@nil N) by reflexivity.
    rewrite eqb_refl', ident_name by assumption.
    destruct n as [|c n]; [destruct Ht; contradiction|].
    cbv beta iota; rewrite skipn_app_exact, eqb_refl'.
    unfold getitem; destruct (get (c :: n) d) as [v|] eqn:Eg; [|congruence].
    cbn [bind fst snd].
    replace (skipn (List.length (c :: n) + 2) (lbrace :: (c :: n) ++ rbrace :: render r))
      with (render r).
    { rewrite IH; reflexivity. }
    rewrite PeanoNat.Nat.add_comm; symmetry; apply (skipn_app_S (c :: n) rbrace (render r)).
  - contradiction.
Qed.

(** ** Texts with markup between them *)
Definition pieces (m0 : text) (l : list (N * text)) : list tok :=
  merged m0 ++ flat_map (fun p => TCode (fst p) :: merged (snd p)) l.

Lemma render_app a b : render (a ++ b) = render a ++ render b.
Proof. unfold render; apply flat_map_app. Qed.

Lemma render_pieces m0 l :
  render (pieces m0 l) = sanitize m0 ++ flat_map (fun p => at_ :: fst p :: sanitize (snd p)) l.
Proof.
  unfold pieces; rewrite render_app, sanitize_merged; f_equal.
  induction l as [|[k m] l IH]; [reflexivity|].
  cbn [flat_map fst snd]; rewrite render_app, IH.
  change (render (TCode k :: merged m)) with (at_ :: k :: render (merged m)).
  rewrite sanitize_merged; reflexivity.
Qed.

Lemma nobad_app k a c b : nobad k a -> nobad k b -> nobad k (a ++ TCode c :: b).
Proof.
  induction a as [|t a IH]; intros Ha Hb; [split; [exact I|exact Hb]|].
  destruct Ha as [Ht Ha]; split; [|apply IH; assumption].
  destruct t as [|x|x|n|x]; try exact I.
  destruct a as [|[|y|y|n|y] a']; simpl; try exact I; exact Ht.
Qed.

Lemma pieces_nobad k m0 l : markup k -> nobad k (pieces m0 l).
Proof.
  intros Hk; unfold pieces; revert m0; induction l as [|[c m] l IH]; intros m0; cbn [flat_map fst snd].
  - rewrite app_nil_r; apply merged_nobad; assumption.
  - rewrite <- app_comm_cons; apply nobad_app; [apply merged_nobad; assumption|apply IH].
Qed.

Lemma markup_not k : markup k -> k <> at_ /\ k <> lbrace /\ k <> rbrace.
Proof. intros [<-|[<-|[<-|[<-|[]]]]]; repeat split; discriminate. Qed.

Lemma pieces_ok m0 l : Forall (fun p => markup (fst p)) l -> Forall tok_ok (pieces m0 l).
Proof.
  intros Hl; unfold pieces; apply Forall_app; split; [apply merged_ok|].
  induction Hl as [|[k m] l Hk Hl IH]; [constructor|].
  cbn [flat_map fst snd]; apply Forall_app; split; [|exact IH].
  constructor; [apply (markup_not k Hk)|apply merged_ok].
Qed.

Definition uncode_all (t : tok) : tok :=
  uncode 124 (u "reset") (uncode 95 (u "ulon") (uncode 47 (u "italicson") (uncode 33 (u "boldon") t))).

Lemma uncode_nobad k k' name ts : nobad k ts -> nobad k (map (uncode k' name) ts).
Proof.
  induction ts as [|t r IH]; intros Hb; [exact I|].
  destruct Hb as [Ht Hb]; split; [|apply IH; exact Hb].
  destruct t as [|x|x|n|x]; cbn [map uncode]; try exact I.
  - destruct r as [|[|y|y|n|y] r']; cbn [map uncode]; try exact I; try exact Ht.
    destruct (eqb y k'); exact I.
  - destruct (eqb x k'); exact I.
Qed.

Lemma uncode_ok k name ts : good_name name -> Forall tok_ok ts -> Forall tok_ok (map (uncode k name) ts).
Proof.
  intros Hg Hok; induction Hok as [|t r Ht Hr IH]; constructor; [|assumption].
  destruct t as [|x|x|n|x]; cbn [uncode]; try exact Ht.
  destruct (eqb x k); assumption.
Qed.

Lemma fmt_render d ts :
  Forall tok_ok ts -> (forall k, markup k -> nobad k ts) ->
  Forall (known d) (map uncode_all ts) ->
  fmt d (render ts) = bind (getitem (u "reset") d)
                           (fun r => Ok (flat_map (mean d) (map uncode_all ts) ++ r)).
Proof.
  intros Hok Hb Hk.
  destruct names_good as (_ & _ & _ & _ & G1 & G2 & G3 & G4).
  unfold fmt, replace.
  change (u "@!") with [at_; 33%N]; change (u "@/") with [at_; 47%N];
  change (u "@_") with [at_; 95%N]; change (u "@|") with [at_; 124%N].
  change (u "@{boldon}") with (mac (u "boldon")); change (u "@{italicson}") with (mac (u "italicson"));
  change (u "@{ulon}") with (mac (u "ulon")); change (u "@{reset}") with (mac (u "reset")).
  rewrite replace_code; try discriminate; [|assumption|apply Hb; left; reflexivity].
  rewrite replace_code; try discriminate;
    [|apply uncode_ok; assumption|apply uncode_nobad, Hb; right; left; reflexivity].
  rewrite replace_code; try discriminate;
    [|repeat (apply uncode_ok; [assumption|]); assumption
     |do 2 apply uncode_nobad; apply Hb; do 2 right; left; reflexivity].
  rewrite replace_code; try discriminate;
    [|repeat (apply uncode_ok; [assumption|]); assumption
     |do 3 apply uncode_nobad; apply Hb; do 3 right; left; reflexivity].
  assert (E : map (uncode 124 (u "reset")) (map (uncode 95 (u "ulon")) (map (uncode 47 (u "italicson"))
                (map (uncode 33 (u "boldon")) ts))) = map uncode_all ts)
    by (rewrite !map_map; reflexivity).
  assert (O : Forall tok_ok (map uncode_all ts))
    by (rewrite <- E; repeat (apply uncode_ok; [assumption|]); assumption).
  rewrite E, substitute_render by assumption.
  reflexivity.
Qed.

(** ** Meaning of the tokens of sanitized text *)
Definition doubled (m : text) : text :=
  flat_map (fun c => if (eqb c lbrace || eqb c rbrace)%bool then [c; c] else [c]) m.

Lemma mean_merge d k name ts : get name d = Some [at_; k] ->
  flat_map (mean d) (merge k name ts) = flat_map (mean d) ts.
Proof.
  intros Hg; induction ts as [ts IH] using tok_list_ind.
  destruct ts as [|t r]; [reflexivity|].
  assert (Hr : flat_map (mean d) (merge k name r) = flat_map (mean d) r) by (apply IH; simpl; lia).
  destruct t as [|c|c|n|c]; try (cbn [merge flat_map]; rewrite Hr; reflexivity).
  assert (G : flat_map (mean d) (TAt :: merge k name r) = flat_map (mean d) (TAt :: r))
    by (cbn [flat_map]; rewrite Hr; reflexivity).
  destruct r as [|[|c|c|n|c] r']; try exact G.
  cbn [merge]; destruct (eqb_spec c k) as [->|Hn]; [|exact G].
  cbn [flat_map mean]; rewrite Hg, IH by (simpl; lia); reflexivity.
Qed.

Lemma mean_merged m : flat_map (mean ansi_enabled) (merged m) = doubled m.
Proof.
  unfold merged; rewrite !mean_merge by reflexivity.
  induction m as [|c m IH]; [reflexivity|].
  cbn [map flat_map]; rewrite IH; unfold doubled; cbn [flat_map]; f_equal.
  unfold tok_of; destruct (eqb_spec c at_) as [->|Hn]; [reflexivity|].
  destruct (eqb_spec c lbrace); [reflexivity|].
  destruct (eqb_spec c rbrace); reflexivity.
Qed.

Lemma uncode_no_code ts : Forall no_code ts -> map uncode_all ts = ts.
Proof.
  intros H; induction H as [|t r Ht Hr IH]; [reflexivity|]; cbn [map]; rewrite IH.
  destruct t; try reflexivity; contradiction.
Qed.

Definition macros : list text := [u "atbar"; u "atunderscore"; u "atfwdslash"; u "atexclimation"].

Lemma merge_known d k name ts :
  get name d <> None -> Forall (known d) ts -> Forall (known d) (merge k name ts).
Proof.
  intros Hg; induction ts as [ts IH] using tok_list_ind; intros Hok.
  destruct ts as [|t r]; [constructor|].
  assert (Hr : Forall (known d) (merge k name r))
    by (apply IH; [simpl; lia|inversion Hok; assumption]).
  inversion Hok as [|? ? Ht Hokr]; subst.
  destruct t as [|c|c|n|c]; try (constructor; assumption).
  destruct r as [|[|c|c|n|c] r']; try (constructor; assumption).
  cbn [merge]; destruct (eqb c k); [|constructor; assumption].
  constructor; [assumption|]; apply IH; [simpl; lia|inversion Hokr; assumption].
Qed.

Lemma merged_known d m : (forall n, In n macros -> get n d <> None) -> Forall (known d) (merged m).
Proof.
  intros H; unfold merged; repeat (apply merge_known; [apply H; simpl; tauto|]).
  induction m as [|c m IH]; constructor; [|assumption].
  unfold tok_of; destruct (eqb c at_); [exact I|]; destruct (eqb c lbrace); [exact I|].
  destruct (eqb c rbrace); exact I.
Qed.

Lemma tables_known d n : d = ansi_enabled \/ d = ansi_disabled ->
  In n (macros ++ [u "reset"; u "ulon"; u "italicson"; u "boldon"]) -> get n d <> None.
Proof.
  intros Hd Hn; simpl in Hn.
  destruct Hd as [-> | ->];
    repeat (destruct Hn as [<-|Hn]; [vm_compute; discriminate|]); contradiction.
Qed.

Lemma pieces_known d m0 l : d = ansi_enabled \/ d = ansi_disabled ->
  Forall (fun p => markup (fst p)) l -> Forall (known d) (map uncode_all (pieces m0 l)).
Proof.
  intros Hd Hl; unfold pieces; rewrite map_app; apply Forall_app.
  assert (Hm : forall m, Forall (known d) (map uncode_all (merged m))).
  { intros m; rewrite uncode_no_code by apply merged_ok.
    apply merged_known; intros n Hn; apply (tables_known d n Hd), in_or_app; left; exact Hn. }
  split; [apply Hm|].
  induction Hl as [|[k m] l Hk Hl IH]; [constructor|].
  cbn [flat_map fst snd]; rewrite map_app; apply Forall_app; split; [|exact IH].
  cbn [map]; constructor; [|apply Hm]; simpl in Hk.
  destruct Hk as [<-|[<-|[<-|[<-|[]]]]]; unfold uncode_all; simpl;
    apply (tables_known d _ Hd); simpl; tauto.
Qed.

Definition code_text (d : dict text text) (k : N) : text := mean d (uncode_all (TCode k)).

Lemma mean_pieces m0 l :
  flat_map (mean ansi_enabled) (map uncode_all (pieces m0 l)) =
  doubled m0 ++ flat_map (fun p => code_text ansi_enabled (fst p) ++ doubled (snd p)) l.
Proof.
  unfold pieces; rewrite map_app, flat_map_app, uncode_no_code by apply merged_ok.
  rewrite mean_merged; f_equal.
  induction l as [|[k m] l IH]; [reflexivity|].
  cbn [flat_map fst snd]; rewrite map_app, flat_map_app, IH; f_equal.
  cbn [map flat_map]; rewrite uncode_no_code by apply merged_ok.
  rewrite mean_merged; reflexivity.
Qed.

Theorem fmt_pieces m0 l :
  Forall (fun p => markup (fst p)) l ->
  fmt ansi_enabled (sanitize m0 ++ flat_map (fun p => at_ :: fst p :: sanitize (snd p)) l)
  = Ok ((doubled m0 ++ flat_map (fun p => code_text ansi_enabled (fst p) ++ doubled (snd p)) l) ++ esc 0).
Proof.
  intros Hl; rewrite <- render_pieces.
  rewrite fmt_render;
    [|apply pieces_ok; assumption|intros k Hk; apply pieces_nobad; assumption
     |apply pieces_known; auto].
  rewrite mean_pieces; reflexivity.
Qed.

Theorem fmt_pieces_total d m0 l :
  d = ansi_enabled \/ d = ansi_disabled ->
  Forall (fun p => markup (fst p)) l ->
  exists t, fmt d (sanitize m0 ++ flat_map (fun p => at_ :: fst p :: sanitize (snd p)) l) = Ok t.
Proof.
  intros Hd Hl; rewrite <- render_pieces.
  rewrite fmt_render;
    [|apply pieces_ok; assumption|intros k Hk; apply pieces_nobad; assumption
     |apply pieces_known; auto].
  destruct Hd as [-> | ->]; eexists; reflexivity.
Qed.

Lemma doubled_id m : ~ In lbrace m -> ~ In rbrace m -> doubled m = m.
Proof.
  unfold doubled; induction m as [|c m IH]; intros H1 H2; [reflexivity|].
  cbn [flat_map]; rewrite IH by (intros Hi; (apply H1 + apply H2); right; exact Hi).
  destruct (eqb_spec c lbrace) as [->|_]; [exfalso; apply H1; left; reflexivity|].
  destruct (eqb_spec c rbrace) as [->|_]; [exfalso; apply H2; left; reflexivity|].
  reflexivity.
Qed.

Lemma doubled_length m : List.length m <= List.length (doubled m).
Proof.
  unfold doubled; induction m as [|c m IH]; [simpl; lia|].
  cbn [flat_map]; rewrite app_length.
  destruct (eqb c lbrace || eqb c rbrace)%bool; simpl; lia.
Qed.

Lemma doubled_neq m : In lbrace m \/ In rbrace m -> doubled m <> m.
Proof.
  intros H E; assert (L : List.length m < List.length (doubled m)); [|rewrite E in L; lia].
  clear E; unfold doubled; induction m as [|c m IH]; [simpl in H; tauto|].
  cbn [flat_map]; rewrite app_length; simpl in H.
  pose proof (doubled_length m) as L; unfold doubled in L.
  destruct (eqb_spec c lbrace) as [->|H1]; [simpl; lia|].
  destruct (eqb_spec c rbrace) as [->|H2]; [simpl; lia|].
  simpl; assert (List.length m < List.length (flat_map (fun c => if (eqb c lbrace || eqb c rbrace)%bool then [c; c] else [c]) m))
    by (apply IH; destruct H as [[E|E]|[E|E]]; try congruence; tauto).
  lia.
Qed.

(** ** Unescaped text without '@' *)
Lemma replace_no_at old new s : ~ In at_ s -> replace s (at_ :: old) new = s.
Proof.
  intros H; unfold replace.
  rewrite <- (app_nil_r s) at 1; rewrite replace_block by assumption.
  simpl; apply app_nil_r.
Qed.

Lemma render_TC x : render (map TC x) = x.
Proof. unfold render; induction x as [|c x IH]; [reflexivity|]; simpl; rewrite IH; reflexivity. Qed.

(** The format used in install.py:266 and 268: bold text without '@'. *)
Lemma fmt_bold_total d x :
  d = ansi_enabled \/ d = ansi_disabled -> ~ In at_ x ->
  exists t, fmt d (u "@!" ++ x ++ u "@|") = Ok t.
Proof.
  intros Hd Hx.
  assert (Hc : Forall (fun c => c <> at_) x)
    by (apply Forall_forall; intros c Hin ->; exact (Hx Hin)).
  assert (E : u "@!" ++ x ++ u "@|" = render (TCode 33 :: map TC x ++ [TCode 124])).
  { change (TCode 33 :: map TC x ++ [TCode 124]) with ([TCode 33] ++ map TC x ++ [TCode 124]).
    rewrite !render_app, render_TC; reflexivity. }
  rewrite E, fmt_render.
  - destruct Hd as [-> | ->]; eexists; reflexivity.
  - constructor; [discriminate|]; apply Forall_app; split; [|constructor; [discriminate|constructor]].
    clear E Hx; induction Hc; constructor; assumption.
  - intros k Hk; split; [exact I|]; clear; induction x as [|c x IH]; [split; exact I|].
    split; [exact I|exact IH].
  - cbn [map]; constructor.
    + apply (tables_known d _ Hd); simpl; tauto.
    + rewrite map_app; apply Forall_app; split.
      * clear; induction x; constructor; [exact I|assumption].
      * constructor; [apply (tables_known d _ Hd); simpl; tauto|constructor].
Qed.
