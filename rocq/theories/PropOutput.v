(** C84-C88: messages, text encoding, console settings, context managers. *)
From Verif Require Import Base Dict PyVal Sources Util Terminal Paths Output.
From Coq Require Import Lia ZifyN ZifyBool ZifyNat.

(** * C84: chained exceptions *)
Section Chains.
  Context {E T : Type}.
  Variable same : E -> E -> bool.
  Variable format_ : E -> option T -> text.
  Variable cause : E -> option E.
  Variable traceback : E -> option T.

  (** [e], its cause, the cause of that, ... up to an exception without a cause. *)
  Inductive chain_of : E -> list E -> Prop :=
  | chain_root e : cause e = None -> chain_of e [e]
  | chain_more e c l : cause e = Some c -> chain_of c l -> chain_of e (e :: l).

  (** How the exceptions of a chain are shown: the first with the given traceback, the others
      with the one stored in them, if tracebacks are shown at all. *)
  Definition shown (tb : option T) (l : list E) : list text :=
    match l with
    | [] => []
    | e :: l => format_ e tb :: map (fun c => format_ c (match tb with None => None | Some _ => traceback c end)) l
    end.

  Definition link_text (tb : option T) : text :=
    match tb with
    | Some _ => [nl] ++ u "The above error was the direct cause of the following:" ++ [nl; nl]
    | None => u " --- The above error was the direct cause of the following:" ++ [nl]
    end.

  Lemma exc_parts_chain e l tb : chain_of e l -> forall fuel t acc, List.length l <= fuel ->
    exc_parts format_ cause traceback fuel tb (Some e) t acc =
    Some (rev (format_ e t :: map (fun c => format_ c (match tb with None => None | Some _ => traceback c end)) (tl l)) ++ acc).
  Proof.
    induction 1 as [e H|e c l H Hl IH]; intros fuel t acc Hf; (destruct fuel as [|fuel]; [cbn in Hf; lia|]); cbn [exc_parts].
    - rewrite H. destruct fuel; reflexivity.
    - rewrite H. cbn [List.length] in Hf. rewrite IH by lia. cbn [tl rev map].
      assert (X : exists l', l = c :: l') by (inversion Hl; eauto). destruct X as (l' & ->).
      cbn [tl map rev]. rewrite <- !app_assoc. reflexivity.
  Qed.

  Lemma drop_nl_spec s : exists k, s = repeat nl k ++ drop_nl s /\ (forall t, drop_nl s <> nl :: t).
  Proof.
    induction s as [|c s IH]; cbn [drop_nl].
    - exists 0. split; [reflexivity|discriminate].
    - destruct (eqb_spec c nl) as [Hc|Hc].
      + destruct IH as (k & H1 & H2). exists (S k). split; [|exact H2]. cbn. rewrite Hc. f_equal. exact H1.
      + exists 0. split; [reflexivity|]. intros t D; injection D as D _; contradiction.
  Qed.

  Lemma repeat_snoc {A} (a : A) k : repeat a k ++ [a] = a :: repeat a k.
  Proof. induction k as [|k IH]; cbn; [reflexivity|]. rewrite IH. reflexivity. Qed.
  Lemma rev_repeat {A} (a : A) k : rev (repeat a k) = repeat a k.
  Proof. induction k as [|k IH]; [reflexivity|]. cbn [repeat rev]. rewrite IH. apply repeat_snoc. Qed.

  Lemma rstrip_nl_spec s : exists k, s = rstrip_nl s ++ repeat nl k /\ (forall t, rstrip_nl s <> t ++ [nl]).
  Proof.
    unfold rstrip_nl. destruct (drop_nl_spec (rev s)) as (k & H1 & H2). exists k. split.
    - rewrite <- (rev_involutive s) at 1. rewrite H1 at 1. rewrite rev_app_distr, rev_repeat. reflexivity.
    - intros t D. apply (f_equal (@rev N)) in D. rewrite rev_involutive, rev_app_distr in D. exact (H2 _ D).
  Qed.

  (** The text of a chained exception is that of all exceptions of the chain, the root cause
      first, with the link line in between, without line feeds at the end. *)
  Theorem C84_chain_shown e l exc_info tb fuel : chain_of e l -> List.length l <= fuel ->
    exists out k, exc_to_str same format_ cause traceback fuel exc_info e tb true = Some out /\
      let t := actual_tb same exc_info e tb in
      out ++ repeat nl k = join (link_text t) (rev (shown t l)) /\ (forall s, out <> s ++ [nl]).
  Proof.
    intros Hl Hf. unfold exc_to_str. cbv zeta. set (t := actual_tb same exc_info e tb).
    rewrite (exc_parts_chain e l t Hl fuel t [] Hf), app_nil_r.
    assert (X : rev (format_ e t :: map (fun c => format_ c (match t with None => None | Some _ => traceback c end)) (tl l))
                = rev (shown t l)) by (f_equal; inversion Hl; reflexivity).
    rewrite X. assert (L : exc_link t = link_text t) by (destruct t; reflexivity). rewrite L.
    destruct (rstrip_nl_spec (join (link_text t) (rev (shown t l)))) as (k & H1 & H2).
    exists (rstrip_nl (join (link_text t) (rev (shown t l)))), k.
    split; [reflexivity|]. split; [symmetry; exact H1|exact H2].
  Qed.

  (** Without tracebacks, no traceback is used for any of them. *)
  Theorem C84_no_tracebacks e l exc_info : chain_of e l ->
    shown (actual_tb same exc_info e TbFalse) l = map (fun c => format_ c None) l.
  Proof. intros Hl. destruct Hl; reflexivity. Qed.

  (** Only the exception itself with [chain=False]. *)
  Theorem C84_unchained e exc_info tb fuel :
    exc_to_str same format_ cause traceback fuel exc_info e tb false = Some (format_ e (actual_tb same exc_info e tb)).
  Proof. reflexivity. Qed.

  Lemma chain_det e l l' : chain_of e l -> chain_of e l' -> l = l'.
  Proof.
    intros H; revert l'; induction H as [e H|e c l H Hl IH]; intros l' H'; inversion H' as [? N|? c' ? C Hl']; subst; try congruence.
    f_equal. apply IH. congruence.
  Qed.

  (** A chain that leads back to itself is never finished. *)
  Theorem C84_cycle_never_ends (P : E -> Prop) e exc_info tb fuel :
    (forall x, P x -> exists c, cause x = Some c /\ P c) -> P e ->
    exc_to_str same format_ cause traceback fuel exc_info e tb true = None.
  Proof.
    intros HP He. unfold exc_to_str. cbv zeta.
    assert (X : forall n x b t acc, P x -> exc_parts format_ cause traceback n b (Some x) t acc = None).
    { induction n as [|n IH]; intros x b t acc Hx; cbn [exc_parts]; [reflexivity|].
      destruct (HP x Hx) as (c & -> & Hc). apply IH, Hc. }
    rewrite X by exact He. reflexivity.
  Qed.
End Chains.

(** Exceptions that the code creates: without a cause, or with [chain_exception]/[raise_from]
    from one that exists. *)
Section Created.
  Context {T : Type}.
  Inductive created : list (exc_object T) -> Prop :=
  | created_none : created []
  | created_new s fmt : created s -> created (fst (new_exception s fmt))
  | created_from s info fmt from : created s -> from < List.length s -> created (fst (chain_exception info s fmt from)).

  Lemma set_tb_length (s : list (exc_object T)) k t : List.length (set_tb s k t) = List.length s.
  Proof. revert k; induction s as [|o s IH]; intros [|k]; cbn; congruence. Qed.
  Lemma set_tb_nth (s : list (exc_object T)) k t j :
    match nth_error (set_tb s k t) j, nth_error s j with
    | Some a, Some b => x_cause a = x_cause b /\ x_text a = x_text b
    | None, None => True
    | _, _ => False
    end.
  Proof.
    revert k j; induction s as [|o s IH]; intros [|k] [|j]; cbn; auto.
    - destruct (nth_error s j); auto.
    - apply IH.
  Qed.

  (** What chaining does to the store: the old objects keep text and cause, there is one more. *)
  Lemma chain_exception_store info (s : list (exc_object T)) fmt from : from < List.length s ->
    let (s', k) := chain_exception info s fmt from in
    k = List.length s /\ List.length s' = S (List.length s) /\
    store_cause s' k = Some from /\ (forall t, store_text s' k t = fmt t) /\
    (forall j, j < List.length s -> store_cause s' j = store_cause s j /\ (forall t, store_text s' j t = store_text s j t)).
  Proof.
    intros Hf. unfold chain_exception.
    set (s1 := match info with Some (e, t) => if Nat.eqb e from then set_tb s from t else s | None => s end).
    assert (L : List.length s1 = List.length s).
    { unfold s1. destruct info as [[e t]|]; [destruct (Nat.eqb e from)|]; rewrite ?set_tb_length; reflexivity. }
    assert (N : forall j, match nth_error s1 j, nth_error s j with
                | Some a, Some b => x_cause a = x_cause b /\ x_text a = x_text b
                | None, None => True | _, _ => False end).
    { intros j. unfold s1.
      assert (R : match nth_error s j, nth_error s j with
                | Some a, Some b => x_cause a = x_cause b /\ x_text a = x_text b
                | None, None => True | _, _ => False end) by (destruct (nth_error s j); auto).
      destruct info as [[e t]|]; [destruct (Nat.eqb e from)|]; [apply set_tb_nth|exact R|exact R]. }
    split; [exact L|]. split; [rewrite app_length, L; cbn; lia|].
    unfold store_cause, store_text.
    rewrite nth_error_app2, Nat.sub_diag by lia. cbn [nth_error x_cause x_text].
    split; [reflexivity|]. split; [reflexivity|]. intros j Hj.
    rewrite nth_error_app1 by lia. specialize (N j). destruct (nth_error s1 j), (nth_error s j); try contradiction; [|auto].
    destruct N as [-> ->]. auto.
  Qed.

  Lemma created_causes s : created s -> forall k c, store_cause s k = Some c -> c < k.
  Proof.
    induction 1 as [|s fmt Hs IH|s info fmt from Hs IH Hf]; intros k c.
    - unfold store_cause. destruct k; discriminate.
    - unfold store_cause, new_exception. cbn [fst]. destruct (lt_dec k (List.length s)) as [Hk|Hk].
      + rewrite nth_error_app1 by exact Hk. apply IH.
      + rewrite nth_error_app2 by lia. destruct (k - List.length s) as [|[|j]]; cbn; discriminate.
    - pose proof (chain_exception_store info s fmt from Hf) as X.
      destruct (chain_exception info s fmt from) as [s' n]. cbn [fst].
      destruct X as (-> & L & C & _ & O).
      destruct (lt_dec k (List.length s)) as [Hk|Hk].
      + destruct (O k Hk) as [-> _]. apply IH.
      + destruct (Nat.eq_dec k (List.length s)) as [->|Hn]; [rewrite C; congruence|].
        unfold store_cause. rewrite (proj2 (nth_error_None s' k)) by lia. discriminate.
  Qed.

  (** Every exception that is created this way has a finite chain, without repetitions, so it
      can be formatted. *)
  Theorem C84_created_chains_end s k : created s ->
    exists l, chain_of (store_cause s) k l /\ NoDup l /\ List.length l <= S k.
  Proof.
    intros Hs. pose proof (created_causes s Hs) as Hc. induction k as [k IH] using lt_wf_ind.
    assert (G : exists l, chain_of (store_cause s) k l /\ NoDup l /\ List.length l <= S k /\ Forall (fun j => j <= k) l).
    { destruct (store_cause s k) as [c|] eqn:Ec.
      - assert (Hlt : c < k) by (apply Hc; exact Ec).
        assert (X : forall n c, c <= n -> n < k -> exists l, chain_of (store_cause s) c l /\ NoDup l /\ List.length l <= S c /\ Forall (fun j => j <= c) l).
        { clear c Ec Hlt. induction n as [n IHn] using lt_wf_ind. intros c Hcn Hn.
          destruct (store_cause s c) as [d|] eqn:Ed.
          - assert (Hd : d < c) by (apply Hc; exact Ed).
            destruct (IHn d ltac:(lia) d (le_n _) ltac:(lia)) as (l & H1 & H2 & H3 & H4).
            exists (c :: l). split; [eapply chain_more; eassumption|]. split.
            { constructor; [|exact H2]. intros Hin. rewrite Forall_forall in H4. specialize (H4 _ Hin). lia. }
            split; [cbn; lia|]. constructor; [lia|]. eapply Forall_impl; [|exact H4]. cbn. intros; lia.
          - exists [c]. split; [constructor; exact Ed|]. split; [repeat constructor; intros []|]. split; [cbn; lia|]. repeat constructor. }
        destruct (X c c (le_n _) Hlt) as (l & H1 & H2 & H3 & H4).
        exists (k :: l). split; [eapply chain_more; eassumption|]. split.
        { constructor; [|exact H2]. intros Hin. rewrite Forall_forall in H4. specialize (H4 _ Hin). lia. }
        split; [cbn; lia|]. constructor; [lia|]. eapply Forall_impl; [|exact H4]. cbn. intros; lia.
      - exists [k]. split; [constructor; exact Ec|]. split; [repeat constructor; intros []|]. split; [cbn; lia|]. repeat constructor. }
    destruct G as (l & H1 & H2 & H3 & _). eauto.
  Qed.

  (** Chaining puts the new exception in front of the chain of its cause, whose texts are as
      before: nothing is lost on the way. *)
  Theorem C84_chaining_keeps_causes info s fmt from l s' k :
    created s -> from < List.length s -> chain_of (store_cause s) from l ->
    chain_exception info s fmt from = (s', k) ->
    chain_of (store_cause s') k (k :: l) /\ store_text s' k None = fmt None /\
    map (fun c => store_text s' c None) l = map (fun c => store_text s c None) l.
  Proof.
    intros Hs Hf Hl E. pose proof (chain_exception_store info s fmt from Hf) as X. rewrite E in X.
    destruct X as (-> & L & C & Tx & O).
    assert (Hc := created_causes s Hs).
    assert (B : chain_of (store_cause s') from l /\ map (fun c => store_text s' c None) l = map (fun c => store_text s c None) l).
    { clear E C Tx L. induction Hl as [e H|e c l H Hl IH].
      - destruct (O e Hf) as [O1 O2]. split; [constructor; congruence|]. cbn. rewrite O2. reflexivity.
      - destruct (O e Hf) as [O1 O2]. destruct IH as [I1 I2].
        + specialize (Hc _ _ H). lia.
        + split; [eapply chain_more; [rewrite O1; exact H|exact I1]|]. cbn [map]. rewrite O2, I2. reflexivity. }
    destruct B as [B1 B2]. split; [eapply chain_more; eassumption|]. split; [apply Tx|exact B2].
  Qed.
End Created.

Example C84_nonvacuous :
  exists s k, created s /\ k < List.length s /\
    exc_to_str Nat.eqb (store_text (T := unit) s) (store_cause s) (store_tb s) 5 None k TbFalse true =
    Some (u "IOError: no file" ++ [nl] ++ u " --- The above error was the direct cause of the following:" ++ [nl] ++
          u "InvalidRuleError: bad" ++ [nl] ++ u " --- The above error was the direct cause of the following:" ++ [nl] ++
          u "ResolutionError: key").
Proof.
  pose (s0 := @nil (exc_object unit)).
  pose (s1 := fst (new_exception s0 (fun _ => u "IOError: no file" ++ [nl]))).
  pose (s2 := fst (chain_exception None s1 (fun _ => u "InvalidRuleError: bad" ++ [nl]) 0)).
  pose (s3 := fst (chain_exception (Some (1, tt)) s2 (fun _ => u "ResolutionError: key" ++ [nl]) 1)).
  exists s3, 2. split; [apply created_from; [apply created_from; [apply created_new, created_none|]|]; cbn; lia|]. split; [cbn; lia|]. vm_compute. reflexivity.
Qed.

(** * C86: indent *)
(** A text is its lines, joined with line feeds. *)
Definition line (s : text) : Prop := ~ In nl s.
Definition unlines (l : list text) : text := join [nl] l.

Lemma split_line s : line s -> split_on nl s = [s].
Proof.
  induction s as [|c s IH]; intros H; [reflexivity|]. cbn [split_on].
  destruct (eqb_spec c nl) as [->|Hc]; [exfalso; apply H; left; reflexivity|].
  rewrite IH; [reflexivity|]. intros Hin. apply H. right; exact Hin.
Qed.
Lemma split_line_app s rest : line s -> split_on nl (s ++ nl :: rest) = s :: split_on nl rest.
Proof.
  induction s as [|c s IH]; intros H; cbn [app split_on].
  - rewrite eqb_refl. reflexivity.
  - destruct (eqb_spec c nl) as [->|Hc]; [exfalso; apply H; left; reflexivity|].
    rewrite IH; [reflexivity|]. intros Hin. apply H. right; exact Hin.
Qed.
Lemma split_unlines l : l <> [] -> Forall line l -> split_on nl (unlines l) = l.
Proof.
  unfold unlines. induction l as [|x l IH]; intros Hn H; [contradiction|]. inversion H as [|? ? Hx Hl]; subst.
  destruct l as [|y l]; [apply split_line, Hx|].
  change (join [nl] (x :: y :: l)) with (x ++ nl :: join [nl] (y :: l)).
  rewrite split_line_app by exact Hx. rewrite IH; [reflexivity|discriminate|exact Hl].
Qed.
Lemma lines_exist s : exists x l, Forall line (x :: l) /\ s = unlines (x :: l).
Proof.
  induction s as [|c s (x & l & H & E)]; [exists [], []; split; [repeat constructor; intros []|reflexivity]|].
  destruct (eqb_spec c nl) as [->|Hc].
  - exists [], (x :: l). split; [constructor; [intros []|exact H]|]. rewrite E. reflexivity.
  - inversion H as [|? ? Hx Hl]; subst. exists (c :: x), l. split.
    + constructor; [|exact Hl]. intros [D|D]; [congruence|exact (Hx D)].
    + destruct l; reflexivity.
Qed.

Lemma join_padded pad x l : join (nl :: pad) (x :: l) = unlines (x :: map (app pad) l).
Proof.
  revert x; induction l as [|y l IH]; intros x; [reflexivity|].
  change (join (nl :: pad) (x :: y :: l)) with (x ++ (nl :: pad) ++ join (nl :: pad) (y :: l)).
  rewrite IH. cbn [map]. unfold unlines. cbn [join app].
  destruct (map (app pad) l) as [|z zs]; cbn [join app]; rewrite <- ?app_assoc; reflexivity.
Qed.

(** [width] copies of the character are put in front of every line (but the first, if that is
    excluded); nothing else changes. *)
Theorem C86_indent_lines x l width character exclude_first : Forall line (x :: l) ->
  let pad := List.concat (repeat character width) in
  indent (unlines (x :: l)) width character exclude_first =
  unlines ((if exclude_first then x else pad ++ x) :: map (app pad) l).
Proof.
  intros H pad. unfold indent. fold pad. rewrite split_unlines by (try discriminate; exact H).
  rewrite join_padded. destruct exclude_first; [reflexivity|]. unfold unlines.
  destruct (map (app pad) l); cbn [join]; rewrite <- ?app_assoc; reflexivity.
Qed.
(** Every text has such lines. *)
Theorem C86_any_text s width character exclude_first : exists x l, Forall line (x :: l) /\ s = unlines (x :: l) /\
  indent s width character exclude_first =
  unlines ((if exclude_first then x else List.concat (repeat character width) ++ x) ::
           map (app (List.concat (repeat character width))) l).
Proof.
  destruct (lines_exist s) as (x & l & H & ->). exists x, l. split; [exact H|]. split; [reflexivity|].
  apply C86_indent_lines, H.
Qed.

Lemma line_pad character width x : line character -> line x -> line (List.concat (repeat character width) ++ x).
Proof.
  intros Hc Hx Hin. apply in_app_iff in Hin as [Hin|Hin]; [|exact (Hx Hin)].
  apply in_concat in Hin as (y & Hy & Hin). apply repeat_spec in Hy as ->. exact (Hc Hin).
Qed.

(** Indenting twice is indenting by the sum. *)
Theorem C86_nested s a b character : line character ->
  indent (indent s a character false) b character false = indent s (b + a) character false.
Proof.
  intros Hc. destruct (C86_any_text s a character false) as (x & l & H & -> & ->). inversion H as [|? ? Hx Hl]; subst.
  rewrite C86_indent_lines.
  - rewrite C86_indent_lines by exact H. rewrite repeat_app, concat_app, map_map. rewrite <- app_assoc.
    f_equal. f_equal. apply map_ext. intros y. rewrite app_assoc. reflexivity.
  - constructor; [apply line_pad; assumption|]. apply Forall_forall. intros y Hy. apply in_map_iff in Hy as (z & <- & Hz).
    rewrite Forall_forall in Hl. apply line_pad; auto.
Qed.

Example C86_nonvacuous : indent (u "a" ++ [nl] ++ u "b") 2 (u " ") true = u "a" ++ [nl] ++ u "  b" /\
  Forall line [u "a"; u "b"].
Proof. split; [reflexivity|]. repeat constructor; intros D; cbn in D; intuition discriminate. Qed.

(** * C87: encoding *)
(** Unicode code points *)
Definition code_point (c : N) : Prop := (c < 1114112)%N.
Definition byte (b : N) : Prop := (b < 256)%N.

Ltac Zify.zify_post_hook ::= Z.div_mod_to_equations.

Lemma decode_encode_char c rest : code_point c ->
  decode_char (encode_char c ++ rest) = Some (c, List.length (encode_char c)).
Proof.
  unfold code_point, encode_char, cont. intros H.
  destruct (N.ltb_spec c 128); [|destruct (N.ltb_spec c 2048); [|destruct (N.ltb_spec c 65536)]]; cbn [app decode_char List.length].
  - destruct (N.ltb_spec c 128); [reflexivity|lia].
  - destruct (N.ltb_spec (192 + c / 64) 128); [lia|]. destruct (N.ltb_spec (192 + c / 64) 194); [lia|].
    destruct (N.ltb_spec (192 + c / 64) 224); [|lia]. unfold cont.
    destruct (N.leb_spec 128 (128 + c mod 64)); [|lia]. destruct (N.ltb_spec (128 + c mod 64) 192); [|lia].
    cbn [andb]. f_equal. f_equal. lia.
  - destruct (N.ltb_spec (224 + c / 4096) 128); [lia|]. destruct (N.ltb_spec (224 + c / 4096) 194); [lia|].
    destruct (N.ltb_spec (224 + c / 4096) 224); [lia|]. destruct (N.ltb_spec (224 + c / 4096) 240); [|lia]. unfold cont.
    destruct (N.leb_spec 128 (128 + c mod 64)); [|lia]. destruct (N.ltb_spec (128 + c mod 64) 192); [|lia].
    destruct (N.leb_spec 128 (128 + (c / 64) mod 64)); [|lia]. destruct (N.ltb_spec (128 + (c / 64) mod 64) 192); [|lia].
    cbn [andb]. destruct (N.eqb_spec (224 + c / 4096) 224), (N.ltb_spec (128 + (c / 64) mod 64) 160); cbn [andb negb]; try lia;
      f_equal; f_equal; lia.
  - destruct (N.ltb_spec (240 + c / 262144) 128); [lia|]. destruct (N.ltb_spec (240 + c / 262144) 194); [lia|].
    destruct (N.ltb_spec (240 + c / 262144) 224); [lia|]. destruct (N.ltb_spec (240 + c / 262144) 240); [lia|].
    destruct (N.ltb_spec (240 + c / 262144) 245); [|lia]. unfold cont.
    destruct (N.leb_spec 128 (128 + c mod 64)); [|lia]. destruct (N.ltb_spec (128 + c mod 64) 192); [|lia].
    destruct (N.leb_spec 128 (128 + (c / 64) mod 64)); [|lia]. destruct (N.ltb_spec (128 + (c / 64) mod 64) 192); [|lia].
    destruct (N.leb_spec 128 (128 + (c / 4096) mod 64)); [|lia]. destruct (N.ltb_spec (128 + (c / 4096) mod 64) 192); [|lia].
    cbn [andb].
    destruct (N.eqb_spec (240 + c / 262144) 240), (N.ltb_spec (128 + (c / 4096) mod 64) 144),
             (N.eqb_spec (240 + c / 262144) 244), (N.ltb_spec 143 (128 + (c / 4096) mod 64)); cbn [andb negb]; try lia;
      f_equal; f_equal; lia.
Qed.
Lemma encode_char_bytes c : code_point c -> Forall byte (encode_char c).
Proof.
  unfold code_point, encode_char, byte. intros H.
  destruct (N.ltb_spec c 128); [|destruct (N.ltb_spec c 2048); [|destruct (N.ltb_spec c 65536)]];
    repeat constructor; lia.
Qed.
Ltac Zify.zify_post_hook ::= idtac.

Lemma encode_char_nonempty c : exists b s, encode_char c = b :: s.
Proof. unfold encode_char. destruct (c <? 128)%N, (c <? 2048)%N, (c <? 65536)%N; eauto. Qed.

Lemma decode_skip_app bad x s : decode_skip bad (x ++ s) (List.length x) = decode_skip bad s 0.
Proof.
  induction x as [|b x IH]; [reflexivity|]. cbn [app decode_skip List.length]. exact IH.
Qed.

Lemma decode_encode bad t rest : Forall code_point t -> decode bad (encode t ++ rest) = t ++ decode bad rest.
Proof.
  unfold decode, encode. induction t as [|c t IH]; intros H; [reflexivity|]. inversion H as [|? ? Hc Ht]; subst.
  cbn [flat_map]. rewrite <- app_assoc. pose proof (decode_encode_char c (flat_map encode_char t ++ rest) Hc) as D.
  destruct (encode_char_nonempty c) as (b & s & Eb). rewrite Eb in D |- *. cbn [app decode_skip].
  cbn [app] in D. rewrite D. cbn [List.length Nat.sub]. rewrite Nat.sub_0_r. f_equal.
  rewrite decode_skip_app. apply IH, Ht.
Qed.

(** Converting a text to bytes and back gives the text, whatever follows; the bytes are
    bytes. *)
Theorem C87_round_trip bad t : Forall code_point t ->
  to_str bad (Bytes (to_bytes (Text t))) = t /\ Forall byte (to_bytes (Text t)) /\
  (forall rest, to_str bad (Bytes (to_bytes (Text t) ++ rest)) = t ++ to_str bad (Bytes rest)).
Proof.
  intros H. cbn [to_str to_bytes]. split; [|split].
  - rewrite <- (app_nil_r (encode t)), decode_encode by exact H. apply app_nil_r.
  - unfold encode. induction H as [|c t Hc Ht IH]; [constructor|]. cbn [flat_map]. apply Forall_app.
    split; [apply encode_char_bytes, Hc|exact IH].
  - intros rest. apply decode_encode, H.
Qed.

(** Different texts have different bytes, and bytes of a text followed by those of another are
    the bytes of both. *)
Theorem C87_injective t t' : Forall code_point t -> Forall code_point t' ->
  to_bytes (Text t) = to_bytes (Text t') -> t = t'.
Proof.
  intros H H' E. rewrite <- (proj1 (C87_round_trip (fun _ => 0) t H)), E. apply C87_round_trip, H'.
Qed.
Theorem C87_concatenation t t' : to_bytes (Text (t ++ t')) = to_bytes (Text t) ++ to_bytes (Text t').
Proof. cbn. unfold encode. apply flat_map_app. Qed.
(** ASCII text is its own encoding. *)
Theorem C87_ascii bad t : Forall (fun c => (c < 128)%N) t -> to_bytes (Text t) = t /\ to_str bad (Bytes t) = t.
Proof.
  intros H. assert (E : to_bytes (Text t) = t).
  { cbn. unfold encode. induction H as [|c t Hc Ht IH]; [reflexivity|]. cbn [flat_map]. rewrite IH.
    unfold encode_char. destruct (N.ltb_spec c 128); [reflexivity|lia]. }
  split; [exact E|]. rewrite <- E at 1. apply C87_round_trip. eapply Forall_impl; [|exact H].
  unfold code_point. cbn. intros; lia.
Qed.
(** The decoder accepts only what the encoder gives. *)
Ltac Zify.zify_post_hook ::= Z.div_mod_to_equations.
Lemma decode_char_encoded s c n : Forall byte s -> decode_char s = Some (c, n) ->
  code_point c /\ n = List.length (encode_char c) /\ exists rest, s = encode_char c ++ rest.
Proof.
  unfold byte, code_point; intros H; destruct s as [|a s]; [discriminate|]; inversion H as [|? ? Ha Hs]; subst; cbn [decode_char].
  destruct (N.ltb_spec a 128) as [A1|A1].
  { intros E; injection E as <- <-; unfold encode_char; destruct (N.ltb_spec a 128); [|lia]; split; [lia|split; [reflexivity|exists s; reflexivity]]. }
  destruct (N.ltb_spec a 194) as [A2|A2]; [discriminate|].
  destruct (N.ltb_spec a 224) as [A3|A3].
  { destruct s as [|b s]; [discriminate|]; unfold cont.
    destruct (N.leb_spec 128 b) as [B1|]; [|discriminate]; destruct (N.ltb_spec b 192) as [B2|]; [|discriminate]; cbn [andb].
    intros E; injection E as <- <-; unfold encode_char; set (c := ((a - 192) * 64 + (b - 128))%N).
    destruct (N.ltb_spec c 128); [unfold c in *; lia|]; destruct (N.ltb_spec c 2048); [|unfold c in *; lia].
    split; [unfold c; lia|split; [reflexivity|]]; exists s; cbn [app]; unfold c; repeat f_equal; lia. }
  destruct (N.ltb_spec a 240) as [A4|A4].
  { destruct s as [|b [|d s]]; try discriminate; unfold cont.
    destruct (N.leb_spec 128 b) as [B1|]; [|discriminate]; destruct (N.ltb_spec b 192) as [B2|]; [|discriminate].
    destruct (N.leb_spec 128 d) as [D1|]; [|discriminate]; destruct (N.ltb_spec d 192) as [D2|]; [|discriminate]; cbn [andb].
    destruct (N.eqb_spec a 224) as [Q|Q], (N.ltb_spec b 160) as [R|R]; cbn [andb negb]; try discriminate;
      (intros E; injection E as <- <-; unfold encode_char; set (c := ((a - 224) * 4096 + (b - 128) * 64 + (d - 128))%N);
       destruct (N.ltb_spec c 128); [unfold c in *; lia|]; destruct (N.ltb_spec c 2048); [unfold c in *; lia|];
       destruct (N.ltb_spec c 65536); [|unfold c in *; lia];
       split; [unfold c; lia|split; [reflexivity|]]; exists s; cbn [app]; unfold c; repeat f_equal; lia). }
  destruct (N.ltb_spec a 245) as [A5|A5]; [|discriminate].
  destruct s as [|b [|d [|e s]]]; try discriminate; unfold cont.
  destruct (N.leb_spec 128 b) as [B1|]; [|discriminate]; destruct (N.ltb_spec b 192) as [B2|]; [|discriminate].
  destruct (N.leb_spec 128 d) as [D1|]; [|discriminate]; destruct (N.ltb_spec d 192) as [D2|]; [|discriminate].
  destruct (N.leb_spec 128 e) as [E1|]; [|discriminate]; destruct (N.ltb_spec e 192) as [E2|]; [|discriminate]; cbn [andb].
  destruct (N.eqb_spec a 240) as [Q|Q], (N.ltb_spec b 144) as [R|R], (N.eqb_spec a 244) as [U|U], (N.ltb_spec 143 b) as [V|V];
    cbn [andb negb]; try discriminate; try lia;
    (intros E; injection E as <- <-; unfold encode_char;
     set (c := ((a - 240) * 262144 + (b - 128) * 4096 + (d - 128) * 64 + (e - 128))%N);
     destruct (N.ltb_spec c 128); [unfold c in *; lia|]; destruct (N.ltb_spec c 2048); [unfold c in *; lia|];
     destruct (N.ltb_spec c 65536); [unfold c in *; lia|];
     split; [unfold c; lia|split; [reflexivity|]]; exists s; cbn [app]; unfold c; repeat f_equal; lia).
Qed.
Ltac Zify.zify_post_hook ::= idtac.

Lemma decode_cases bad b : Forall byte b -> (exists t, Forall code_point t /\ b = encode t) \/ In replacement (decode bad b).
Proof.
  remember (List.length b) as n eqn:Hn; assert (Hl : (List.length b <= n)%nat) by lia; clear Hn.
  revert b Hl; induction n as [|n IH]; intros b Hl Hb.
  - destruct b; [|cbn in Hl; lia]; left; exists []; split; [constructor|reflexivity].
  - destruct b as [|x b]; [left; exists []; split; [constructor|reflexivity]|].
    destruct (decode_char (x :: b)) as [[c k]|] eqn:E.
    + destruct (decode_char_encoded _ _ _ Hb E) as (Hc & -> & rest & Er).
      destruct (encode_char_nonempty c) as (y & s & Es).
      assert (Hr : Forall byte rest) by (rewrite Er in Hb; apply Forall_app in Hb; tauto).
      assert (Lr : (List.length rest <= n)%nat).
      { apply (f_equal (@List.length _)) in Er; rewrite Es, app_length in Er; cbn [List.length] in Er, Hl; lia. }
      destruct (IH rest Lr Hr) as [(t & Ht & ->)|Hin].
      * left; exists (c :: t); split; [constructor; assumption|exact Er].
      * right; rewrite Er; pose proof (decode_encode bad [c] rest (Forall_cons _ Hc (Forall_nil _))) as D.
        cbn [encode flat_map] in D; unfold encode in D; cbn [flat_map] in D; rewrite app_nil_r in D; rewrite D; right; exact Hin.
    + right; unfold decode; cbn [decode_skip]; rewrite E; left; reflexivity.
Qed.

(** Bytes that encode no text always give the replacement character, and are not restored; all others are. *)
Theorem C87_strict bad b : Forall byte b ->
  ((exists t, Forall code_point t /\ to_bytes (Text t) = b) <-> to_bytes (Text (to_str bad (Bytes b))) = b) /\
  (~ (exists t, Forall code_point t /\ to_bytes (Text t) = b) -> In 65533%N (to_str bad (Bytes b))).
Proof.
  intros Hb; assert (F : (exists t, Forall code_point t /\ to_bytes (Text t) = b) -> to_bytes (Text (to_str bad (Bytes b))) = b).
  { intros (t & Ht & <-); rewrite (proj1 (C87_round_trip bad t Ht)); reflexivity. }
  split; [split; [exact F|]|].
  - intros E; destruct (decode_cases bad b Hb) as [(t & Ht & Et)|_]; [exists t; split; [exact Ht|symmetry; exact Et]|].
    exists (to_str bad (Bytes b)); split; [|exact E].
    clear -Hb; cbn [to_str]; unfold decode; generalize 0%nat as k; revert Hb.
    induction b as [|x b IH]; intros Hb k; [constructor|]; inversion Hb as [|? ? Hx Hb']; subst; cbn [decode_skip].
    destruct k; [|apply IH; assumption].
    destruct (decode_char (x :: b)) as [[c k]|] eqn:E; constructor; try (apply IH; assumption).
    + apply (decode_char_encoded _ _ _ Hb E).
    + unfold code_point, replacement; lia.
  - intros N; destruct (decode_cases bad b Hb) as [(t & Ht & Et)|H]; [exfalso; apply N; exists t; split; [exact Ht|symmetry; exact Et]|exact H].
Qed.

Example C87_strict_nonvacuous :
  ~ (exists t, Forall code_point t /\ to_bytes (Text t) = [192; 128]%N) /\ ~ (exists t, Forall code_point t /\ to_bytes (Text t) = [244; 144; 128; 128]%N).
Proof.
  assert (B : Forall byte [192; 128]%N /\ Forall byte [244; 144; 128; 128]%N) by (unfold byte; split; repeat constructor).
  split; intros H.
  - apply (proj1 (proj1 (C87_strict (fun _ => 0%nat) _ (proj1 B)))) in H; vm_compute in H; discriminate.
  - apply (proj1 (proj1 (C87_strict (fun _ => 0%nat) _ (proj2 B)))) in H; vm_compute in H; discriminate.
Qed.

(** Bytes that do not encode a text are not restored: information is lost. *)
Theorem C87_bytes_refuted bad : to_bytes (Text (to_str bad (Bytes [255%N]))) <> [255%N].
Proof. discriminate. Qed.

Example C87_nonvacuous : Forall code_point (u "caf" ++ [233; 8364; 128512]%N) /\
  to_bytes (Text ([233; 8364; 128512]%N)) = [195; 169; 226; 130; 172; 240; 159; 152; 128]%N.
Proof. split; [repeat constructor|reflexivity]. Qed.

(** * C88: console output and settings *)
Section Console.
  Variable bad : list N -> nat.
  Notation to_str := (to_str bad).
  Notation log := (log bad).
  Implicit Types c : console.

  (** The escape sequence of a colour, if colours are on. *)
  Definition colour (on : bool) (code : text) : text := if on then [27%N] ++ u "[" ++ code ++ u "m" else [].
  Definition colours (c : console) (on : bool) : Prop :=
    c_ansi c = if on then ansi_enabled else ansi_disabled.

  (** What a call writes to stdout and stderr. *)
  Definition line_of (on : bool) (before : list text) (m : pystr) : list N :=
    encode (List.concat (map (colour on) before) ++ to_str m ++ colour on (u "0")) ++ [10%N].
  Definition on_stdout (on : bool) (l : log_call) : list N :=
    match l with Info m => line_of on [] m | _ => [] end.
  Definition on_stderr (on debug verbose : bool) (l : log_call) : list N :=
    match l with
    | Info _ => []
    | Debug m => if debug then line_of on [u "32"] m else []
    | InfoV m => if verbose then line_of on [] m else []
    | Warning m => line_of on [u "33"] m
    | Error m => line_of on [u "31"; u "1"] m
    end.

  Lemma codes c on : colours c on ->
    ansi_code c "greenf" = Ok (colour on (u "32")) /\ ansi_code c "yellowf" = Ok (colour on (u "33")) /\
    ansi_code c "redf" = Ok (colour on (u "31")) /\ ansi_code c "boldon" = Ok (colour on (u "1")) /\
    ansi_code c "reset" = Ok (colour on (u "0")).
  Proof. unfold colours, ansi_code. intros ->. destruct on; repeat split; vm_compute; reflexivity. Qed.

  Lemma log_spec l c on : colours c on ->
    exists m, log l c = (Ok m, {| c_debug := c_debug c; c_verbose := c_verbose c; c_pdb := c_pdb c; c_ansi := c_ansi c;
                                  c_out := c_out c ++ on_stdout on l;
                                  c_err := c_err c ++ on_stderr on (c_debug c) (c_verbose c) l |}).
  Proof.
    intros H. destruct (codes c on H) as (G & Y & X & B & R).
    destruct c as [d v p a o e]. cbn [c_debug c_verbose c_pdb c_ansi c_out c_err].
    destruct l as [m|m|m|m|m]; cbn [Output.log]; unfold log_debug, log_info, log_warning, log_error, log_info_v;
      rewrite ?G, ?Y, ?X, ?B, ?R; cbn [on_stdout on_stderr c_debug c_verbose]; unfold with_out, with_err, printed, line_of;
      cbn [c_debug c_verbose c_pdb c_ansi c_out c_err map List.concat app];
      try destruct d; try destruct v; cbn [c_debug c_verbose c_pdb c_ansi c_out c_err]; rewrite ?app_nil_r, <- ?app_assoc;
      eexists; reflexivity.
  Qed.

  (** Any sequence of calls: every message goes to its stream, in order, in full, between the
      colours of its kind; debug and verbose messages only if enabled; settings do not change. *)
  Theorem C88_streams calls c on : colours c on ->
    let c' := fold_left (fun c l => snd (log l c)) calls c in
    c_out c' = c_out c ++ flat_map (on_stdout on) calls /\
    c_err c' = c_err c ++ flat_map (on_stderr on (c_debug c) (c_verbose c)) calls /\
    c_debug c' = c_debug c /\ c_verbose c' = c_verbose c /\ colours c' on.
  Proof.
    revert c; induction calls as [|l calls IH]; intros c H; cbn [fold_left flat_map].
    - rewrite !app_nil_r. auto.
    - destruct (log_spec l c on H) as (m & E). rewrite E. cbn [snd].
      specialize (IH {| c_debug := c_debug c; c_verbose := c_verbose c; c_pdb := c_pdb c; c_ansi := c_ansi c;
                        c_out := c_out c ++ on_stdout on l;
                        c_err := c_err c ++ on_stderr on (c_debug c) (c_verbose c) l |} H).
      cbn [c_out c_err c_debug c_verbose] in IH. rewrite <- !app_assoc in IH. exact IH.
  Qed.

  (** A call returns the line it writes, without the newline; debug returns it also if it is not written, and a verbose
      message that is not enabled returns nothing. *)
  Theorem C88_returns l c on : colours c on ->
    exists m, fst (log l c) = Ok m /\
      match l with
      | Info _ => encode m ++ [10%N] = on_stdout on l
      | InfoV _ => if c_verbose c then encode m ++ [10%N] = on_stderr on (c_debug c) true l else m = []
      | _ => encode m ++ [10%N] = on_stderr on true (c_verbose c) l
      end.
  Proof.
    intros H. destruct (codes c on H) as (G & Y & X & B & R).
    destruct l as [m|m|m|m|m]; cbn [Output.log]; unfold log_debug, log_info, log_warning, log_error, log_info_v;
      rewrite ?G, ?Y, ?X, ?B, ?R; cbn [on_stdout on_stderr]; unfold line_of; cbn [map List.concat app];
      try destruct (c_verbose c); eexists; (split; [reflexivity|]); rewrite ?app_nil_r, <- ?app_assoc; reflexivity.
  Qed.

  (** [error(msg, exit=True)] writes the message and ends the program with status 1. *)
  Theorem C88_error_exit m c on : colours c on ->
    exists c', log_error bad m true c = (Err (SystemExit 1), c') /\
      c_err c' = c_err c ++ line_of on [u "31"; u "1"] m /\ c_out c' = c_out c.
  Proof.
    intros H. destruct (codes c on H) as (_ & _ & X & B & R). unfold log_error. rewrite X, B, R.
    eexists; split; [reflexivity|]. split; [|reflexivity]. cbn [with_err c_err]. unfold printed, line_of.
    cbn [map List.concat]. rewrite app_nil_r, <- !app_assoc. reflexivity.
  Qed.

  (** The settings of the first command in a process are those of its arguments. *)
  Theorem C88_settings a env_debug : env_debug = g_env_debug a ->
    let c := handle_global_arguments a (fresh_console env_debug) in
    c_debug c = (g_debug a || g_env_debug a) /\ c_pdb c = (g_pdb a || g_env_pdb a) /\
    c_verbose c = g_verbose a /\ colours c (negb (g_no_color a)).
  Proof.
    intros _ c. subst c. unfold colours, handle_global_arguments, fresh_console.
    cbn [c_debug c_verbose c_pdb c_ansi]. destruct (g_verbose a), (g_no_color a); repeat split; reflexivity.
  Qed.

  (** Whatever happened before, debug and pdb follow the arguments; the others are at least
      what the arguments ask for ... *)
  Theorem C88_later_settings_partial a c on : colours c on ->
    let c' := handle_global_arguments a c in
    c_debug c' = (g_debug a || g_env_debug a) /\ c_pdb c' = (g_pdb a || g_env_pdb a) /\
    c_verbose c' = (g_verbose a || c_verbose c) /\ colours c' (on && negb (g_no_color a)).
  Proof.
    intros H c'. subst c'. revert H. unfold colours, handle_global_arguments. cbn [c_debug c_verbose c_pdb c_ansi].
    intros H. destruct (g_verbose a), (g_no_color a), on; cbn [andb orb negb]; rewrite ?H; repeat split; try reflexivity;
      vm_compute; reflexivity.
  Qed.
End Console.

(** ... but a second command in the same process does not get rid of --verbose and --no-color
    of the first. *)
Theorem C88_second_command_refuted : exists a b : global_flags,
  g_verbose b = false /\ g_no_color b = false /\
  let c := handle_global_arguments b (handle_global_arguments a (fresh_console false)) in
  c_verbose c = true /\ colours c false /\ ~ colours c true.
Proof.
  exists {| g_debug := false; g_pdb := false; g_verbose := true; g_no_color := true; g_env_debug := false; g_env_pdb := false |}.
  exists {| g_debug := false; g_pdb := false; g_verbose := false; g_no_color := false; g_env_debug := false; g_env_pdb := false |}.
  split; [reflexivity|]. split; [reflexivity|]. split; [reflexivity|]. split; [vm_compute; reflexivity|].
  intros D. apply (f_equal (get (u "redf"))) in D. vm_compute in D. discriminate D.
Qed.

Example C88_nonvacuous : colours (fresh_console false) true /\
  let c := fold_left (fun c l => snd (log (fun _ => 0) l c))
             [Info (Text (u "a")); Debug (Text (u "b")); Warning (Text (u "c"))] (fresh_console false) in
  c_out c = u "a" ++ [27%N] ++ u "[0m" ++ [10%N] /\
  c_err c = [27%N] ++ u "[33mc" ++ [27%N] ++ u "[0m" ++ [10%N].
Proof. split; [reflexivity|]. vm_compute. split; reflexivity. Qed.

(** * C85: context managers *)
Section Managers.
  Context {W B : Type}.
  Variable getcwd : W -> res text.
  Variable chdir : text -> W -> res unit * W.
  Variable exists_ : text -> W -> bool.
  Variable mkdtemp : text -> W -> res text * W.
  Variable rmtree : text -> W -> res unit * W.

  (** Going to a directory that was the current one makes it the current one again; working
      directories have a name. *)
  Hypothesis chdir_back : forall p w0 w w', getcwd w0 = Ok p -> chdir p w = (Ok tt, w') -> getcwd w' = Ok p.
  Hypothesis cwd_named : forall w, getcwd w <> Ok [].

  (** [original] can still be entered. *)
  Definition can_enter (p : text) (w : W) : Prop := exists_ p w = true /\ exists w', chdir p w = (Ok tt, w').

  (** If the directory can be entered, the body runs once in it; afterwards the original
      directory, if it can still be entered, is current again and the outcome is that of the
      body, also if it is an exception. *)
  Theorem C85_change_directory directory (body : W -> res B * W) w original w1 r w2 :
    getcwd w = Ok original -> chdir directory w = (Ok tt, w1) -> body w1 = (r, w2) -> can_enter original w2 ->
    exists w3, change_directory getcwd chdir exists_ directory body w = (r, w3) /\ getcwd w3 = Ok original.
  Proof.
    intros Hg Hc Hb [He (w3 & Hw)]. exists w3. unfold change_directory, with_. rewrite Hg, Hc, Hb.
    unfold back_to. destruct original as [|x o]; [exfalso; exact (cwd_named w Hg)|].
    rewrite He, Hw. split; [reflexivity|]. eapply chdir_back; [exact Hg|exact Hw].
  Qed.
  (** If it can not be entered, the body does not run. *)
  Theorem C85_not_entered directory (body : W -> res B * W) w e w1 :
    (getcwd w = Err e /\ w1 = w) \/ (exists o, getcwd w = Ok o /\ chdir directory w = (Err e, w1)) ->
    change_directory getcwd chdir exists_ directory body w = (Err e, w1).
  Proof.
    unfold change_directory, with_. intros [[-> ->]|(o & -> & ->)]; reflexivity.
  Qed.

  (** Also for nested use: the outer directory is current again between the two. *)
  Theorem C85_nested d1 d2 (body : W -> res B * W) w o1 w1 o2 w2 r w3 w4 :
    getcwd w = Ok o1 -> chdir d1 w = (Ok tt, w1) -> getcwd w1 = Ok o2 -> chdir d2 w1 = (Ok tt, w2) ->
    body w2 = (r, w3) -> exists_ o2 w3 = true -> chdir o2 w3 = (Ok tt, w4) -> can_enter o1 w4 ->
    exists w5, change_directory getcwd chdir exists_ d1 (change_directory getcwd chdir exists_ d2 body) w = (r, w5) /\
      getcwd w4 = Ok o2 /\ getcwd w5 = Ok o1.
  Proof.
    intros G1 C1 G2 C2 Hb E3 C3 H4.
    assert (I : change_directory getcwd chdir exists_ d2 body w1 = (r, w4)).
    { unfold change_directory, with_. rewrite G2, C2, Hb. unfold back_to.
      destruct o2 as [|x o2]; [exfalso; exact (cwd_named w1 G2)|]. rewrite E3, C3. reflexivity. }
    destruct (C85_change_directory d1 (change_directory getcwd chdir exists_ d2 body) w o1 w1 r w4 G1 C1 I H4) as (w5 & H5 & G5).
    exists w5. split; [exact H5|]. split; [|exact G5]. eapply chdir_back; [exact G2|exact C3].
  Qed.

  (** A temporary directory is current in the body, and is removed afterwards, whatever the
      outcome of the body; then the original directory is current again. *)
  Hypothesis rmtree_removes : forall p w w', rmtree p w = (Ok tt, w') -> exists_ p w' = false.
  Hypothesis chdir_keeps : forall p q w w', chdir p w = (Ok tt, w') -> exists_ q w' = exists_ q w.
  Theorem C85_temporary_directory prefix (body : text -> W -> res B * W) w original p w1 w2 r w3 w4 :
    getcwd w = Ok original -> mkdtemp prefix w = (Ok p, w1) -> p <> [] -> chdir p w1 = (Ok tt, w2) -> body p w2 = (r, w3) ->
    (exists_ p w3 = true -> rmtree p w3 = (Ok tt, w4)) -> (exists_ p w3 = false -> w4 = w3) -> can_enter original w4 ->
    exists w5, temporary_directory getcwd chdir exists_ mkdtemp rmtree prefix body w = (r, w5) /\
      exists_ p w5 = false /\ getcwd w5 = Ok original.
  Proof.
    intros Hg Hm Hp Hc Hb Hr1 Hr2 [He (w5 & Hw)]. exists w5.
    unfold temporary_directory, with_. rewrite Hg, Hm, Hc. cbn [snd]. rewrite Hb.
    destruct p as [|y p]; [contradiction|]. unfold back_to.
    destruct original as [|x o]; [exfalso; exact (cwd_named w Hg)|].
    destruct (exists_ (y :: p) w3) eqn:E3.
    - rewrite (Hr1 eq_refl), He, Hw. split; [reflexivity|]. split; [|eapply chdir_back; [exact Hg|exact Hw]].
      rewrite (chdir_keeps _ _ _ _ Hw). eapply rmtree_removes, Hr1; reflexivity.
    - rewrite (Hr2 eq_refl) in *. rewrite He, Hw. split; [reflexivity|]. split; [|eapply chdir_back; [exact Hg|exact Hw]].
      rewrite (chdir_keeps _ _ _ _ Hw). exact E3.
  Qed.
End Managers.

(** [redirected_stdio]: whatever the body does, stdout and stderr are the original objects
    afterwards and the outcome is that of the body. *)
Theorem C85_redirected_stdio {B} (body : nat -> nat -> stdio -> res B * stdio) s r s' :
  redirected_stdio body s = (r, s') ->
  sys_stdout s' = sys_stdout s /\ sys_stderr s' = sys_stderr s /\
  exists out err s2, out = List.length (contents s) /\ err = S out /\
    body out err {| sys_stdout := out; sys_stderr := err; contents := contents s ++ [[]; []] |} = (r, s2) /\
    contents s' = contents s2.
Proof.
  unfold redirected_stdio, with_. cbn [snd].
  destruct (body (List.length (contents s)) (S (List.length (contents s)))
      {| sys_stdout := List.length (contents s); sys_stderr := S (List.length (contents s)); contents := contents s ++ [[]; []] |})
    as [rb s2] eqn:E.
  intros H; injection H as <- <-. cbn. split; [reflexivity|]. split; [reflexivity|].
  eexists _, _, s2. split; [reflexivity|]. split; [reflexivity|]. split; [exact E|reflexivity].
Qed.

(** A concrete machine: the current directory, the directories that exist, and those that can
    not be entered or removed. *)
Record dirs := { d_cwd : text; d_all : list text; d_locked : list text }.
Definition d_getcwd (w : dirs) : res text := if mem (d_cwd w) (d_all w) && negb (eqb (d_cwd w) []) then Ok (d_cwd w) else Err OSError.
Definition d_chdir (p : text) (w : dirs) : res unit * dirs :=
  if mem p (d_all w) && negb (mem p (d_locked w)) && negb (eqb p [])
  then (Ok tt, {| d_cwd := p; d_all := d_all w; d_locked := d_locked w |}) else (Err OSError, w).
Definition d_exists (p : text) (w : dirs) : bool := mem p (d_all w).
Definition d_remove (p : text) (w : dirs) : res unit * dirs :=
  if mem p (d_locked w) then (Err OSError, w)
  else (Ok tt, {| d_cwd := d_cwd w; d_all := filter (fun q => negb (eqb q p)) (d_all w); d_locked := d_locked w |}).
Definition d_mkdtemp (locked : bool) (prefix : text) (w : dirs) : res text * dirs :=
  let p := u "/tmp/" ++ prefix ++ u "x" in
  (Ok p, {| d_cwd := d_cwd w; d_all := p :: d_all w; d_locked := (if locked then [p] else []) ++ d_locked w |}).
Definition d_start : dirs := {| d_cwd := u "/home"; d_all := [u "/home"; u "/tmp"]; d_locked := [] |}.
Definition d_lock (p : text) (w : dirs) : dirs := {| d_cwd := d_cwd w; d_all := d_all w; d_locked := p :: d_locked w |}.

(** Not restored: the current directory if the original one was deleted in the body; ... *)
Theorem C85_original_deleted_refuted :
  exists w, change_directory d_getcwd d_chdir d_exists (u "/tmp") (d_remove (u "/home")) d_start = (Ok tt, w) /\
    d_cwd w = u "/tmp".
Proof. eexists; split; [vm_compute; reflexivity|reflexivity]. Qed.
(** ... the temporary directory stays if it can not be entered; ... *)
Theorem C85_leak_refuted :
  exists w, temporary_directory d_getcwd d_chdir d_exists (d_mkdtemp true) d_remove (u "a") (fun _ w => (Ok tt, w)) d_start
              = (Err OSError, w) /\ d_exists (u "/tmp/ax") w = true.
Proof. eexists; split; [vm_compute; reflexivity|reflexivity]. Qed.
(** ... and if it can not be removed, the exception of the body is lost and the current
    directory is not restored. *)
Theorem C85_removal_fails_refuted :
  exists w, temporary_directory d_getcwd d_chdir d_exists (d_mkdtemp false) d_remove (u "a")
              (fun p w => (Err (A := unit) ValueError, d_lock p w)) d_start
              = (Err OSError, w) /\ d_cwd w = u "/tmp/ax".
Proof. eexists; split; [vm_compute; reflexivity|reflexivity]. Qed.
(** The default directory of [change_directory] is the empty path, which can not be entered. *)
Theorem C85_default_directory_refuted (body : dirs -> res unit * dirs) w :
  exists e w', change_directory d_getcwd d_chdir d_exists [] body w = (Err e, w').
Proof.
  unfold change_directory, with_. destruct (d_getcwd w) as [o|e]; [|eauto].
  assert (E : d_chdir [] w = (Err OSError, w)); [|rewrite E; eauto].
  unfold d_chdir. rewrite eqb_refl, andb_false_r. reflexivity.
Qed.

(** The hypotheses of the theorems hold of this machine. *)
Example C85_nonvacuous :
  (forall p w0 w w', d_getcwd w0 = Ok p -> d_chdir p w = (Ok tt, w') -> d_getcwd w' = Ok p) /\
  (forall w, d_getcwd w <> Ok []) /\
  (forall p w w', d_remove p w = (Ok tt, w') -> d_exists p w' = false) /\
  (forall p q w w', d_chdir p w = (Ok tt, w') -> d_exists q w' = d_exists q w) /\
  (exists w, temporary_directory d_getcwd d_chdir d_exists (d_mkdtemp false) d_remove (u "a")
              (fun p w => (Err (A := unit) ValueError, w)) d_start = (Err ValueError, w) /\
     d_cwd w = u "/home" /\ d_exists (u "/tmp/ax") w = false).
Proof.
  split; [|split; [|split; [|split]]].
  - intros p w0 w w' _. unfold d_chdir, d_getcwd.
    destruct (mem p (d_all w)) eqn:E; cbn [andb]; [|discriminate].
    destruct (negb (mem p (d_locked w))); cbn [andb]; [|discriminate].
    destruct (negb (eqb p [])) eqn:E2; [|discriminate].
    intros H; injection H as <-. cbn [d_cwd d_all]. rewrite E, E2. reflexivity.
  - intros w. unfold d_getcwd. destruct (mem (d_cwd w) (d_all w)); cbn [andb]; [|discriminate].
    destruct (eqb_spec (d_cwd w) []) as [Hn|Hn]; cbn [negb]; [discriminate|]. congruence.
  - intros p w w'. unfold d_remove, d_exists. destruct (mem p (d_locked w)); [discriminate|].
    intros H; injection H as <-. cbn [d_all]. apply mem_not_In. rewrite filter_In. intros [_ D].
    rewrite eqb_refl in D. discriminate D.
  - intros p q w w'. unfold d_chdir, d_exists. destruct (_ && _ && _); [|discriminate]. intros H; injection H as <-. reflexivity.
  - eexists; split; [vm_compute; reflexivity|]. split; vm_compute; reflexivity.
Qed.

Print Assumptions C84_chain_shown.
Print Assumptions C84_no_tracebacks.
Print Assumptions C84_unchained.
Print Assumptions C84_cycle_never_ends.
Print Assumptions C84_created_chains_end.
Print Assumptions C84_chaining_keeps_causes.
Print Assumptions C85_change_directory.
Print Assumptions C85_not_entered.
Print Assumptions C85_nested.
Print Assumptions C85_temporary_directory.
Print Assumptions C85_redirected_stdio.
Print Assumptions C85_original_deleted_refuted.
Print Assumptions C85_leak_refuted.
Print Assumptions C85_removal_fails_refuted.
Print Assumptions C85_default_directory_refuted.
Print Assumptions C86_indent_lines.
Print Assumptions C86_any_text.
Print Assumptions C86_nested.
Print Assumptions C87_round_trip.
Print Assumptions C87_injective.
Print Assumptions C87_concatenation.
Print Assumptions C87_ascii.
Print Assumptions C87_strict.
Print Assumptions C87_bytes_refuted.
Print Assumptions C88_streams.
Print Assumptions C88_returns.
Print Assumptions C88_error_exit.
Print Assumptions C88_settings.
Print Assumptions C88_later_settings_partial.
Print Assumptions C88_second_command_refuted.
