(** C133: command lines as they are typed. *)
From Coq Require Import Lia.
From Verif Require Import Base Dict PyVal Sources Paths ConfigProofs Config XylemConfig CommandLine Argv.
From Verif Require CacheProofs PropCommandLine Commands PropCommands.
Notation S := Datatypes.S.

(** ** Specification *)
(** The strings of a parser: distinct, a dash and one more character or two dashes and more, without [=]. *)
Definition wf_strings (l : list (text * opt)) : Prop :=
  NoDup (map fst l) /\
  Forall (fun p => exists c r, fst p = 45%N :: c :: r /\ fst p <> u "--" /\ ~ In 61%N (fst p)) l /\
  Forall (fun p => List.length (fst p) = 2 \/ exists r, fst p = u "--" ++ r) l.

(** What cannot be taken for an option: a word that does not begin with a dash, and [-]. *)
Definition value_word (v : text) : Prop := v = u "-" \/ forall r, v <> 45%N :: r.

(** The word names the option: its string, or the beginning of a long string if no other string begins like this. *)
Inductive names (l : list (text * opt)) : text -> opt -> Prop :=
| names_exact s o : In (s, o) l -> names l s o
| names_abbreviated a s o c r r' : In (s, o) l -> a = u "--" ++ c :: r -> ~ In 61%N a -> s = a ++ r' ->
    (forall s' o' r'', In (s', o') l -> s' = a ++ r'' -> s' = s) -> names l a o.

(** How options are written. *)
Inductive written (l : list (text * opt)) : list occurrence -> list text -> Prop :=
| wr_flag a o : names l a o -> takes_value o = false -> written l [(o_flag o, None)] [a]
| wr_equals a o v r : names l a o -> takes_value o = true -> a = u "--" ++ r -> written l [(o_flag o, Some v)] [a ++ 61%N :: v]
| wr_next a o v : names l a o -> takes_value o = true -> value_word v -> written l [(o_flag o, Some v)] [a; v]
| wr_letters x y xs o o' os : In ([45%N; x], o) l -> In ([45%N; y], o') l -> Forall2 (fun x o => In ([45%N; x], o) l) xs os ->
    Forall (fun o => takes_value o = false) (o :: o' :: os) -> x <> 45%N ->
    (forall s o r, In (s, o) l -> s <> (45%N :: x :: y :: xs) ++ r) ->
    written l (map (fun o => (o_flag o, None)) (o :: o' :: os)) [45%N :: x :: y :: xs].

(** The strings of the main parser are also those of the command, and no string of the command is the beginning of
    several strings of the main parser, of which it is none. *)
Definition compatible (top sub : list (text * opt)) : Prop :=
  incl top sub /\
  (forall s o, In (s, o) sub -> In s (map fst top) \/
     forall s1 o1 r1 s2 o2 r2, In (s1, o1) top -> In (s2, o2) top -> s1 = s ++ r1 -> s2 = s ++ r2 -> s1 = s2).

(** ** Proofs *)
Lemma prefix_app p s : is_prefix p s = true <-> exists r, s = p ++ r.
Proof.
  revert s; induction p as [|a p IH]; intros s; cbn [is_prefix]; [split; [intros _; exists s; reflexivity|intros _; reflexivity]|].
  destruct s as [|b s]; [split; [discriminate|intros [r E]; discriminate]|].
  rewrite andb_true_iff, IH; split.
  - intros [E (r & ->)]; destruct (eqb_spec a b) as [->|]; [exists r; reflexivity|discriminate].
  - intros (r & E); injection E as -> ->; split; [apply eqb_refl|eauto].
Qed.

Section Strings.
  Variable l : list (text * opt).
  Hypothesis Hl : wf_strings l.

  Lemma strings_get s o : In (s, o) l -> get s l = Some o.
  Proof. apply In_get, Hl. Qed.
  Lemma strings_same s o o' : In (s, o) l -> In (s, o') l -> o = o'.
  Proof. intros H H'; apply strings_get in H; apply strings_get in H'; congruence. Qed.
  Lemma strings_shape s o : In (s, o) l -> exists c r, s = 45%N :: c :: r /\ s <> u "--" /\ ~ In 61%N s.
  Proof. destruct Hl as (_ & H & _); rewrite Forall_forall in H; intros Hi; exact (H _ Hi). Qed.

  Lemma filter_unique (f : text -> bool) k v : In (k, v) l -> f k = true ->
    (forall k' v', In (k', v') l -> f k' = true -> k' = k) -> filter (fun p => f (fst p)) l = [(k, v)].
  Proof.
    destruct Hl as [Hn _]; clear Hl; revert Hn; induction l as [|[k0 v0] l' IH]; intros Hn Hi Hf Hu; [destruct Hi|].
    cbn [map fst] in Hn; inversion Hn as [|? ? Hk Hn']; subst; cbn [filter fst].
    destruct Hi as [E|Hi].
    - injection E as -> ->; rewrite Hf; f_equal.
      assert (E : forall q, In q l' -> f (fst q) = false).
      { intros [k' v'] Hq; cbn [fst]; destruct (f k') eqn:Ef; [exfalso|reflexivity].
        apply Hk; rewrite <- (Hu k' v' (or_intror Hq) Ef); apply (in_map fst _ _ Hq). }
      clear -E; induction l' as [|q l' IH]; [reflexivity|]; cbn [filter]; rewrite (E q (or_introl eq_refl)).
      apply IH; intros; apply E; right; assumption.
    - destruct (f k0) eqn:Ef.
      + exfalso; apply Hk; rewrite (Hu k0 v0 (or_introl eq_refl) Ef); apply (in_map fst _ _ Hi).
      + apply IH; [exact Hn'|exact Hi|exact Hf|intros k' v' Hq; apply (Hu k' v'); right; exact Hq].
  Qed.

  Lemma classify_dash c r : classify l (45%N :: c :: r) =
    match get (45%N :: c :: r) l with
    | Some o => Opt (45%N :: c :: r) (Some o) None
    | None =>
      match (match split_once equals_sign (45%N :: c :: r) with
             | Some (a, b) => match get a l with Some o => Some (Opt a (Some o) (Some b)) | None => None end
             | None => None
             end) with
      | Some k => k
      | None =>
        match candidates l c (45%N :: c :: r) with
        | [k] => k
        | _ :: _ :: _ => Ambiguous
        | [] => if negative_number (c :: r) then Plain
                else if existsb (eqb 32%N) (45%N :: c :: r) then Plain
                else Opt (45%N :: c :: r) None None
        end
      end
    end.
  Proof. reflexivity. Qed.

  Lemma names_word a o : names l a o -> exists c r, a = 45%N :: c :: r /\ a <> [dash; dash] /\ ~ In 61%N a.
  Proof.
    intros [s o' H|a' s o' c r r' H Ea Hq Es Hu]; [exact (strings_shape s o' H)|].
    exists 45%N, (c :: r); split; [exact Ea|split; [|exact Hq]]; rewrite Ea; discriminate.
  Qed.

  Lemma classify_name a o : names l a o -> exists s, classify l a = Opt s (Some o) None.
  Proof.
    intros [s o' H|a' s o' c r r' H Ea Hq Es Hu].
    - destruct (strings_shape s o' H) as (c & r & -> & _); rewrite classify_dash, (strings_get _ _ H); eauto.
    - change (u "--" ++ c :: r) with (45%N :: 45%N :: c :: r) in Ea.
      rewrite Ea, classify_dash, <- Ea; destruct (get a' l) as [o2|] eqn:Eg.
      + apply get_In in Eg; assert (E : a' = s) by (apply (Hu a' o2 []); [exact Eg|rewrite app_nil_r; reflexivity]).
        rewrite E in Eg; rewrite (strings_same s o' o2 H Eg); eauto.
      + rewrite (proj2 (split_once_None equals_sign a') Hq); unfold candidates; rewrite (proj2 (split_once_None equals_sign a') Hq).
        change (eqb 45%N dash) with true; cbv iota.
        rewrite (filter_unique (is_prefix a') s o' H); [cbn [map fst snd]; eauto|apply prefix_app; eauto|].
        intros k' v' Hk Hp; apply prefix_app in Hp; destruct Hp as (r2 & Er); exact (Hu k' v' r2 Hk Er).
  Qed.

  Lemma no_equals_get a v : get (a ++ 61%N :: v) l = None.
  Proof.
    destruct (get (a ++ 61%N :: v) l) as [o|] eqn:E; [|reflexivity]; apply get_In in E; exfalso.
    destruct (strings_shape _ _ E) as (_ & _ & _ & _ & H); apply H, in_or_app; right; left; reflexivity.
  Qed.

  Lemma classify_equals a o v r : names l a o -> a = u "--" ++ r ->
    exists s, classify l (a ++ 61%N :: v) = Opt s (Some o) (Some v).
  Proof.
    intros Hn Ea; destruct (names_word a o Hn) as (_ & _ & _ & _ & Hq).
    change (u "--" ++ r) with (45%N :: 45%N :: r) in Ea.
    assert (Ew : a ++ 61%N :: v = 45%N :: 45%N :: (r ++ 61%N :: v)) by (rewrite Ea; reflexivity).
    assert (Esp : split_once equals_sign (a ++ 61%N :: v) = Some (a, v)) by (apply split_once_app; exact Hq).
    rewrite Ew, classify_dash, <- Ew, no_equals_get, Esp.
    destruct (get a l) as [o2|] eqn:Eg.
    - apply get_In in Eg; destruct Hn as [s o' H|a' s o' c r2 r' H Ea' _ Es Hu].
      + rewrite (strings_same s o' o2 H Eg); eauto.
      + assert (E : a' = s) by (apply (Hu a' o2 []); [exact Eg|rewrite app_nil_r; reflexivity]).
        rewrite E in Eg; rewrite (strings_same s o' o2 H Eg); eauto.
    - destruct Hn as [s o' H|a' s o' c r2 r' H Ea' _ Es Hu]; [rewrite (strings_get _ _ H) in Eg; discriminate|].
      unfold candidates; change (eqb 45%N dash) with true; cbv iota; rewrite Esp.
      rewrite (filter_unique (is_prefix a') s o' H); [cbn [map fst snd]; eauto|apply prefix_app; eauto|].
      intros k' v' Hk Hp; apply prefix_app in Hp; destruct Hp as (r3 & Er); exact (Hu k' v' r3 Hk Er).
  Qed.

  Lemma classify_value v : value_word v -> classify l v = Plain.
  Proof.
    intros [->|H].
    - unfold classify, u; cbn; destruct (get [45%N] l) as [o|] eqn:E; [|reflexivity].
      apply get_In in E; destruct (strings_shape _ _ E) as (c & r & Es & _); discriminate.
    - destruct v as [|x v]; [reflexivity|]; cbn [classify]; destruct (eqb_spec x dash) as [->|Hx]; [destruct (H v eq_refl)|reflexivity].
  Qed.
  Lemma value_not_sep v : value_word v -> eqb v [dash; dash] = false.
  Proof.
    intros Hv; destruct (eqb_spec v [dash; dash]) as [->|]; [|reflexivity].
    destruct Hv as [E|H]; [discriminate|destruct (H [45%N] eq_refl)].
  Qed.

  Lemma classify_letters x y xs o : In ([45%N; x], o) l -> x <> 45%N -> ~ In 61%N (45%N :: x :: y :: xs) ->
    (forall s o r, In (s, o) l -> s <> (45%N :: x :: y :: xs) ++ r) ->
    classify l (45%N :: x :: y :: xs) = Opt [45%N; x] (Some o) (Some (y :: xs)).
  Proof.
    intros Hx Hd Hq Hp; set (w := 45%N :: x :: y :: xs) in *; unfold w at 1; rewrite classify_dash; fold w.
    assert (Eg : get w l = None).
    { destruct (get w l) as [o'|] eqn:E; [|reflexivity]; apply get_In in E; destruct (Hp w o' [] E); rewrite app_nil_r; reflexivity. }
    rewrite Eg, (proj2 (split_once_None equals_sign w) Hq); unfold candidates.
    destruct (eqb_spec x dash) as [|_]; [contradiction|].
    replace (flat_map _ l) with (map (fun p => Opt (fst p) (Some (snd p)) (Some (y :: xs))) (filter (fun p => eqb (fst p) [45%N; x]) l)).
    - rewrite (filter_unique (fun k => eqb k [45%N; x]) [45%N; x] o Hx); [reflexivity|apply eqb_refl|].
      intros k' v' _ E; destruct (eqb_spec k' [45%N; x]); [assumption|discriminate].
    - clear Hx Eg Hl; unfold w at 1 2; cbn [firstn skipn]; fold w; induction l as [|[s o'] l' IH]; [reflexivity|]; cbn [filter flat_map fst snd].
      destruct (eqb_spec s [45%N; x]) as [->|Hs]; cbn [map fst snd app].
      + f_equal; apply IH; intros s o2 r Hi; apply (Hp s o2); right; exact Hi.
      + destruct (is_prefix w s) eqn:E; [apply prefix_app in E; destruct E as (r & E); destruct (Hp s o' r (or_introl eq_refl) E)|].
        apply IH; intros s' o2 r Hi; apply (Hp s' o2); right; exact Hi.
  Qed.

  Lemma letters_run xs os : Forall2 (fun x o => In ([45%N; x], o) l) xs os -> forall x y o o',
    In ([45%N; x], o) l -> In ([45%N; y], o') l -> Forall (fun o => takes_value o = false) (o :: o' :: os) ->
    exists init o2, o :: o' :: os = init ++ [o2] /\ takes_value o2 = false /\
      explicit_value l [45%N; x] o (y :: xs) = Ok (map (fun o => (o_flag o, None)) init, Some o2).
  Proof.
    intros Hxs; induction Hxs as [|x0 o0 xs os Hx0 Hxs IH]; intros x y o o' Hx Hy Ht;
      inversion Ht as [|? ? Ho Ht']; subst; inversion Ht' as [|? ? Ho' Ht'']; subst.
    - exists [o], o'; split; [reflexivity|split; [exact Ho'|]]; cbn [explicit_value]; rewrite Ho.
      destruct (eqb_spec x dash) as [->|_].
      + destruct (strings_shape _ _ Hx) as (_ & _ & _ & H & _); destruct (H eq_refl).
      + change dash with 45%N; rewrite (strings_get _ _ Hy); reflexivity.
    - destruct (IH y x0 o' o0 Hy Hx0 Ht') as (init & o2 & E & H2 & R); exists (o :: init), o2; split; [rewrite E; reflexivity|].
      split; [exact H2|]; remember (x0 :: xs) as rest; cbn [explicit_value]; rewrite Ho.
      destruct (eqb_spec x dash) as [->|_].
      + destruct (strings_shape _ _ Hx) as (_ & _ & _ & H & _); destruct (H eq_refl).
      + change dash with 45%N; rewrite (strings_get _ _ Hy), R; subst rest; reflexivity.
  Qed.

  (** One written option (or group of letters) is consumed as a whole. *)
  Lemma written_spec occs ws : written l occs ws ->
    exists s o ex w t, ws = w :: map fst t /\
      (forall r, classify_all l (ws ++ r) = bind (classify_all l r) (fun r' => Ok ((w, Opt s (Some o) ex) :: t ++ r'))) /\
      Forall (fun q => snd q = Plain) t /\
      (forall r, consume_optional l s o ex (t ++ r) = Ok (occs, r)).
  Proof.
    intros [a o Hn Ht|a o v r Hn Ht Ea|a o v Hn Ht Hv|x y xs o o' os Hx Hy Hxs Ht Hd Hp].
    - destruct (names_word a o Hn) as (_ & _ & _ & Hs & _); destruct (classify_name a o Hn) as (s & E).
      exists s, o, None, a, []; split; [reflexivity|split; [|split; [constructor|]]].
      + intros r; cbn [app classify_all]; destruct (eqb_spec a [dash; dash]) as [|_]; [contradiction|]; rewrite E; reflexivity.
      + intros r; unfold consume_optional; cbn [bind fst snd app]; rewrite Ht; reflexivity.
    - destruct (classify_equals a o v r Hn Ea) as (s & E).
      exists s, o, (Some v), (a ++ 61%N :: v), []; split; [reflexivity|split; [|split; [constructor|]]].
      + intros r'; cbn [app classify_all]; destruct (eqb_spec (a ++ 61%N :: v) [dash; dash]) as [E'|_].
        * exfalso; assert (In 61%N [dash; dash]) as [H|[H|[]]] by (rewrite <- E'; apply in_or_app; right; left; reflexivity); discriminate.
        * rewrite E; reflexivity.
      + intros r'; unfold consume_optional.
        replace (explicit_value l s o v) with (Ok (A := list occurrence * option opt) ([(o_flag o, Some v)], None)).
        * reflexivity.
        * destruct v; cbn [explicit_value]; rewrite Ht; reflexivity.
    - destruct (names_word a o Hn) as (_ & _ & _ & Hs & _); destruct (classify_name a o Hn) as (s & E).
      exists s, o, None, a, [(v, Plain)]; split; [reflexivity|split; [|split; [repeat constructor|]]].
      + intros r; cbn [app classify_all]; destruct (eqb_spec a [dash; dash]) as [|_]; [contradiction|].
        rewrite E, (value_not_sep v Hv), (classify_value v Hv); destruct (classify_all l r); reflexivity.
      + intros r; unfold consume_optional; cbn [bind fst snd app]; rewrite Ht; reflexivity.
    - assert (Hq : ~ In 61%N (45%N :: x :: y :: xs)).
      { assert (Hc : forall z oz, In ([45%N; z], oz) l -> z <> 61%N).
        { intros z oz Hz ->; destruct (strings_shape _ _ Hz) as (_ & _ & _ & _ & H); apply H; right; left; reflexivity. }
        intros [H|[H|[H|H]]]; [discriminate|exact (Hc x o Hx H)|exact (Hc y o' Hy H)|].
        clear -Hxs H Hc; induction Hxs as [|z oz xs os Hz Hxs IH]; [destruct H|]; destruct H as [H|H]; [exact (Hc z oz Hz H)|exact (IH H)]. }
      destruct (letters_run xs os Hxs x y o o' Hx Hy Ht) as (init & o2 & E & H2 & R).
      exists [45%N; x], o, (Some (y :: xs)), (45%N :: x :: y :: xs), []; split; [reflexivity|split; [|split; [constructor|]]].
      + intros r; cbn [app]; cbn [classify_all]; replace (eqb (45%N :: x :: y :: xs) [dash; dash]) with false.
        * rewrite (classify_letters x y xs o Hx Hd Hq Hp); reflexivity.
        * symmetry; destruct (eqb_spec (45%N :: x :: y :: xs) [dash; dash]); [discriminate|reflexivity].
      + intros r; unfold consume_optional; rewrite R; cbn [bind fst snd app]; rewrite H2, E, map_app; reflexivity.
  Qed.

  (** Enough fuel is enough. *)
  Lemma span_app {A} (f : A -> bool) (ws : list A) : let (a, b) := span f ws in ws = a ++ b.
  Proof. induction ws as [|x ws IH]; cbn [span]; [reflexivity|]; destruct (f x); [destruct (span f ws); cbn [app]; congruence|reflexivity]. Qed.
  Lemma span_length {A} (f : A -> bool) (ws : list A) : List.length (snd (span f ws)) <= List.length ws.
  Proof. pose proof (span_app f ws) as H; destruct (span f ws); rewrite H, app_length; cbn [snd]; lia. Qed.

  Lemma consume_shorter s o ex r occs r' : consume_optional l s o ex r = Ok (occs, r') -> List.length r' <= List.length r.
  Proof.
    clear; unfold consume_optional; intros H; apply bind_Ok in H; destruct H as ([a [o'|]] & _ & H); cbn [fst snd] in H.
    - destruct (takes_value o'); [|injection H as _ <-; lia].
      destruct r as [|[w [| | |]] r]; try discriminate; injection H as _ <-; cbn [List.length]; lia.
    - injection H as _ <-; lia.
  Qed.
  Lemma positionals_shorter pos ws v r : consume_positionals pos ws = Some (v, r) -> List.length r < List.length ws.
  Proof.
    clear; unfold consume_positionals; destruct pos; [discriminate| | |].
    - pose proof (span_app is_sep ws) as E; destruct (span is_sep ws) as [a b]; rewrite E, app_length; destruct b as [|[w [| | |]] b]; try discriminate.
      pose proof (span_length is_sep b) as H; destruct (span is_sep b); cbn [snd List.length] in *; intros Q; injection Q as _ <-; lia.
    - pose proof (span_app (fun p => negb (is_opt p)) ws) as E; destruct (span _ ws) as [a b]; rewrite E, app_length.
      destruct a as [|x a]; [discriminate|]; destruct (existsb is_plain (x :: a)); [|discriminate].
      intros Q; injection Q as _ <-; cbn [List.length]; lia.
    - pose proof (span_app is_sep ws) as E; destruct (span is_sep ws) as [a b]; rewrite E, app_length; destruct b as [|[w [| | |]] b]; try discriminate.
      intros Q; injection Q as _ <-; cbn [List.length]; lia.
  Qed.

  Lemma parse_words_fuel : forall n m pos ws, List.length ws < n -> List.length ws < m ->
    parse_words l n pos ws = parse_words l m pos ws.
  Proof.
    clear Hl; induction n as [|n IH]; intros m pos ws Hn Hm; [lia|]; destruct m as [|m]; [lia|]; cbn [parse_words].
    destruct (existsb is_opt ws) eqn:Eo; [|reflexivity].
    assert (G : forall ws', List.length ws' < List.length ws -> forall pos, parse_words l n pos ws' = parse_words l m pos ws')
      by (intros ws' Hw pos'; apply IH; lia).
    assert (K : match consume_positionals pos ws with
                | Some (values, r) => EvArgs values :: parse_words l n NoPos r
                | None => let (skipped, r) := span (fun p => negb (is_opt p)) ws in
                    map (fun p => EvExtra (fst p)) skipped ++ parse_words l n pos r
                end = match consume_positionals pos ws with
                | Some (values, r) => EvArgs values :: parse_words l m NoPos r
                | None => let (skipped, r) := span (fun p => negb (is_opt p)) ws in
                    map (fun p => EvExtra (fst p)) skipped ++ parse_words l m pos r
                end \/ exists q ws', ws = q :: ws' /\ is_opt q = true).
    { destruct ws as [|q ws']; [discriminate|]; destruct (is_opt q) eqn:Eq; [right; eauto|left].
      destruct (consume_positionals pos (q :: ws')) as [[v r]|] eqn:Ec.
      - f_equal; apply G, (positionals_shorter _ _ _ _ Ec).
      - cbn [span]; rewrite Eq; cbn [negb]; pose proof (span_length (fun p => negb (is_opt p)) ws') as Hs.
        destruct (span _ ws') as [a b]; cbn [snd] in Hs; f_equal; apply G; cbn [List.length]; lia. }
    destruct ws as [|[w k] ws']; [discriminate|]; destruct k as [| |s [o|] ex|].
    - destruct K as [K|(q & ws2 & E & Hq)]; [exact K|injection E as <- _; discriminate].
    - destruct K as [K|(q & ws2 & E & Hq)]; [exact K|injection E as <- _; discriminate].
    - destruct (consume_optional l s o ex ws') as [[occs r]|e] eqn:Ec; [|reflexivity].
      apply consume_shorter in Ec; f_equal; apply G; cbn [List.length]; lia.
    - f_equal; apply G; cbn [List.length]; lia.
    - destruct K as [K|(q & ws2 & E & Hq)]; [exact K|injection E as <- _; discriminate].
  Qed.

  (** ** Several options, keys *)
  Definition parse (pos : positional) (ws : list (text * word_class)) : list event := parse_words l (S (List.length ws)) pos ws.

  Definition starts_opt (ws : list (text * word_class)) : Prop := ws = [] \/ exists q t, ws = q :: t /\ is_opt q = true.

  Lemma parse_none : parse NoPos [] = [].
  Proof. reflexivity. Qed.

  Lemma parse_option n pos w s o ex r occs r' : consume_optional l s o ex r = Ok (occs, r') ->
    parse_words l (S n) pos ((w, Opt s (Some o) ex) :: r) = map EvOpt occs ++ parse_words l n pos r'.
  Proof.
    intros E; cbn [parse_words existsb]; change (is_opt (w, Opt s (Some o) ex)) with true; cbn [orb]; rewrite E; reflexivity.
  Qed.

  Lemma parse_argument n pos w r v r' : consume_positionals pos ((w, Plain) :: r) = Some (v, r') ->
    parse_words l (S n) pos ((w, Plain) :: r) =
      EvArgs v :: (if existsb is_opt ((w, Plain) :: r) then parse_words l n NoPos r' else map (fun p => EvExtra (fst p)) r').
  Proof. intros E; cbn [parse_words]; destruct (existsb is_opt ((w, Plain) :: r)); rewrite E; reflexivity. Qed.

  Lemma written_all occss wss : Forall2 (written l) occss wss -> exists cls,
    (forall r, classify_all l (List.concat wss ++ r) = bind (classify_all l r) (fun r' => Ok (cls ++ r'))) /\
    (forall pos r, parse pos (cls ++ r) = map EvOpt (List.concat occss) ++ parse pos r) /\ starts_opt cls.
  Proof.
    intros H; induction H as [|occs ws occss wss Hw Hws (cls & I1 & I2 & I3)].
    - exists []; split; [|split; [reflexivity|left; reflexivity]]; intros r; cbn [List.concat app]; destruct (classify_all l r); reflexivity.
    - destruct (written_spec occs ws Hw) as (s & o & ex & w & t & Ew & E1 & _ & E3).
      exists ((w, Opt s (Some o) ex) :: t ++ cls); split; [|split].
      + intros r; cbn [List.concat]; rewrite <- app_assoc, E1, I1; destruct (classify_all l r) as [r'|e]; [|reflexivity].
        cbn [bind app]; rewrite <- app_assoc; reflexivity.
      + intros pos r; cbn [List.concat app]; rewrite map_app, <- !app_assoc, <- I2; unfold parse at 1.
        rewrite (parse_option _ _ _ _ _ _ _ _ _ (E3 (cls ++ r))); f_equal.
        apply parse_words_fuel; cbn [List.length]; rewrite ?app_length; lia.
      + right; do 2 eexists; split; reflexivity.
  Qed.

  Definition plain (keys : list text) : list (text * word_class) := map (fun k => (k, Plain)) keys.
  Lemma classify_keys keys r : Forall value_word keys ->
    classify_all l (keys ++ r) = bind (classify_all l r) (fun r' => Ok (plain keys ++ r')).
  Proof.
    induction 1 as [|k keys Hk Hks IH]; cbn [app plain map]; [destruct (classify_all l r); reflexivity|].
    cbn [classify_all]; rewrite (value_not_sep k Hk), (classify_value k Hk), IH; destruct (classify_all l r); reflexivity.
  Qed.

  (** What the command takes: one or more keys, one file, or nothing. *)
  Definition accepted (pos : positional) (keys : list text) : Prop :=
    (pos = ManyPos /\ keys <> []) \/ (pos = OnePos /\ List.length keys = 1) \/ (pos = NoPos /\ keys = []).

  Lemma no_sep keys : Forall value_word keys -> without_sep keys = keys.
  Proof. induction 1 as [|k keys Hk Hks IH]; cbn [without_sep]; [reflexivity|]; rewrite (value_not_sep k Hk), IH; reflexivity. Qed.

  Lemma parse_keys pos keys r : accepted pos keys -> Forall value_word keys -> starts_opt r ->
    parse pos (plain keys ++ r) = (match keys with [] => [] | _ => [EvArgs keys] end) ++ parse NoPos r.
  Proof.
    intros Ha Hk Hr; destruct keys as [|k keys].
    { destruct Ha as [[_ H]|[[_ H]|[-> _]]]; [congruence|discriminate|reflexivity]. }
    assert (Hp : pos <> NoPos) by (destruct Ha as [[-> _]|[[-> _]|[_ H]]]; congruence).
    assert (Ec : consume_positionals pos (plain (k :: keys) ++ r) = Some (k :: keys, r)).
    { destruct Ha as [[-> _]|[[-> H]|[_ H]]]; [| |discriminate].
      - unfold consume_positionals; replace (span (fun p => negb (is_opt p)) (plain (k :: keys) ++ r)) with (plain (k :: keys), r).
        + change (existsb is_plain (plain (k :: keys))) with true; cbv iota; unfold plain; rewrite map_map; cbn [fst]; rewrite map_id.
          rewrite (no_sep _ Hk); reflexivity.
        + clear -Hr; induction (k :: keys) as [|x ks IH]; cbn [plain map app].
          * destruct Hr as [->|(q & t & -> & Hq)]; [reflexivity|]; cbn [span]; rewrite Hq; reflexivity.
          * cbn [span]; change (negb (is_opt (x, Plain))) with true; cbv iota; unfold plain in IH; rewrite <- IH; reflexivity.
      - destruct keys; [|discriminate]; unfold consume_positionals; cbn [plain map app span]; change (is_sep (k, Plain)) with false; cbv iota beta.
        replace (span is_sep r) with (@nil (text * word_class), r).
        + cbn [map fst app]; rewrite (no_sep _ Hk); reflexivity.
        + destruct Hr as [->|([w q] & t & -> & Hq)]; [reflexivity|]; cbn [span]; destruct q; try discriminate; reflexivity. }
    unfold parse at 1; cbn [plain map app List.length] in *; rewrite (parse_argument _ _ _ _ _ _ Ec); cbn [app]; f_equal.
    destruct (existsb is_opt _) eqn:Eo.
    - apply parse_words_fuel; cbn [List.length]; rewrite ?app_length, ?map_length; lia.
    - destruct Hr as [->|(q & t & -> & Hq)]; [reflexivity|]; cbn [existsb] in Eo.
      rewrite existsb_app in Eo; cbn [existsb] in Eo; rewrite Hq in Eo; rewrite !orb_true_r in Eo; discriminate.
  Qed.

  (** The words of a command: options, keys, options. *)
  Lemma command_events pos occs1 ws1 keys occs2 ws2 : Forall2 (written l) occs1 ws1 -> Forall2 (written l) occs2 ws2 ->
    accepted pos keys -> Forall value_word keys ->
    events l pos (List.concat ws1 ++ keys ++ List.concat ws2) =
      map EvOpt (List.concat occs1) ++ (match keys with [] => [] | _ => [EvArgs keys] end) ++ map EvOpt (List.concat occs2).
  Proof.
    intros H1 H2 Ha Hk; destruct (written_all _ _ H1) as (c1 & A1 & B1 & _); destruct (written_all _ _ H2) as (c2 & A2 & B2 & C2).
    specialize (A2 []); rewrite app_nil_r in A2; cbn [classify_all bind] in A2; rewrite app_nil_r in A2.
    unfold events; rewrite A1, (classify_keys keys _ Hk), A2; cbn [bind]; fold (parse pos (c1 ++ plain keys ++ c2)).
    rewrite B1, (parse_keys pos keys c2 Ha Hk C2); specialize (B2 NoPos []); rewrite app_nil_r, parse_none, app_nil_r in B2; rewrite B2; reflexivity.
  Qed.

  (** Options, [--], keys of any form. *)
  Lemma separated_events pos occs1 ws1 keys : Forall2 (written l) occs1 ws1 -> accepted pos keys -> keys <> [] ->
    events l pos (List.concat ws1 ++ u "--" :: keys) = map EvOpt (List.concat occs1) ++ [EvArgs keys].
  Proof.
    intros H1 Ha Hk; destruct (written_all _ _ H1) as (c1 & A1 & B1 & _).
    assert (E : classify_all l (u "--" :: keys) = Ok ((u "--", Sep) :: plain keys)) by reflexivity.
    unfold events; rewrite A1, E; cbn [bind]; fold (parse pos (c1 ++ (u "--", Sep) :: plain keys)); rewrite B1; f_equal.
    unfold parse; cbn [parse_words existsb]; change (is_opt (u "--", Sep)) with false; cbn [orb].
    assert (Eo : existsb is_opt (plain keys) = false) by (clear; induction keys; auto); rewrite Eo.
    assert (Ec : consume_positionals pos ((u "--", Sep) :: plain keys) = Some (keys, [])).
    { destruct Ha as [[-> _]|[[-> H]|[_ H]]]; [| |contradiction].
      - unfold consume_positionals; assert (Es : span (fun p => negb (is_opt p)) ((u "--", Sep) :: plain keys) = ((u "--", Sep) :: plain keys, [])).
        { cbn [span]; change (negb (is_opt (u "--", Sep))) with true; cbv iota.
          assert (G : span (fun p => negb (is_opt p)) (plain keys) = (plain keys, [])) by (clear; induction keys as [|k ks IH]; [reflexivity|cbn; unfold plain in IH; rewrite IH; reflexivity]).
          rewrite G; reflexivity. }
        rewrite Es; destruct keys as [|k ks]; [contradiction|]; cbn [existsb plain map]; change (is_plain (u "--", Sep)) with false.
        change (is_plain (k, Plain)) with true; cbn [orb map fst].
        assert (F : forall ks, map fst (map (fun k : text => (k, Plain)) ks) = ks) by (clear; intros ks; rewrite map_map; apply map_id).
        rewrite F; reflexivity.
      - destruct keys as [|k [|k' ks]]; try discriminate; reflexivity. }
    rewrite Ec; reflexivity.
  Qed.

  (** The words of the main parser. *)
  Lemma top_events occs ws cmd rest rc : Forall2 (written l) occs ws -> value_word cmd -> classify_all l rest = Ok rc ->
    events l SubPos (List.concat ws ++ cmd :: rest) = map EvOpt (List.concat occs) ++ [EvArgs (cmd :: rest)].
  Proof.
    intros H1 Hc Hr; destruct (written_all _ _ H1) as (c1 & A1 & B1 & _).
    assert (Ef : map fst rc = rest).
    { clear -Hr; revert rc Hr; induction rest as [|w rest IH]; cbn [classify_all]; intros rc Hr; [injection Hr as <-; reflexivity|].
      destruct (eqb w [dash; dash]); [injection Hr as <-; cbn [map fst]; rewrite map_map; cbn [fst]; rewrite map_id; reflexivity|].
      destruct (classify l w); try discriminate; apply bind_Ok in Hr; destruct Hr as (r' & E & Hr); injection Hr as <-; cbn [map fst];
        rewrite (IH r' E); reflexivity. }
    pose proof (classify_keys [cmd] rest (@Forall_cons _ value_word cmd [] Hc (@Forall_nil _ _))) as Ec; rewrite Hr in Ec; cbn [app bind plain map] in Ec.
    unfold events; rewrite A1, Ec; cbn [bind]; fold (parse SubPos (c1 ++ (cmd, Plain) :: rc)); rewrite B1; f_equal.
    unfold parse; rewrite (parse_argument _ _ _ _ (map fst ((cmd, Plain) :: rc)) []); [|reflexivity].
    cbn [map fst]; rewrite Ef; destruct (existsb is_opt _); reflexivity.
  Qed.
End Strings.

(** ** Words of the command in the main parser *)
Section Top.
  Variables top sub : list (text * opt).
  Hypothesis Htop : wf_strings top.
  Hypothesis Hsub : wf_strings sub.
  Hypothesis Hc : compatible top sub.

  Lemma filter_le (f : text * opt -> bool) : (forall p q, In p top -> In q top -> f p = true -> f q = true -> fst p = fst q) ->
    filter f top = [] \/ exists q, filter f top = [q].
  Proof.
    destruct Htop as [Hn _]; clear -Hn; induction top as [|x t IH]; intros H; [left; reflexivity|]; cbn [filter].
    cbn [map] in Hn; inversion Hn as [|? ? Hx Hn']; subst.
    destruct (f x) eqn:Ex; [right; exists x|apply IH; [exact Hn'|]; intros p q Hp Hq; apply H; right; assumption].
    f_equal; assert (E : forall q, In q t -> f q = false).
    { intros q Hq; destruct (f q) eqn:Eq; [exfalso|reflexivity]; apply Hx.
      rewrite (H x q (or_introl eq_refl) (or_intror Hq) Ex Eq); apply in_map, Hq. }
    clear -E; induction t as [|q t IH]; [reflexivity|]; cbn [filter]; rewrite (E q (or_introl eq_refl)); apply IH; intros; apply E; right; assumption.
  Qed.

  Definition one_start (a : text) : Prop := In a (map fst top) \/
    forall s1 o1 r1 s2 o2 r2, In (s1, o1) top -> In (s2, o2) top -> s1 = a ++ r1 -> s2 = a ++ r2 -> s1 = s2.

  Lemma names_one_start a o : names sub a o -> one_start a.
  Proof.
    intros [s o' H|a' s o' c r r' H Ea Hq Es Hu]; [exact (proj2 Hc s o' H)|right].
    intros s1 o1 r1 s2 o2 r2 H1 H2 E1 E2; apply (proj1 Hc) in H1; apply (proj1 Hc) in H2.
    rewrite (Hu s1 o1 r1 H1 E1), (Hu s2 o2 r2 H2 E2); reflexivity.
  Qed.

  Lemma in_get a : In a (map fst top) -> exists o, get a top = Some o.
  Proof. intros H; apply in_map_iff in H; destruct H as ([a' o] & <- & H); exists o; apply (strings_get top Htop), H. Qed.

  Lemma long_candidates a ex : one_start a -> get a top = None ->
    forall k : list word_class -> word_class, 
    k = (fun cs => match cs with [k] => k | _ :: _ :: _ => Ambiguous | [] => Plain end) ->
    k (map (fun p => Opt (fst p) (Some (snd p)) ex) (filter (fun p => is_prefix a (fst p)) top)) <> Ambiguous.
  Proof.
    intros Ho Hg k ->; destruct (filter_le (fun p => is_prefix a (fst p))) as [->|(q & ->)]; [|discriminate|discriminate].
    intros [s1 o1] [s2 o2] H1 H2 P1 P2; cbn [fst] in *; apply prefix_app in P1; destruct P1 as (r1 & E1); apply prefix_app in P2; destruct P2 as (r2 & E2).
    destruct Ho as [Ho|Ho]; [apply in_get in Ho; destruct Ho as (o & Ho); congruence|exact (Ho _ _ _ _ _ _ H1 H2 E1 E2)].
  Qed.

  Lemma class_step (cs : list word_class) (b1 b2 : bool) w : 
    (match cs with [k] => k | _ :: _ :: _ => Ambiguous | [] => Plain end) <> Ambiguous ->
    match cs with [k] => k | _ :: _ :: _ => Ambiguous | [] => if b1 then Plain else if b2 then Plain else Opt w None None end <> Ambiguous.
  Proof. destruct cs as [|k [|k' cs]]; [intros _; destruct b1; [discriminate|destruct b2; discriminate]|exact (fun H => H)|exact (fun H => H)]. Qed.

  Lemma top_name a o : names sub a o -> classify top a <> Ambiguous.
  Proof.
    intros Hn; pose proof (names_one_start a o Hn) as Ho; destruct (names_word sub Hsub a o Hn) as (c & r & Ea & _ & Hq).
    destruct (get a top) as [o'|] eqn:Eg; [rewrite Ea, classify_dash, <- Ea, Eg; discriminate|].
    rewrite Ea, classify_dash, <- Ea, Eg, (proj2 (split_once_None equals_sign a) Hq); apply class_step; unfold candidates.
    destruct (eqb_spec c dash) as [->|Hd].
    - rewrite (proj2 (split_once_None equals_sign a) Hq); exact (long_candidates a None Ho Eg _ eq_refl).
    - destruct Hn as [s o' H|a' s o' c' r' r2 H Ea' _ Es Hu]; [|rewrite Ea in Ea'; injection Ea' as -> _; destruct Hd; reflexivity].
      assert (L : s = [45%N; c]).
      { destruct Hsub as (_ & _ & Hf); rewrite Forall_forall in Hf; destruct (Hf _ H) as [L|(r2 & E)]; cbn [fst] in *.
        - rewrite Ea in L |- *; destruct r; [reflexivity|discriminate].
        - rewrite Ea in E; injection E as -> _; destruct Hd; reflexivity. }
      replace (flat_map _ top) with (map (fun p => Opt (fst p) (Some (snd p)) None) (filter (fun p => is_prefix s (fst p)) top));
        [exact (long_candidates s None Ho Eg _ eq_refl)|].
      rewrite L; cbn [firstn skipn]; clear -L Eg; assert (E : forall q, In q top -> fst q <> s).
      { intros [q oq] Hq E; cbn [fst] in E; subst q; apply (in_map fst) in Hq; cbn [fst] in Hq.
        apply (proj2 (get_Some_keys s top)) in Hq; destruct Hq as (v & Hv); congruence. }
      rewrite L in E; clear Eg L; induction top as [|q t IH]; [reflexivity|]; cbn [filter flat_map].
      destruct (eqb_spec (fst q) [45%N; c]) as [Eq|_]; [destruct (E q (or_introl eq_refl) Eq)|].
      destruct (is_prefix [45%N; c] (fst q)); cbn [map app]; [f_equal|]; apply IH; intros q' Hq'; apply E; right; exact Hq'.
  Qed.

  Lemma top_equals a o v r : names sub a o -> a = u "--" ++ r -> classify top (a ++ 61%N :: v) <> Ambiguous.
  Proof.
    intros Hn Ea; pose proof (names_one_start a o Hn) as Ho; destruct (names_word sub Hsub a o Hn) as (_ & _ & _ & _ & Hq).
    change (u "--" ++ r) with (45%N :: 45%N :: r) in Ea.
    assert (Esp : split_once equals_sign (a ++ 61%N :: v) = Some (a, v)) by (apply split_once_app; exact Hq).
    assert (Ew : a ++ 61%N :: v = 45%N :: 45%N :: (r ++ 61%N :: v)) by (rewrite Ea; reflexivity).
    rewrite Ew, classify_dash, <- Ew, (no_equals_get top Htop), Esp.
    destruct (get a top) as [o'|] eqn:Eg; [discriminate|]; apply class_step; unfold candidates; change (eqb 45%N dash) with true; cbv iota.
    rewrite Esp; exact (long_candidates a (Some v) Ho Eg _ eq_refl).
  Qed.

  Lemma top_written occs ws : written sub occs ws -> forall r r', classify_all top r = Ok r' ->
    exists r2, classify_all top (ws ++ r) = Ok r2.
  Proof.
    assert (One : forall w r r', classify top w <> Ambiguous -> classify_all top r = Ok r' -> exists r2, classify_all top (w :: r) = Ok r2).
    { intros w r r' Hw Hr; cbn [classify_all]; destruct (eqb w [dash; dash]); [eauto|].
      rewrite Hr; cbn [bind]; destruct (classify top w); eauto; congruence. }
    intros [a o Hn Ht|a o v r0 Hn Ht Ea|a o v Hn Ht Hv|x y xs o o' os Hx Hy Hxs Ht Hd Hp] r r' Hr; cbn [app].
    - apply (One _ _ r'); [exact (top_name a o Hn)|exact Hr].
    - apply (One _ _ r'); [exact (top_equals a o v r0 Hn Ea)|exact Hr].
    - destruct (One v r r') as (r2 & E); [rewrite (classify_value top Htop v Hv); discriminate|exact Hr|].
      apply (One _ _ r2); [exact (top_name a o Hn)|exact E].
    - apply (One _ _ r'); [|exact Hr].
      assert (Hq : ~ In 61%N (45%N :: x :: y :: xs)).
      { assert (Hcc : forall z oz, In ([45%N; z], oz) sub -> z <> 61%N).
        { intros z oz Hz ->; destruct (strings_shape sub Hsub _ _ Hz) as (_ & _ & _ & _ & H); apply H; right; left; reflexivity. }
        intros [H|[H|[H|H]]]; [discriminate|exact (Hcc x o Hx H)|exact (Hcc y o' Hy H)|].
        clear -Hxs H Hcc; induction Hxs as [|z oz xs os Hz Hxs IH]; [destruct H|]; destruct H as [H|H]; [exact (Hcc z oz Hz H)|exact (IH H)]. }
      assert (Hp' : forall s o r, In (s, o) top -> s <> (45%N :: x :: y :: xs) ++ r) by (intros s o2 r2 Hi; apply (Hp s o2), (proj1 Hc), Hi).
      set (w := 45%N :: x :: y :: xs) in *; unfold w at 1; rewrite classify_dash; fold w.
      destruct (get w top) as [o2|]; [discriminate|]; rewrite (proj2 (split_once_None equals_sign w) Hq); apply class_step; unfold candidates.
      destruct (eqb_spec x dash) as [|_]; [contradiction|].
      replace (flat_map _ top) with (map (fun p => Opt (fst p) (Some (snd p)) (Some (y :: xs))) (filter (fun p => eqb (fst p) [45%N; x]) top)).
      + destruct (filter_le (fun p => eqb (fst p) [45%N; x])) as [->|(q & ->)]; [|discriminate|discriminate].
        intros p q _ _ E1 E2; destruct (eqb_spec (fst p) [45%N; x]) as [->|]; [|discriminate].
        destruct (eqb_spec (fst q) [45%N; x]) as [->|]; [reflexivity|discriminate].
      + clear -Hp'; unfold w at 1 2; cbn [firstn skipn]; fold w; induction top as [|[s o2] l' IH]; [reflexivity|]; cbn [filter flat_map fst snd].
        destruct (eqb_spec s [45%N; x]) as [->|Hs]; cbn [map fst snd app].
        * f_equal; apply IH; intros s o3 r Hi; apply (Hp' s o3); right; exact Hi.
        * destruct (is_prefix w s) eqn:E; [apply prefix_app in E; destruct E as (r & E); destruct (Hp' s o2 r (or_introl eq_refl) E)|].
          apply IH; intros s' o3 r Hi; apply (Hp' s' o3); right; exact Hi.
  Qed.

  Lemma top_rest occs1 ws1 keys occs2 ws2 : Forall2 (written sub) occs1 ws1 -> Forall value_word keys ->
    Forall2 (written sub) occs2 ws2 -> exists rc, classify_all top (List.concat ws1 ++ keys ++ List.concat ws2) = Ok rc.
  Proof.
    assert (All : forall occs ws r r', Forall2 (written sub) occs ws -> classify_all top r = Ok r' ->
      exists r2, classify_all top (List.concat ws ++ r) = Ok r2).
    { intros occs ws r r' H Hr; induction H as [|o w occs ws Hw Hws (r2 & IH)]; [cbn; eauto|].
      cbn [List.concat]; rewrite <- app_assoc; apply (top_written o w Hw _ r2 IH). }
    intros H1 Hk H2; destruct (All _ _ [] [] H2 eq_refl) as (r2 & E2); rewrite app_nil_r in E2.
    pose proof (classify_keys top Htop keys (List.concat ws2) Hk) as Ek; rewrite E2 in Ek; cbn [bind] in Ek.
    exact (All _ _ _ _ H1 Ek).
  Qed.
  Lemma top_separated occs1 ws1 keys : Forall2 (written sub) occs1 ws1 ->
    exists rc, classify_all top (List.concat ws1 ++ u "--" :: keys) = Ok rc.
  Proof.
    intros H; induction H as [|o w occs ws Hw Hws (r2 & IH)]; [eexists; reflexivity|].
    cbn [List.concat]; rewrite <- app_assoc; apply (top_written o w Hw _ r2 IH).
  Qed.
End Top.

(** ** Theorems *)
Definition quiet (occs : list occurrence) : Prop := Forall (fun oc => leaves (fst oc) = false) occs.

Lemma take_quiet p occs ns : quiet occs -> foldM (take_option p) occs ns = foldM (take p) occs ns.
Proof.
  intros H; revert ns; induction H as [|oc occs Ho Hos IH]; intros ns; [reflexivity|]; cbn [foldM]; unfold take_option at 1; rewrite Ho.
  destruct (take p ns oc); cbn [bind]; [apply IH|reflexivity].
Qed.
Lemma run_opts p occs : forall evs ns keys extra,
  run_events p (map EvOpt occs ++ evs) ns keys extra = bind (foldM (take_option p) occs ns) (fun ns' => run_events p evs ns' keys extra).
Proof.
  induction occs as [|oc occs IH]; intros evs ns keys extra; [reflexivity|]; cbn [map app run_events foldM].
  destruct (take_option p ns oc); cbn [bind]; [apply IH|reflexivity].
Qed.
Lemma main_opts fresh top commands occs : forall evs ns called extra,
  main_events fresh top commands (map EvOpt occs ++ evs) ns called extra =
    bind (foldM (take_option top) occs ns) (fun ns' => main_events fresh top commands evs ns' called extra).
Proof.
  induction occs as [|oc occs IH]; intros evs ns called extra; [reflexivity|]; cbn [map app main_events foldM].
  destruct (take_option top ns oc); cbn [bind]; [apply IH|reflexivity].
Qed.
Lemma take_error p ns oc e : take p ns oc = Err e -> e = SystemExit 2.
Proof.
  unfold take; destruct (find _ p) as [o|]; [|congruence]; destruct (o_action o), (snd oc); congruence.
Qed.
Lemma takes_error p occs : forall ns e, foldM (take p) occs ns = Err e -> e = SystemExit 2.
Proof.
  induction occs as [|oc occs IH]; intros ns e; cbn [foldM]; [discriminate|].
  destruct (take p ns oc) eqn:E; cbn [bind]; [apply IH|intros H; injection H as <-; exact (take_error _ _ _ _ E)].
Qed.

Section Main.
  Variable fresh : bool.
  Variable top : list opt.
  Variable commands : text -> option command.
  Variable name : text.
  Variable c : command.
  Notation top_strings := (option_strings short_global top).
  Notation sub_strings := (option_strings (c_short c) (c_options c)).
  Hypothesis Htop : wf_strings top_strings.
  Hypothesis Hsub : wf_strings sub_strings.
  Hypothesis Hcomp : compatible top_strings sub_strings.
  Hypothesis Hname : value_word name.
  Hypothesis Hcmd : commands name = Some c.

  Lemma argv_result before bw rest rc evs : Forall2 (written top_strings) before bw -> quiet (List.concat before) ->
    classify_all top_strings rest = Ok rc -> events sub_strings (c_positional c) rest = evs ->
    parse_argv fresh top commands (List.concat bw ++ name :: rest) =
      let* ns := parse_into top (List.concat before) [] in
      let* x := run_command fresh c rest ns in
      if snd x then Err (SystemExit 2) else Ok (fst (fst x), Some (name, snd (fst x))).
  Proof.
    intros Hb Hq Hr _; unfold parse_argv; rewrite (top_events top_strings Htop before bw name rest rc Hb Hname Hr), main_opts.
    rewrite (take_quiet top _ _ Hq); unfold parse_into; destruct (foldM (take top) (List.concat before) (add_defaults top [])) as [ns|e]; [|reflexivity].
    cbn [bind main_events]; rewrite Hcmd; destruct (run_command fresh c rest ns) as [[[ns' keys] extra]|e]; [|reflexivity]; reflexivity.
  Qed.

  (** However the options of a command line are written (one word or two, abbreviated, letters together), before the command
      or around the keys, it means the same. *)
  Theorem C133_as_written before bw after1 aw1 keys after2 aw2 :
    Forall2 (written top_strings) before bw -> Forall2 (written sub_strings) after1 aw1 -> Forall2 (written sub_strings) after2 aw2 ->
    quiet (List.concat before) -> quiet (List.concat after1) -> quiet (List.concat after2) ->
    accepted (c_positional c) keys -> Forall value_word keys ->
    parse_argv fresh top commands (List.concat bw ++ name :: List.concat aw1 ++ keys ++ List.concat aw2) =
      let* ns := parse_command_line fresh top (c_options c) (List.concat before) (List.concat after1 ++ List.concat after2) in
      Ok (ns, Some (name, keys)).
  Proof.
    intros Hb H1 H2 Qb Q1 Q2 Ha Hk; destruct (top_rest top_strings sub_strings Htop Hsub Hcomp _ _ keys _ _ H1 Hk H2) as (rc & Hr).
    pose proof (command_events sub_strings Hsub (c_positional c) _ _ keys _ _ H1 H2 Ha Hk) as He.
    rewrite (argv_result before bw _ rc _ Hb Qb Hr He); unfold parse_command_line.
    destruct (parse_into top (List.concat before) []) as [ns|e]; [|reflexivity]; cbn [bind].
    assert (R : forall ns, run_events (c_options c) (events sub_strings (c_positional c) (List.concat aw1 ++ keys ++ List.concat aw2)) ns [] false =
      bind (foldM (take (c_options c)) (List.concat after1 ++ List.concat after2) ns) (fun ns' => Ok (ns', keys, false))).
    { clear ns; intros ns; rewrite He, run_opts, (take_quiet _ _ _ Q1), foldM_app.
      destruct (foldM (take (c_options c)) (List.concat after1) ns) as [ns1|e]; [|reflexivity]; cbn [bind].
      replace (run_events (c_options c) (match keys with [] => [] | _ => [EvArgs keys] end ++ map EvOpt (List.concat after2)) ns1 [] false)
        with (run_events (c_options c) (map EvOpt (List.concat after2) ++ []) ns1 keys false) by (rewrite app_nil_r; destruct keys; reflexivity).
      rewrite run_opts, (take_quiet _ _ _ Q2); reflexivity. }
    unfold run_command, call_subparser, parse_into; destruct fresh; rewrite R.
    - destruct (foldM _ _ (add_defaults (c_options c) [])); reflexivity.
    - destruct (foldM _ _ (add_defaults (c_options c) ns)); reflexivity.
  Qed.

  (** After [--] every word is a key, also if it looks like an option. *)
  Theorem C133_after_separator before bw after1 aw1 keys :
    Forall2 (written top_strings) before bw -> Forall2 (written sub_strings) after1 aw1 ->
    quiet (List.concat before) -> quiet (List.concat after1) -> accepted (c_positional c) keys -> keys <> [] ->
    parse_argv fresh top commands (List.concat bw ++ name :: List.concat aw1 ++ u "--" :: keys) =
      let* ns := parse_command_line fresh top (c_options c) (List.concat before) (List.concat after1) in
      Ok (ns, Some (name, keys)).
  Proof.
    intros Hb H1 Qb Q1 Ha Hk; destruct (top_separated top_strings sub_strings Htop Hsub Hcomp _ _ keys H1) as (rc & Hr).
    pose proof (separated_events sub_strings Hsub (c_positional c) _ _ keys H1 Ha Hk) as He.
    rewrite (argv_result before bw _ rc _ Hb Qb Hr He); unfold parse_command_line.
    destruct (parse_into top (List.concat before) []) as [ns|e]; [|reflexivity]; cbn [bind].
    assert (R : forall ns, run_events (c_options c) (events sub_strings (c_positional c) (List.concat aw1 ++ u "--" :: keys)) ns [] false =
      bind (foldM (take (c_options c)) (List.concat after1) ns) (fun ns' => Ok (ns', keys, false))).
    { clear ns; intros ns; rewrite He, run_opts, (take_quiet _ _ _ Q1); reflexivity. }
    unfold run_command, call_subparser, parse_into; destruct fresh; rewrite R.
    - destruct (foldM _ _ (add_defaults (c_options c) [])); reflexivity.
    - destruct (foldM _ _ (add_defaults (c_options c) ns)); reflexivity.
  Qed.

  Lemma rejected before bw rest rc : Forall2 (written top_strings) before bw -> quiet (List.concat before) ->
    classify_all top_strings rest = Ok rc ->
    (forall ns ns' keys, run_events (c_options c) (events sub_strings (c_positional c) rest) ns [] false <> Ok (ns', keys, false)) ->
    (forall ns e, run_events (c_options c) (events sub_strings (c_positional c) rest) ns [] false = Err e -> e = SystemExit 2) ->
    parse_argv fresh top commands (List.concat bw ++ name :: rest) = Err (SystemExit 2).
  Proof.
    intros Hb Qb Hr N E; rewrite (argv_result before bw _ rc _ Hb Qb Hr eq_refl).
    destruct (parse_into top (List.concat before) []) as [ns|e] eqn:Ep; cbn [bind]; [|unfold parse_into in Ep; apply takes_error in Ep; congruence].
    unfold run_command; set (evs := events _ _ _) in *; destruct fresh.
    - specialize (N (add_defaults (c_options c) [])); specialize (E (add_defaults (c_options c) [])).
      destruct (run_events (c_options c) evs _ [] false) as [[[ns' keys] [|]]|e]; cbn [bind]; [reflexivity|destruct (N ns' keys eq_refl)|].
      rewrite (E e eq_refl); reflexivity.
    - specialize (N (add_defaults (c_options c) ns)); specialize (E (add_defaults (c_options c) ns)).
      destruct (run_events (c_options c) evs _ [] false) as [[[ns' keys] [|]]|e]; cbn [bind]; [reflexivity|destruct (N ns' keys eq_refl)|].
      rewrite (E e eq_refl); reflexivity.
  Qed.

  (** Keys that are not all together are a usage error. *)
  Theorem C133_keys_apart_refuted before bw after1 aw1 keys after2 aw2 keys' :
    c_positional c = ManyPos -> keys <> [] -> after2 <> [] -> keys' <> [] -> Forall value_word keys -> Forall value_word keys' ->
    Forall2 (written top_strings) before bw -> Forall2 (written sub_strings) after1 aw1 -> Forall2 (written sub_strings) after2 aw2 ->
    quiet (List.concat before) -> quiet (List.concat after1) -> quiet (List.concat after2) ->
    parse_argv fresh top commands (List.concat bw ++ name :: List.concat aw1 ++ keys ++ List.concat aw2 ++ keys') = Err (SystemExit 2).
  Proof.
    intros Hp Hk Ha Hk' Vk Vk' Hb H1 H2 Qb Q1 Q2.
    destruct (written_all sub_strings Hsub _ _ H1) as (c1 & A1 & B1 & _); destruct (written_all sub_strings Hsub _ _ H2) as (c2 & A2 & B2 & C2).
    assert (T : exists rc, classify_all top_strings (List.concat aw1 ++ keys ++ List.concat aw2 ++ keys') = Ok rc).
    { destruct (top_rest top_strings sub_strings Htop Hsub Hcomp _ _ keys' [] [] H2 Vk' (Forall2_nil _)) as (r2 & E2).
      cbn [List.concat] in E2; rewrite app_nil_r in E2.
      pose proof (classify_keys top_strings Htop keys (List.concat aw2 ++ keys') Vk) as Ek; rewrite E2 in Ek; cbn [bind] in Ek; clear E2.
      revert Ek; generalize (keys ++ List.concat aw2 ++ keys') as w; generalize (plain keys ++ r2) as rc; intros rc w Ek.
      clear -Htop Hsub Hcomp H1 Ek; induction H1 as [|o ws occs wss Hw Hws (r3 & IH)]; [exists rc; exact Ek|].
      cbn [List.concat]; rewrite <- app_assoc; exact (top_written top_strings sub_strings Htop Hsub Hcomp o ws Hw _ r3 IH). }
    destruct T as (rc & Hr).
    assert (He : events sub_strings (c_positional c) (List.concat aw1 ++ keys ++ List.concat aw2 ++ keys') =
      map EvOpt (List.concat after1) ++ EvArgs keys :: map EvOpt (List.concat after2) ++ map EvExtra keys').
    { unfold events; rewrite A1, (classify_keys _ Hsub keys _ Vk), A2.
      pose proof (classify_keys _ Hsub keys' [] Vk') as Ek; rewrite !app_nil_r in Ek; cbn [classify_all bind] in Ek; rewrite app_nil_r in Ek; rewrite Ek.
      cbn [bind]; fold (parse sub_strings (c_positional c) (c1 ++ plain keys ++ c2 ++ plain keys')); rewrite B1; f_equal.
      rewrite parse_keys; [|left; split; assumption|exact Vk|].
      - destruct keys as [|k ks]; [congruence|]; cbn [app]; f_equal; rewrite B2; f_equal.
        unfold parse; cbn [parse_words]; replace (existsb is_opt (plain keys')) with false.
        + cbn [consume_positionals]; rewrite app_nil_r; unfold plain; rewrite map_map; reflexivity.
        + clear; induction keys' as [|k ks IH]; [reflexivity|exact IH].
      - right; destruct H2 as [|o w occs wss Hw Hws]; [congruence|]; destruct C2 as [->|(q & t & -> & Hq)];
          [exfalso|exists q, (t ++ plain keys'); split; [reflexivity|exact Hq]].
        specialize (A2 []); cbn [List.concat classify_all] in A2; rewrite app_nil_r in A2.
        destruct (written_spec sub_strings Hsub o w Hw) as (s & o' & ex & w' & t & Ew & E1 & _).
        rewrite E1 in A2; destruct (classify_all sub_strings (List.concat wss)) in A2; discriminate. }
    apply (rejected before bw _ rc Hb Qb Hr); intros ns; rewrite He, run_opts, (take_quiet _ _ _ Q1).
    - intros ns' ks H; apply bind_Ok in H; destruct H as (ns1 & _ & H); cbn [run_events] in H.
      rewrite run_opts in H; apply bind_Ok in H; destruct H as (ns2 & _ & H).
      destruct keys' as [|k ks']; [congruence|]; cbn [map run_events] in H; clear -H; induction ks' as [|k' ks' IH]; [discriminate|exact (IH H)].
    - intros e H; apply bind_Err in H; destruct H as [H|(ns1 & _ & H)]; [exact (takes_error _ _ _ _ H)|]; cbn [run_events] in H.
      rewrite run_opts, (take_quiet _ _ _ Q2) in H; apply bind_Err in H; destruct H as [H|(ns2 & _ & H)]; [exact (takes_error _ _ _ _ H)|].
      exfalso; revert H; generalize false as x; clear; induction keys' as [|k ks IH]; intros x H; [discriminate|exact (IH true H)].
  Qed.

  (** The commands with keys need one, also with --all. *)
  Theorem C133_all_needs_key before bw after aw : c_positional c = ManyPos ->
    Forall2 (written top_strings) before bw -> Forall2 (written sub_strings) after aw ->
    quiet (List.concat before) -> quiet (List.concat after) ->
    parse_argv fresh top commands (List.concat bw ++ name :: List.concat aw) = Err (SystemExit 2).
  Proof.
    intros Hp Hb H1 Qb Q1.
    destruct (top_rest top_strings sub_strings Htop Hsub Hcomp _ _ [] [] [] H1 (Forall_nil _) (Forall2_nil _)) as (rc & Hr).
    cbn [List.concat app] in Hr; rewrite app_nil_r in Hr.
    destruct (written_all sub_strings Hsub _ _ H1) as (c1 & A1 & B1 & _).
    assert (He : events sub_strings (c_positional c) (List.concat aw) = map EvOpt (List.concat after) ++ [EvFail (SystemExit 2)]).
    { specialize (A1 []); rewrite app_nil_r in A1; cbn [classify_all bind] in A1; rewrite app_nil_r in A1; unfold events; rewrite A1.
      fold (parse sub_strings (c_positional c) c1); specialize (B1 (c_positional c) []); rewrite app_nil_r in B1; rewrite B1, Hp; reflexivity. }
    apply (rejected before bw _ rc Hb Qb Hr); intros ns; rewrite He, run_opts, (take_quiet _ _ _ Q1).
    - intros ns' ks H; apply bind_Ok in H; destruct H as (ns1 & _ & H); discriminate.
    - intros e H; apply bind_Err in H; destruct H as [H|(ns1 & _ & H)]; [exact (takes_error _ _ _ _ H)|]; cbn [run_events] in H; congruence.
  Qed.
End Main.

(** A value that begins with a dash cannot be the next word (it can be given with [=]). *)
Theorem C133_dash_value_refuted fresh top commands a o x r rest :
  let strings := option_strings short_global top in
  wf_strings strings -> names strings a o -> takes_value o = true ->
  ~ In x (u "0123456789.") -> ~ In 32%N (45%N :: x :: r) ->
  parse_argv fresh top commands (a :: (45%N :: x :: r) :: rest) = Err (SystemExit 2).
Proof.
  intros strings Hl Hn Ht Hx Hs; unfold parse_argv; fold strings.
  assert (E : exists k, (classify strings (45%N :: x :: r) = k \/ eqb (45%N :: x :: r) [dash; dash] = true) /\ k <> Plain).
  { destruct (classify strings (45%N :: x :: r)) eqn:Ek; [|eexists; split; [left; reflexivity|discriminate]..].
    exfalso; rewrite classify_dash in Ek; destruct (get _ strings); [discriminate|].
    assert (Hcs : forall k, In k (candidates strings x (45%N :: x :: r)) -> k <> Plain).
    { intros k Hk; unfold candidates in Hk; destruct (eqb x dash).
      - destruct (match split_once equals_sign (45%N :: x :: r) with Some (a0, b) => (a0, Some b) | None => (45%N :: x :: r, None) end) as [pre ex].
        apply in_map_iff in Hk; destruct Hk as (q & <- & _); discriminate.
      - apply in_flat_map in Hk; destruct Hk as (q & _ & Hk).
        destruct (eqb (fst q) _); [destruct Hk as [<-|[]]; discriminate|].
        destruct (is_prefix _ (fst q)); [destruct Hk as [<-|[]]; discriminate|destruct Hk]. }
    assert (Hneg : negative_number (x :: r) = false).
    { assert (Hd : digit x = false).
      { unfold digit; destruct (N.leb_spec 48 x), (N.leb_spec x 57); try reflexivity; exfalso; apply Hx.
        assert (D : (x = 48 \/ x = 49 \/ x = 50 \/ x = 51 \/ x = 52 \/ x = 53 \/ x = 54 \/ x = 55 \/ x = 56 \/ x = 57)%N) by lia.
        unfold u; cbn; intuition. }
      assert (H46 : x <> 46%N) by (intros ->; apply Hx; unfold u; cbn; intuition).
      unfold negative_number; cbn [all_digits forallb split_once]; rewrite Hd; cbn [andb orb].
      destruct (eqb_spec x 46%N) as [|_]; [contradiction|].
      destruct (split_once 46%N r) as [[a1 b1]|]; [|reflexivity]; cbn [forallb]; rewrite Hd; reflexivity. }
    assert (Hsp : existsb (eqb 32%N) (45%N :: x :: r) = false).
    { apply not_true_is_false; intros H; apply existsb_exists in H; destruct H as (y & Hy & E); destruct (eqb_spec 32%N y) as [<-|]; [exact (Hs Hy)|discriminate]. }
    rewrite Hneg, Hsp in Ek.
    destruct (match split_once equals_sign (45%N :: x :: r) with Some (a0, b) => _ | None => None end) as [k|] eqn:E1.
    - subst k; destruct (split_once equals_sign _) as [[a1 b1]|]; [destruct (get a1 strings)|]; congruence.
    - destruct (candidates strings x (45%N :: x :: r)) as [|k [|k' cs]]; [discriminate| |discriminate].
      exact (Hcs k (or_introl eq_refl) Ek). }
  destruct E as (k & Hk & Hkp).
  destruct (names_word strings Hl a o Hn) as (_ & _ & _ & Hsep & _); destruct (classify_name strings Hl a o Hn) as (s & Ea).
  assert (Ev : events strings SubPos (a :: (45%N :: x :: r) :: rest) = [EvFail (SystemExit 2)]).
  { unfold events; cbn [classify_all]; destruct (eqb_spec a [dash; dash]) as [|_]; [contradiction|]; rewrite Ea.
    assert (C : forall k2 r2, k2 <> Plain -> parse_words strings (S (List.length ((a, Opt s (Some o) None) :: (45%N :: x :: r, k2) :: r2))) SubPos
                    ((a, Opt s (Some o) None) :: (45%N :: x :: r, k2) :: r2) = [EvFail (SystemExit 2)]).
    { intros k2 r2 H2; generalize (List.length ((a, Opt s (Some o) None) :: (45%N :: x :: r, k2) :: r2)) as n; intros n.
      cbn [parse_words existsb]; change (is_opt (a, Opt s (Some o) None)) with true; cbn [orb].
      unfold consume_optional; cbn [bind fst snd]; rewrite Ht; destruct k2; try reflexivity; congruence. }
    destruct (eqb (45%N :: x :: r) [dash; dash]) eqn:Es; [apply C; discriminate|].
    destruct Hk as [Hk|Hk]; [|discriminate]; rewrite Hk; destruct k as [| |s' o' ex'|]; [congruence| | |reflexivity];
      (destruct (classify_all strings rest) as [r2|e] eqn:Er; cbn [bind]; [apply C; discriminate|]);
      (assert (E2 : e = SystemExit 2); [|rewrite E2; reflexivity]);
      (clear -Er; revert e Er; induction rest as [|w ws IH]; cbn [classify_all]; intros e Er; [discriminate|];
       destruct (eqb w [dash; dash]); [discriminate|]; destruct (classify strings w); try (injection Er as <-; reflexivity);
       (apply bind_Err in Er; destruct Er as [Er|(z & _ & Er)]; [exact (IH e Er)|discriminate])). }
  rewrite Ev; reflexivity.
Qed.

(** A one-letter option without value followed by [=] ends xylem with an IndexError. *)
Theorem C133_crash_refuted fresh top commands x o :
  let strings := option_strings short_global top in
  wf_strings strings -> In ([45%N; x], o) strings -> takes_value o = false ->
  parse_argv fresh top commands [[45%N; x; 61%N]] = Err IndexError.
Proof.
  intros strings Hl Hx Ht; unfold parse_argv; fold strings; destruct (strings_shape strings Hl _ _ Hx) as (_ & _ & _ & Hd & Hq).
  assert (Ex : x <> 61%N) by (intros ->; apply Hq; right; left; reflexivity).
  assert (Hdd : x <> 45%N) by (intros ->; apply Hd; reflexivity).
  assert (E : classify strings [45%N; x; 61%N] = Opt [45%N; x] (Some o) (Some [])).
  { change [45%N; x; 61%N] with ([45%N; x] ++ 61%N :: []) at 1; cbn [app]; rewrite classify_dash.
    change [45%N; x; 61%N] with ([45%N; x] ++ 61%N :: []); rewrite (no_equals_get strings Hl).
    assert (Es : split_once equals_sign ([45%N; x] ++ 61%N :: []) = Some ([45%N; x], [])) by (apply split_once_app; exact Hq).
    rewrite Es, (strings_get strings Hl _ _ Hx); reflexivity. }
  unfold events; cbn [classify_all]; replace (eqb [45%N; x; 61%N] [dash; dash]) with false by (symmetry; destruct (eqb_spec [45%N; x; 61%N] [dash; dash]); [discriminate|reflexivity]).
  rewrite E; cbn [bind List.length parse_words existsb]; change (is_opt ([45%N; x; 61%N], Opt [45%N; x] (Some o) (Some []))) with true; cbn [orb].
  unfold consume_optional; cbn [explicit_value]; rewrite Ht; destruct (eqb_spec x dash) as [|_]; [contradiction|]; reflexivity.
Qed.

(** --help and --version, also abbreviated, end xylem with status 0, whatever words follow. *)
Theorem C133_leaves fresh top commands a o words :
  let strings := option_strings short_global top in
  wf_strings strings -> names strings a o -> takes_value o = false -> o_flag o = u "help" \/ o_flag o = u "version" -> Forall value_word words ->
  parse_argv fresh top commands (a :: words) = Err (SystemExit 0).
Proof.
  intros strings Hl Hn Ht Hv Hw; assert (Hf : leaves (o_flag o) = true) by (destruct Hv as [-> | ->]; reflexivity); unfold parse_argv; fold strings.
  destruct (written_spec strings Hl _ _ (wr_flag strings a o Hn Ht)) as (s & o' & ex & w & t & Ew & E1 & _ & E3).
  destruct t; [|discriminate]; injection Ew as <-.
  specialize (E1 words); pose proof (classify_keys strings Hl words [] Hw) as Ek; rewrite app_nil_r in Ek; cbn [classify_all bind] in Ek.
  unfold events; cbn [app] in E1; rewrite E1, Ek; cbn [bind]; specialize (E3 (plain words ++ [])); cbn [map app] in E3 |- *;
    rewrite (parse_option strings _ _ _ _ _ _ _ _ _ E3).
  cbn [map app main_events]; unfold take_option; cbn [fst]; rewrite Hf; reflexivity.
Qed.

(** Every command line is either understood or ends in one of these ways: help or version (0), a usage error (2), the IndexError. *)
Definition usual (e : exn) : Prop := e = SystemExit 0 \/ e = SystemExit 2 \/ e = IndexError.
Lemma explicit_usual l : forall v s o e, explicit_value l s o v = Err e -> usual e.
Proof.
  unfold usual; intros v; induction v as [|x v IH]; intros s o e; cbn [explicit_value]; (destruct (takes_value o); [discriminate|]);
    (destruct s as [|c0 [|c1 s]]; [intros H; injection H as <-; auto..|]); (destruct (eqb c1 dash); [intros H; injection H as <-; auto|]).
  - intros H; injection H as <-; auto.
  - destruct (get [dash; x] l) as [o'|]; [|intros H; injection H as <-; auto]; destruct v; [discriminate|].
    intros H; apply bind_Err in H; destruct H as [H|(r & _ & H)]; [exact (IH _ _ _ H)|discriminate].
Qed.
Lemma optional_usual l s o ex r e : consume_optional l s o ex r = Err e -> usual e.
Proof.
  unfold consume_optional; intros H; apply bind_Err in H; destruct H as [H|((a, [o'|]) & _ & H)]; cbn [fst snd] in H; [| |discriminate].
  - destruct ex; [exact (explicit_usual _ _ _ _ _ H)|discriminate].
  - destruct (takes_value o'); [|discriminate]; destruct r as [|[w [| | |]] r]; try discriminate; injection H as <-; unfold usual; auto.
Qed.
Lemma parse_usual l : forall n pos ws e, In (EvFail e) (parse_words l n pos ws) -> usual e.
Proof.
  induction n as [|n IH]; intros pos ws e; cbn [parse_words]; [intros []|].
  assert (X : forall evs, (forall e, In (EvFail e) evs -> usual e) -> forall ps : list (text * word_class),
    In (EvFail e) (map (fun p => EvExtra (fst p)) ps ++ evs) -> usual e).
  { intros evs H ps Hi; apply in_app_or in Hi; destruct Hi as [Hi|Hi]; [apply in_map_iff in Hi; destruct Hi as (q & E & _); discriminate|exact (H e Hi)]. }
  assert (K : In (EvFail e) match consume_positionals pos ws with
                | Some (values, r) => EvArgs values :: parse_words l n NoPos r
                | None => let (skipped, r) := span (fun p => negb (is_opt p)) ws in
                    map (fun p => EvExtra (fst p)) skipped ++ parse_words l n pos r
                end -> usual e).
  { destruct (consume_positionals pos ws) as [[v r]|]; [intros [H|H]; [discriminate|exact (IH _ _ _ H)]|].
    destruct (span _ ws) as [a b]; apply X; intros e'; apply IH. }
  destruct (existsb is_opt ws).
  - destruct ws as [|[w k] ws]; [exact K|]; destruct k as [| |s [o|] ex|]; try exact K.
    + destruct (consume_optional l s o ex ws) as [[occs r]|e'] eqn:E.
      * intros H; apply in_app_or in H; destruct H as [H|H]; [apply in_map_iff in H; destruct H as (q & Eq & _); discriminate|exact (IH _ _ _ H)].
      * intros [H|[]]; injection H as <-; exact (optional_usual _ _ _ _ _ _ E).
    + intros [H|H]; [discriminate|exact (IH _ _ _ H)].
  - destruct (consume_positionals pos ws) as [[v r]|].
    + intros [H|H]; [discriminate|]; apply in_map_iff in H; destruct H as (q & E & _); discriminate.
    + apply X; intros e' He; unfold usual; destruct pos; cbn [In] in He; intuition (try discriminate; try congruence); inversion H; auto.
Qed.
Lemma events_usual l pos ws e : In (EvFail e) (events l pos ws) -> usual e.
Proof.
  unfold events; destruct (classify_all l ws) as [r|e'] eqn:E; [apply parse_usual|intros H; assert (H' : e' = e) by (destruct H as [H|H]; [congruence|destruct H]); rewrite <- H'; clear H H' e].
  revert e' E; induction ws as [|w ws IH]; cbn [classify_all]; intros e' E; [discriminate|]; destruct (eqb w [dash; dash]); [discriminate|].
  destruct (classify l w); try (injection E as <-; unfold usual; auto);
    (apply bind_Err in E; destruct E as [E|(z & _ & E)]; [exact (IH e' E)|discriminate]).
Qed.
Lemma take_usual p ns oc e : take_option p ns oc = Err e -> usual e.
Proof.
  unfold take_option, usual; destruct (leaves (fst oc)); [intros H; injection H as <-; auto|]; intros H; apply take_error in H; auto.
Qed.
Lemma run_usual p evs : forall ns keys extra e, (forall e, In (EvFail e) evs -> usual e) -> run_events p evs ns keys extra = Err e -> usual e.
Proof.
  induction evs as [|ev evs IH]; intros ns keys extra e He; cbn [run_events]; [discriminate|].
  assert (He' : forall e, In (EvFail e) evs -> usual e) by (intros; apply He; right; assumption).
  destruct ev as [oc|vs|w|e0]; [|apply IH, He'|apply IH, He'|intros H; injection H as <-; apply He; left; reflexivity].
  intros H; apply bind_Err in H; destruct H as [H|(ns' & _ & H)]; [exact (take_usual _ _ _ _ H)|exact (IH _ _ _ _ He' H)].
Qed.
Theorem C133_outcomes fresh top commands argv e : parse_argv fresh top commands argv = Err e -> usual e.
Proof.
  unfold parse_argv; intros H; apply bind_Err in H; destruct H as [H|([[ns called] extra] & _ & H)];
    [|destruct extra; [injection H as <-; unfold usual; auto|discriminate]].
  pose proof (events_usual (option_strings short_global top) SubPos argv) as He.
  revert He H; generalize (events (option_strings short_global top) SubPos argv) as evs; generalize (add_defaults top []) as ns;
    generalize (@None (text * list text)) as called; generalize false as extra.
  intros extra called ns evs; revert extra called ns; induction evs as [|ev evs IH]; intros extra called ns He; cbn [main_events]; [discriminate|].
  assert (He' : forall e, In (EvFail e) evs -> usual e) by (intros; apply He; right; assumption).
  destruct ev as [oc|[|name rest]|w|e0].
  - intros H; apply bind_Err in H; destruct H as [H|(ns' & _ & H)]; [exact (take_usual _ _ _ _ H)|exact (IH _ _ _ He' H)].
  - intros H; injection H as <-; unfold usual; auto.
  - destruct (commands name) as [c|]; [|intros H; injection H as <-; unfold usual; auto].
    intros H; apply bind_Err in H; destruct H as [H|([[ns' keys] ex] & _ & H)]; [|exact (IH _ _ _ He' H)].
    pose proof (events_usual (option_strings (c_short c) (c_options c)) (c_positional c) rest) as Hr.
    unfold run_command in H; destruct fresh.
    + apply bind_Err in H; destruct H as [H|([[? ?] ?] & _ & H)]; [exact (run_usual _ _ _ _ _ _ Hr H)|discriminate].
    + exact (run_usual _ _ _ _ _ _ Hr H).
  - apply IH, He'.
  - intros H; injection H as <-; apply He; left; reflexivity.
Qed.

(** ** What is accepted *)
(** A part of a list of words, in order. *)
Inductive part_of : list text -> list text -> Prop :=
| part_nil l : part_of [] l
| part_skip w k l : part_of k l -> part_of k (w :: l)
| part_take w k l : part_of k l -> part_of (w :: k) (w :: l).
(** The arguments each kind of command wants. *)
Definition fitting (pos : positional) (keys : list text) : Prop :=
  match pos with NoPos => keys = [] | OnePos => List.length keys = 1 | ManyPos => keys <> [] | SubPos => True end.

Lemma part_refl l : part_of l l.
Proof. induction l; constructor; assumption. Qed.
Lemma part_app_r a b : part_of a (a ++ b).
Proof. induction a; cbn [app]; constructor; assumption. Qed.
Lemma part_app_l a b k : part_of k b -> part_of k (a ++ b).
Proof. induction a; cbn [app]; [auto|intros; constructor; auto]. Qed.
Lemma part_trans_suffix k a b : part_of k b -> forall l, l = a ++ b -> part_of k l.
Proof. intros H l ->; apply part_app_l, H. Qed.
Lemma sep_first l : without_sep ([dash; dash] :: l) = l.
Proof. reflexivity. Qed.
Lemma part_without l : part_of (without_sep l) l.
Proof. induction l as [|w l IH]; cbn [without_sep]; [constructor|]; destruct (eqb w _); [apply part_skip, part_refl|apply part_take, IH]. Qed.
Lemma part_trans a b c : part_of a b -> part_of b c -> part_of a c.
Proof.
  intros H1 H2; revert a H1; induction H2 as [l|w k l H IH|w k l H IH]; intros a H1; [inversion H1; constructor|constructor; auto|].
  inversion H1; subst; [constructor|constructor; auto|apply part_take; auto].
Qed.

(** What [--] does to the classes: it and nothing else is [Sep], until a positional argument is matched. *)
Inductive marked : list (text * word_class) -> Prop :=
| mk_nil : marked []
| mk_word w k r : w <> [dash; dash] -> k <> Sep -> marked r -> marked ((w, k) :: r)
| mk_sep r : marked (([dash; dash], Sep) :: map (fun x => (x, Plain)) r).
Lemma classify_marked l ws r : classify_all l ws = Ok r -> marked r /\ map fst r = ws.
Proof.
  revert r; induction ws as [|w ws IH]; cbn [classify_all]; intros r H; [injection H as <-; split; constructor|].
  destruct (eqb_spec w [dash; dash]) as [->|Hw].
  - injection H as <-; split; [constructor|]; cbn [map fst]; rewrite map_map; cbn [fst]; rewrite map_id; reflexivity.
  - assert (Hs : classify l w <> Sep).
    { unfold classify; destruct w as [|x w']; [discriminate|]; destruct (negb _); [discriminate|]; destruct (get _ l); [discriminate|].
      destruct w' as [|c w']; [discriminate|].
      assert (Hc : forall k, In k (candidates l c (x :: c :: w')) -> k <> Sep).
      { unfold candidates; destruct (eqb c dash).
        - destruct (match split_once _ _ with Some (a0, b) => (a0, Some b) | None => _ end) as [pre ex].
          intros k Hk; apply in_map_iff in Hk; destruct Hk as (q & <- & _); discriminate.
        - intros k Hk; apply in_flat_map in Hk; destruct Hk as (q & _ & Hk).
          destruct (eqb (fst q) _); [destruct Hk as [<-|[]]; discriminate|].
          destruct (is_prefix _ (fst q)); [destruct Hk as [<-|[]]; discriminate|destruct Hk]. }
      destruct (match split_once equals_sign (x :: c :: w') with Some (a0, b) => _ | None => None end) as [k|] eqn:E1.
      - destruct (split_once _ _) as [[a1 b1]|]; [destruct (get a1 l)|]; congruence.
      - destruct (candidates l c _) as [|k [|k' cs]]; [|apply Hc; left; reflexivity|discriminate].
        destruct (negative_number _); [discriminate|]; destruct (existsb _ _); discriminate. }
    destruct (classify l w) as [| |s o ex|] eqn:Ec; try congruence;
      (apply bind_Ok in H; destruct H as (r' & H & E); injection E as <-; destruct (IH _ H) as (M & F));
      (split; [constructor; [exact Hw|discriminate|exact M]|cbn [map fst]; rewrite F; reflexivity]).
Qed.

Lemma marked_suffix a : forall b, marked (a ++ b) -> forallb (fun p => negb (is_sep p)) a = true -> marked b.
Proof.
  induction a as [|[w k] a IH]; intros b H Ha; [exact H|]; cbn [app forallb] in *; apply andb_prop in Ha; destruct Ha as [Hk Ha].
  inversion H; subst; [apply IH; assumption|discriminate].
Qed.
(** The suffix begins with an option: it is before [--]. *)
Lemma marked_opt a : forall b q, marked (a ++ q :: b) -> is_opt q = true -> marked (q :: b).
Proof.
  induction a as [|[w k] a IH]; intros b q H Hq; [exact H|]; cbn [app] in H; inversion H; subst; [apply (IH _ _ ltac:(eassumption) Hq)|].
  exfalso.
  match goal with E : map _ _ = _ |- _ => assert (I : In q (a ++ q :: b)) by (apply in_or_app; right; left; reflexivity); rewrite <- E in I;
    apply in_map_iff in I; destruct I as (x & <- & _); discriminate end.
Qed.

Definition args_of (evs : list event) : list (list text) := flat_map (fun ev => match ev with EvArgs v => [v] | _ => [] end) evs.
Lemma args_app a b : args_of (a ++ b) = args_of a ++ args_of b.
Proof. apply flat_map_app. Qed.
Lemma args_opts occs : args_of (map EvOpt occs) = [].
Proof. induction occs; auto. Qed.
Lemma args_extra {A} (f : A -> text) (l : list A) : args_of (map (fun p => EvExtra (f p)) l) = [].
Proof. induction l; auto. Qed.

(** The values a positional argument gets. *)
Definition good (pos : positional) (v ws : list text) : Prop :=
  match pos with
  | NoPos => False
  | SubPos => v <> [] /\ exists before, ws = before ++ v
  | _ => fitting pos v /\ part_of v ws
  end.
Lemma good_suffix pos v a b : good pos v b -> good pos v (a ++ b).
Proof.
  destruct pos; cbn [good]; [auto|intros [H1 H2]; split; [exact H1|apply part_app_l, H2]|intros [H1 H2]; split; [exact H1|apply part_app_l, H2]|].
  intros [H (x & ->)]; split; [exact H|]; exists (a ++ x); rewrite app_assoc; reflexivity.
Qed.

Lemma span_all {A} (f : A -> bool) (ws : list A) : forallb f (fst (span f ws)) = true.
Proof. induction ws as [|x ws IH]; cbn [span]; [reflexivity|]; destruct (f x) eqn:E; [destruct (span f ws); cbn [fst forallb] in *; rewrite E; exact IH|reflexivity]. Qed.
Lemma span_head {A} (f : A -> bool) (ws : list A) : match snd (span f ws) with [] => True | x :: _ => f x = false end.
Proof. induction ws as [|x ws IH]; cbn [span]; [exact I|]; destruct (f x) eqn:E; [destruct (span f ws); exact IH|exact E]. Qed.

Lemma consume_good pos ws v r : marked ws -> consume_positionals pos ws = Some (v, r) -> good pos v (map fst ws).
Proof.
  intros M; unfold consume_positionals; destruct pos; [discriminate| | |].
  - inversion M; subst; [discriminate| |].
    + assert (E : is_sep (w, k) = false) by (destruct k; [reflexivity|congruence|reflexivity|reflexivity]).
      cbn [span]; rewrite E; destruct k; try discriminate.
      pose proof (span_app is_sep r0) as Es; pose proof (span_all is_sep r0) as Ea; destruct (span is_sep r0) as [a b]; cbn [fst] in Ea.
      intros Q; injection Q as <- _; cbn [map app fst without_sep].
      destruct (eqb_spec w [dash; dash]) as [|_]; [contradiction|].
      assert (Hw : without_sep (map fst a) = []).
      { destruct a as [|[w1 k1] a]; [reflexivity|]; cbn [forallb] in Ea; apply andb_prop in Ea; destruct Ea as [E1 Ea].
        match goal with H : marked r0 |- _ => rewrite Es in H; cbn [app] in H; inversion H; subst end; [destruct k1; try discriminate; congruence|].
        change (map fst a = []).
        destruct a as [|[w2 k2] a]; [reflexivity|]; exfalso; cbn [app forallb] in *; apply andb_prop in Ea; destruct Ea as [E2 _].
        match goal with E : map _ ?l = _ :: _ |- _ => destruct l; [discriminate|]; cbn [map] in E; injection E as E3 E4 _; subst k2; discriminate end. }
      rewrite Hw; split; [reflexivity|]; apply part_take; constructor.
    + cbn [span]; change (is_sep ([dash; dash], Sep)) with true; cbn iota.
      destruct r0 as [|w r0]; [discriminate|]; cbn [map span]; change (is_sep (w, Plain)) with false; cbn iota.
      pose proof (span_all is_sep (map (fun x => (x, Plain)) r0)) as Ea; destruct (span is_sep _) as [a b] eqn:Es.
      assert (Ha : a = []).
      { destruct r0 as [|w2 r0]; cbn [map span] in Es; [injection Es as <- _; reflexivity|].
        change (is_sep (w2, Plain)) with false in Es; injection Es as <- _; reflexivity. }
      subst a; intros Q; injection Q as <- _; cbn [map fst app].
      change (without_sep _) with [w]; split; [reflexivity|]; apply part_skip, part_take; constructor.
  - pose proof (span_app (fun p => negb (is_opt p)) ws) as Es; destruct (span _ ws) as [a b].
    destruct (existsb is_plain a) eqn:Ep; [|discriminate]; intros Q; injection Q as <- _; split.
    + cbn [fitting]; intros E; rewrite Es in M; clear Es; revert Ep E M; induction a as [|[w k] a IH]; [discriminate|].
      cbn [existsb map fst without_sep app]; intros Ep E M; destruct (eqb_spec w [dash; dash]) as [->|_]; [|discriminate].
      inversion M; subst; [congruence|]; cbn in Ep; destruct a as [|q a]; [discriminate|discriminate].
    + rewrite Es, map_app; refine (part_trans _ _ _ (part_without _) (part_app_r _ _)).
  - pose proof (span_app is_sep ws) as E; destruct (span is_sep ws) as [a b]; destruct b as [|[w [| | |]] b]; try discriminate.
    intros Q; injection Q as <- _; split; [|exists []; reflexivity]; rewrite E, map_app; destruct (map fst a); discriminate.
Qed.

Lemma consume_suffix l s o ex r occs r' : consume_optional l s o ex r = Ok (occs, r') ->
  r' = r \/ exists w, r = (w, Plain) :: r'.
Proof.
  unfold consume_optional; intros H; apply bind_Ok in H; destruct H as ([a [o'|]] & _ & H); cbn [fst snd] in H; [|injection H as _ <-; auto].
  destruct (takes_value o'); [|injection H as _ <-; auto]; destruct r as [|[w [| | |]] r]; try discriminate; injection H as _ <-; eauto.
Qed.

Lemma parse_nopos l : forall n ws, args_of (parse_words l n NoPos ws) = [].
Proof.
  induction n as [|n IH]; intros ws; [reflexivity|]; cbn [parse_words].
  assert (K : args_of (let (skipped, r) := span (fun p => negb (is_opt p)) ws in map (fun p => EvExtra (fst p)) skipped ++ parse_words l n NoPos r) = [])
    by (destruct (span _ ws) as [a b]; rewrite args_app, args_extra, IH; reflexivity).
  destruct (existsb is_opt ws).
  - destruct ws as [|[w k] ws]; [exact K|]; destruct k as [| |s [o|] ex|]; try exact K.
    + destruct (consume_optional l s o ex ws) as [[occs r]|e]; [rewrite args_app, args_opts, IH; reflexivity|reflexivity].
    + exact (IH ws).
  - cbn [consume_positionals]; rewrite app_nil_r, args_extra; reflexivity.
Qed.

Lemma parse_good l : forall n pos ws, List.length ws < n -> marked ws -> pos <> NoPos ->
  (exists e, In (EvFail e) (parse_words l n pos ws)) \/
  exists v, args_of (parse_words l n pos ws) = [v] /\ good pos v (map fst ws).
Proof.
  induction n as [|n IH]; intros pos ws Hn M Hp; [lia|]; cbn [parse_words].
  assert (C : forall v r, consume_positionals pos ws = Some (v, r) -> good pos v (map fst ws)) by (intros v r; apply consume_good, M).
  assert (R : forall evs a b, args_of evs = [] -> ws = a ++ b -> List.length b < n -> marked b ->
     (exists e, In (EvFail e) (evs ++ parse_words l n pos b)) \/
     exists v, args_of (evs ++ parse_words l n pos b) = [v] /\ good pos v (map fst ws)).
  { intros evs a b Ha E Hb Mb; destruct (IH pos b Hb Mb Hp) as [(e & H)|(v & H & G)].
    - left; exists e; apply in_or_app; right; exact H.
    - right; exists v; split; [rewrite args_app, Ha, H; reflexivity|rewrite E, map_app; apply good_suffix, G]. }
  destruct (existsb is_opt ws) eqn:Eo.
  - assert (K : (exists q t, ws = q :: t /\ is_opt q = false) -> (exists e, In (EvFail e) (match consume_positionals pos ws with
                | Some (values, r) => EvArgs values :: parse_words l n NoPos r
                | None => let (skipped, r) := span (fun p => negb (is_opt p)) ws in
                    map (fun p => EvExtra (fst p)) skipped ++ parse_words l n pos r
                end)) \/ exists v, args_of (match consume_positionals pos ws with
                | Some (values, r) => EvArgs values :: parse_words l n NoPos r
                | None => let (skipped, r) := span (fun p => negb (is_opt p)) ws in
                    map (fun p => EvExtra (fst p)) skipped ++ parse_words l n pos r
                end) = [v] /\ good pos v (map fst ws)).
    { intros (q & t & Eq & Hq); destruct (consume_positionals pos ws) as [[v r]|] eqn:Ec.
      - right; exists v; split; [|exact (C _ _ eq_refl)]; cbn [args_of flat_map app]; f_equal; apply parse_nopos.
      - pose proof (span_app (fun p => negb (is_opt p)) ws) as Es; pose proof (span_head (fun p => negb (is_opt p)) ws) as Eh;
          pose proof (span_all (fun p => negb (is_opt p)) ws) as Ea.
        assert (Ex : fst (span (fun p => negb (is_opt p)) ws) <> []).
        { rewrite Eq; cbn [span]; rewrite Hq; cbn [negb]; destruct (span _ t); discriminate. }
        destruct (span _ ws) as [a b]; cbn [fst snd] in *; apply (R _ a b); [apply args_extra|exact Es| |].
        + rewrite Es, app_length in Hn; destruct a; [contradiction|]; cbn [List.length] in Hn; lia.
        + destruct b as [|q' b]; [constructor|]; apply (marked_opt a); [rewrite <- Es; exact M|]; destruct (is_opt q'); [reflexivity|discriminate]. }
    destruct ws as [|[w k] ws]; [discriminate|]; destruct k as [| |s [o|] ex|].
    + apply K; exists (w, Plain), ws; split; reflexivity.
    + apply K; exists (w, Sep), ws; split; reflexivity.
    + inversion M; subst.
      destruct (consume_optional l s o ex ws) as [[occs r]|e] eqn:Ec; [|left; exists e; left; reflexivity].
      destruct (consume_suffix _ _ _ _ _ _ _ Ec) as [->|(x & ->)].
      * apply (R _ [(w, Opt s (Some o) ex)] ws); [apply args_opts|reflexivity|cbn [List.length] in Hn; lia|assumption].
      * apply (R _ [(w, Opt s (Some o) ex); (x, Plain)] r); [apply args_opts|reflexivity|cbn [List.length] in Hn; lia|].
        match goal with H : marked (_ :: r) |- _ => inversion H; subst; assumption end.
    + inversion M; subst; apply (R [EvExtra w] [(w, Opt s None ex)] ws); [reflexivity|reflexivity|cbn [List.length] in Hn; lia|assumption].
    + apply K; exists (w, Ambiguous), ws; split; reflexivity.
  - destruct (consume_positionals pos ws) as [[v r]|] eqn:Ec.
    + right; exists v; split; [|exact (C _ _ eq_refl)]; cbn [args_of flat_map app]; f_equal; apply args_extra.
    + left; exists (SystemExit 2); apply in_or_app; right; destruct pos; [contradiction|left; reflexivity..].
Qed.

Lemma events_good l pos argv : pos <> NoPos ->
  (exists e, In (EvFail e) (events l pos argv)) \/ exists v, args_of (events l pos argv) = [v] /\ good pos v argv.
Proof.
  intros Hp; unfold events; destruct (classify_all l argv) as [ws|e] eqn:E; [|left; exists e; left; reflexivity].
  destruct (classify_marked _ _ _ E) as (M & <-); apply parse_good; [lia|exact M|exact Hp].
Qed.
Lemma events_nopos l argv : args_of (events l NoPos argv) = [].
Proof. unfold events; destruct (classify_all l argv) as [ws|e]; [apply parse_nopos|reflexivity]. Qed.

Lemma run_ok p evs : forall ns keys extra ns' keys' extra', run_events p evs ns keys extra = Ok (ns', keys', extra') ->
  (forall e, ~ In (EvFail e) evs) /\ keys' = last (args_of evs) keys /\ (extra = true -> extra' = true) /\
  (forall w, In (EvExtra w) evs -> extra' = true).
Proof.
  induction evs as [|ev evs IH]; intros ns keys extra ns' keys' extra' H; cbn [run_events] in H.
  - injection H as _ <- <-; cbn; repeat split; auto; intros ? [].
  - destruct ev as [oc|v|w|e].
    + apply bind_Ok in H; destruct H as (n1 & _ & H); destruct (IH _ _ _ _ _ _ H) as (A & B & C & D).
      repeat split; [intros e [E|E]; [discriminate|exact (A e E)]|exact B|exact C|intros w [E|E]; [discriminate|exact (D w E)]].
    + destruct (IH _ _ _ _ _ _ H) as (A & B & C & D).
      repeat split; [intros e [E|E]; [discriminate|exact (A e E)]| |exact C|intros w [E|E]; [discriminate|exact (D w E)]].
      rewrite B; change (args_of (EvArgs v :: evs)) with (v :: args_of evs); destruct (args_of evs) as [|x xs]; [reflexivity|].
      assert (G : forall (q : list (list text)) y d d', last (y :: q) d = last (y :: q) d') by (clear; induction q as [|z q IH]; intros y d d'; [reflexivity|exact (IH z d d')]).
      exact (G xs x v keys).
    + destruct (IH _ _ _ _ _ _ H) as (A & B & C & D).
      repeat split; [intros e [E|E]; [discriminate|exact (A e E)]|exact B|intros _; exact (C eq_refl)|intros w' _; exact (C eq_refl)].
    + discriminate.
Qed.
Lemma command_ok fresh c argv ns ns' keys extra : run_command fresh c argv ns = Ok (ns', keys, extra) ->
  let evs := events (option_strings (c_short c) (c_options c)) (c_positional c) argv in
  (forall e, ~ In (EvFail e) evs) /\ keys = last (args_of evs) [] /\ (forall w, In (EvExtra w) evs -> extra = true).
Proof.
  intros H evs; unfold run_command in H; subst evs; destruct fresh.
  - apply bind_Ok in H; destruct H as ([[n1 k1] e1] & H & E); injection E as _ <- <-; destruct (run_ok _ _ _ _ _ _ _ _ H) as (A & B & _ & D); auto.
  - destruct (run_ok _ _ _ _ _ _ _ _ H) as (A & B & _ & D); auto.
Qed.
Lemma main_ok fresh top commands evs : forall ns called extra ns' called' extra',
  main_events fresh top commands evs ns called extra = Ok (ns', called', extra') ->
  (forall e, ~ In (EvFail e) evs) /\ (extra = true -> extra' = true) /\ (forall w, In (EvExtra w) evs -> extra' = true) /\
  (args_of evs = [] -> called' = called) /\
  (forall name rest, In (EvArgs (name :: rest)) evs -> exists c n1 n2 keys x, commands name = Some c /\
     run_command fresh c rest n1 = Ok (n2, keys, x) /\ (x = true -> extra' = true) /\
     (args_of evs = [name :: rest] -> called' = Some (name, keys))).
Proof.
  induction evs as [|ev evs IH]; intros ns called extra ns' called' extra' H; cbn [main_events] in H.
  - injection H as _ <- <-; cbn [In]; repeat split; auto; intros; contradiction.
  - destruct ev as [oc|[|name rest]|w|e]; [|discriminate| | |discriminate].
    + apply bind_Ok in H; destruct H as (n1 & _ & H); destruct (IH _ _ _ _ _ _ H) as (A & B & C & D & F).
      split; [intros e [E|E]; [discriminate|exact (A e E)]|]; split; [exact B|]; split; [intros w [E|E]; [discriminate|exact (C w E)]|].
      split; [exact D|]; intros name rest [E|E]; [discriminate|exact (F name rest E)].
    + destruct (commands name) as [c|] eqn:Ec; [|discriminate]; apply bind_Ok in H; destruct H as ([[n1 k1] x1] & Hr & H).
      destruct (IH _ _ _ _ _ _ H) as (A & B & C & D & F).
      split; [intros e [E|E]; [discriminate|exact (A e E)]|]; split; [intros E; apply B; rewrite E; reflexivity|].
      split; [intros w [E|E]; [discriminate|exact (C w E)]|]; split; [discriminate|].
      intros name' rest' [E|E].
      * injection E as <- <-; exists c, ns, n1, k1, x1; split; [exact Ec|split; [exact Hr|split]].
        -- intros E; apply B; rewrite E; apply orb_true_r.
        -- change (args_of (EvArgs (name :: rest) :: evs)) with ((name :: rest) :: args_of evs); intros E; injection E as E; exact (D E).
      * destruct (F name' rest' E) as (c' & n1' & n2' & k' & x' & H1 & H2 & H3 & H4); exists c', n1', n2', k', x'; repeat split; auto.
        intros Ea; exfalso.
        change (args_of (EvArgs (name :: rest) :: evs)) with ((name :: rest) :: args_of evs) in Ea; injection Ea as _ _ Ea.
        assert (I : In (name' :: rest') (args_of evs)) by (apply in_flat_map; exists (EvArgs (name' :: rest')); split; [exact E|left; reflexivity]).
        rewrite Ea in I; destruct I.
    + destruct (IH _ _ _ _ _ _ H) as (A & B & C & D & F).
      split; [intros e [E|E]; [discriminate|exact (A e E)]|]; split; [intros _; exact (B eq_refl)|]; split; [intros w' _; exact (B eq_refl)|].
      split; [exact D|]; intros name rest [E|E]; [discriminate|exact (F name rest E)].
Qed.

(** An accepted command line has a known command among its words, and as many keys as the command wants, taken in order
    from the words after it. *)
Theorem C133_accepted fresh top commands argv ns called :
  parse_argv fresh top commands argv = Ok (ns, called) ->
  exists before name rest c keys, argv = before ++ name :: rest /\ called = Some (name, keys) /\ commands name = Some c /\
    fitting (c_positional c) keys /\ part_of keys rest.
Proof.
  unfold parse_argv; intros H; apply bind_Ok in H; destruct H as ([[n1 c1] x1] & H & E).
  destruct x1; [discriminate|]; injection E as <- <-; destruct (main_ok _ _ _ _ _ _ _ _ _ _ H) as (A & _ & _ & _ & F).
  destruct (events_good (option_strings short_global top) SubPos argv ltac:(discriminate)) as [(e & He)|(v & Ev & Hv & before & Hb)]; [destruct (A e He)|].
  destruct v as [|name rest]; [contradiction|].
  assert (I : In (EvArgs (name :: rest)) (events (option_strings short_global top) SubPos argv)).
  { assert (J : In (name :: rest) (args_of (events (option_strings short_global top) SubPos argv))) by (rewrite Ev; left; reflexivity).
    apply in_flat_map in J; destruct J as (ev & Hev & J); destruct ev; try destruct J; [subst; exact Hev|contradiction]. }
  destruct (F name rest I) as (c & m1 & m2 & keys & x & Hc & Hr & _ & Hk); exists before, name, rest, c, keys.
  split; [exact Hb|]; split; [exact (Hk Ev)|]; split; [exact Hc|].
  destruct (command_ok _ _ _ _ _ _ _ Hr) as (A' & K' & _).
  destruct (c_positional c) eqn:Ep.
  - rewrite events_nopos in K'; subst keys; split; [reflexivity|constructor].
  - destruct (events_good (option_strings (c_short c) (c_options c)) OnePos rest ltac:(discriminate)) as [(e & He)|(v & Ev' & G)]; [destruct (A' e He)|].
    rewrite Ev' in K'; cbn [last] in K'; subst keys; exact G.
  - destruct (events_good (option_strings (c_short c) (c_options c)) ManyPos rest ltac:(discriminate)) as [(e & He)|(v & Ev' & G)]; [destruct (A' e He)|].
    rewrite Ev' in K'; cbn [last] in K'; subst keys; exact G.
  - destruct (events_good (option_strings (c_short c) (c_options c)) SubPos rest ltac:(discriminate)) as [(e & He)|(v & Ev' & G)]; [destruct (A' e He)|].
    rewrite Ev' in K'; cbn [last] in K'; subst keys; split; [exact Logic.I|]; destruct G as [_ (b & ->)]; apply part_app_l, part_refl.
Qed.

(** A long option that no string begins with. *)
Definition unknown (l : list (text * opt)) (w : text) : Prop :=
  (exists c r, w = u "--" ++ c :: r) /\ ~ In 61%N w /\ ~ In 32%N w /\ (forall s o r, In (s, o) l -> s <> w ++ r).

Lemma classify_unknown l w : unknown l w -> classify l w = Opt w None None.
Proof.
  intros ((c & r & E) & He & Hs & Hn); change (u "--") with [45%N; 45%N] in E; cbn [app] in E.
  assert (G : get w l = None).
  { destruct (get w l) as [o|] eqn:G; [|reflexivity]; exfalso; apply get_In in G; apply (Hn w o []); [exact G|rewrite app_nil_r; reflexivity]. }
  assert (C : candidates l 45%N w = []).
  { unfold candidates; change (eqb 45%N dash) with true; cbv iota; rewrite (proj2 (split_once_None equals_sign w) He).
    assert (F : filter (fun p => is_prefix w (fst p)) l = []).
    { destruct (filter (fun p => is_prefix w (fst p)) l) as [|[s o] t] eqn:F; [reflexivity|exfalso].
      assert (I : In (s, o) (filter (fun p => is_prefix w (fst p)) l)) by (rewrite F; left; reflexivity).
      apply filter_In in I; destruct I as [I P]; cbn [fst] in P; apply prefix_app in P; destruct P as (r' & P); exact (Hn s o r' I P). }
    rewrite F; reflexivity. }
  assert (Hsp : existsb (eqb 32%N) w = false).
  { apply not_true_is_false; intros X; apply existsb_exists in X; destruct X as (y & Hy & Ey); destruct (eqb_spec 32%N y) as [<-|]; [exact (Hs Hy)|discriminate]. }
  assert (Hq := proj2 (split_once_None equals_sign w) He).
  assert (Hg : negative_number (45%N :: c :: r) = false).
  { unfold negative_number; cbn [all_digits forallb split_once]; change (digit 45%N) with false; cbn [andb orb].
    change (eqb 45%N 46%N) with false; cbv iota.
    match goal with |- match ?x with Some _ => _ | None => _ end = false => destruct x as [[a b]|] eqn:Ex; [|reflexivity] end.
    destruct (match c :: r with [] => None | _ => split_once 46%N (c :: r) end) as [[a1 b1]|] eqn:E1; cbn [split_once] in *;
      [|rewrite E1 in Ex; discriminate]; rewrite E1 in Ex; injection Ex as <- <-; reflexivity. }
  subst w; unfold classify; change (negb (eqb 45%N dash)) with false; cbv iota; rewrite G, Hq, C, Hg, Hsp; reflexivity.
Qed.

Lemma classify_split l w before : ~ In [dash; dash] before -> w <> [dash; dash] -> classify l w = Opt w None None -> forall rest ws,
  classify_all l (before ++ w :: rest) = Ok ws -> exists xs ys, ws = xs ++ (w, Opt w None None) :: ys /\ map fst xs = before.
Proof.
  intros Hb Hw Hc rest; induction before as [|b before IH]; intros ws H; cbn [app classify_all] in H.
  - destruct (eqb_spec w [dash; dash]) as [|_]; [contradiction|]; rewrite Hc in H; apply bind_Ok in H; destruct H as (ys & _ & H).
    injection H as <-; exists [], ys; split; reflexivity.
  - destruct (eqb_spec b [dash; dash]) as [->|_]; [exfalso; apply Hb; left; reflexivity|].
    assert (Hb' : ~ In [dash; dash] before) by (intros X; apply Hb; right; exact X).
    destruct (classify l b); try discriminate; apply bind_Ok in H; destruct H as (r & H & E); injection E as <-;
      (destruct (IH Hb' _ H) as (xs & ys & -> & F)); (eexists (_ :: xs), ys; split; [reflexivity|cbn [map fst]; rewrite F; reflexivity]).
Qed.
Lemma span_before {A} (f : A -> bool) q ys : f q = false -> forall xs,
  exists a b, span f (xs ++ q :: ys) = (a, b ++ q :: ys) /\ xs = a ++ b.
Proof.
  intros Hq; induction xs as [|x xs (a & b & E & F)]; cbn [app span]; [rewrite Hq; exists [], []; split; reflexivity|].
  destruct (f x); [rewrite E, F; exists (x :: a), b; split; reflexivity|exists [], (x :: xs); split; reflexivity].
Qed.

Lemma parse_unknown l w : forall n pos xs ys, List.length (xs ++ (w, Opt w None None) :: ys) < n ->
  let evs := parse_words l n pos (xs ++ (w, Opt w None None) :: ys) in
  (exists e, In (EvFail e) evs) \/ In (EvExtra w) evs \/
  (pos = SubPos /\ exists name a b, In (EvArgs (name :: a ++ w :: b)) evs /\ incl a (map fst xs)).
Proof.
  induction n as [|n IH]; intros pos xs ys Hn; [lia|]; cbv zeta; cbn [parse_words].
  assert (Eo : existsb is_opt (xs ++ (w, Opt w None None) :: ys) = true) by (apply existsb_exists; exists (w, Opt w None None); split; [apply in_or_app; right; left; reflexivity|reflexivity]).
  rewrite Eo; clear Eo; destruct xs as [|[w0 k0] xs]; cbn [app]; [right; left; left; reflexivity|].
  assert (R : forall evs a b pos', (w0, k0) :: xs = a ++ b -> a <> [] -> pos' = pos \/ pos' = NoPos ->
    (exists e, In (EvFail e) (evs ++ parse_words l n pos' (b ++ (w, Opt w None None) :: ys))) \/
    In (EvExtra w) (evs ++ parse_words l n pos' (b ++ (w, Opt w None None) :: ys)) \/
    pos = SubPos /\ exists name a' b', In (EvArgs (name :: a' ++ w :: b')) (evs ++ parse_words l n pos' (b ++ (w, Opt w None None) :: ys)) /\ incl a' (map fst ((w0, k0) :: xs))).
  { intros evs a b pos' E Ha Hp.
    assert (Hb : List.length (b ++ (w, Opt w None None) :: ys) < n).
    { assert (L : List.length ((w0, k0) :: xs) = List.length a + List.length b) by (rewrite E; apply app_length).
      rewrite app_length in Hn; rewrite app_length; cbn [List.length] in *; destruct a; [contradiction|]; cbn [List.length] in L; lia. }
    destruct (IH pos' b ys Hb) as [(e & H)|[H|(Hq & name & a' & b' & H & I)]].
    - left; exists e; apply in_or_app; right; exact H.
    - right; left; apply in_or_app; right; exact H.
    - right; right; split; [destruct Hp; congruence|]; exists name, a', b'; split; [apply in_or_app; right; exact H|]; rewrite E, map_app; apply incl_appr, I. }
  assert (K : is_opt (w0, k0) = false ->
    let evs := match consume_positionals pos ((w0, k0) :: xs ++ (w, Opt w None None) :: ys) with
                | Some (values, r) => EvArgs values :: parse_words l n NoPos r
                | None => let (skipped, r) := span (fun p => negb (is_opt p)) ((w0, k0) :: xs ++ (w, Opt w None None) :: ys) in
                    map (fun p => EvExtra (fst p)) skipped ++ parse_words l n pos r
                end in
    (exists e, In (EvFail e) evs) \/ In (EvExtra w) evs \/
    pos = SubPos /\ exists name a b, In (EvArgs (name :: a ++ w :: b)) evs /\ incl a (map fst ((w0, k0) :: xs))).
  { intros H0; cbv zeta.
    assert (N : let evs := let (skipped, r) := span (fun p => negb (is_opt p)) ((w0, k0) :: xs ++ (w, Opt w None None) :: ys) in
                    map (fun p => EvExtra (fst p)) skipped ++ parse_words l n pos r in
       (exists e, In (EvFail e) evs) \/ In (EvExtra w) evs \/
       pos = SubPos /\ exists name a b, In (EvArgs (name :: a ++ w :: b)) evs /\ incl a (map fst ((w0, k0) :: xs))).
    { cbv zeta; cbn [span]; rewrite H0; cbn [negb].
      destruct (span_before (fun p => negb (is_opt p)) (w, Opt w None None) ys eq_refl xs) as (a & b & E & F).
      rewrite E; apply (R (map (fun p => EvExtra (fst p)) ((w0, k0) :: a)) ((w0, k0) :: a) b); [rewrite F; reflexivity|discriminate|auto]. }
    cbv zeta in N; revert N; generalize (let (skipped, r) := span (fun p => negb (is_opt p)) ((w0, k0) :: xs ++ (w, Opt w None None) :: ys) in
                    map (fun p => EvExtra (fst p)) skipped ++ parse_words l n pos r) as other; intros other N.
    destruct pos; cbn [consume_positionals].
    - exact N.
    - cbn [span]; destruct (span_before is_sep (w, Opt w None None) ys eq_refl xs) as (a & b & E & F).
      destruct (is_sep (w0, k0)) eqn:Es.
      + rewrite E; destruct b as [|[w1 k1] b]; cbn [app]; [exact N|]; destruct k1; try exact N.
        destruct (span_before is_sep (w, Opt w None None) ys eq_refl b) as (a' & b' & E' & F'); rewrite E'.
        apply (R [EvArgs _] ((w0, k0) :: a ++ (w1, Plain) :: a') b' NoPos); [rewrite F, F'; cbn [app]; rewrite <- app_assoc; reflexivity|discriminate|auto].
      + destruct k0; try discriminate; try exact N.
        rewrite E; apply (R [EvArgs _] ((w0, Plain) :: a) b NoPos); [rewrite F; reflexivity|discriminate|auto].
    - cbn [span]; rewrite H0; cbn [negb].
      destruct (span_before (fun p => negb (is_opt p)) (w, Opt w None None) ys eq_refl xs) as (a & b & E & F); rewrite E.
      destruct (existsb is_plain ((w0, k0) :: a)); [|exact N].
      apply (R [EvArgs _] ((w0, k0) :: a) b NoPos); [rewrite F; reflexivity|discriminate|auto].
    - match goal with |- context [let (_, r0) := span is_sep ?z in _] => destruct (span is_sep z) as [a b] end.
      destruct b as [|[w1 k1] b]; [exact N|]; destruct k1; try exact N.
      right; right; split; [reflexivity|]; exists w0, (map fst xs), (map fst ys); split; [left; cbn [map fst]; rewrite map_app; reflexivity|].
      cbn [map fst]; apply incl_tl, incl_refl. }
  destruct k0 as [| |s [o|] ex|]; try (exact (K eq_refl)).
  - destruct (consume_optional l s o ex _) as [[occs r]|e] eqn:Ec; [|left; exists e; left; reflexivity].
    destruct (consume_suffix _ _ _ _ _ _ _ Ec) as [->|(x & Ex)].
    + apply (R (map EvOpt occs) [(w0, Opt s (Some o) ex)] xs); [reflexivity|discriminate|auto].
    + destruct xs as [|x1 xs]; [discriminate|]; cbn [app] in Ex; injection Ex as -> <-.
      apply (R (map EvOpt occs) [(w0, Opt s (Some o) ex); (x, Plain)] xs); [reflexivity|discriminate|auto].
  - apply (R [EvExtra w0] [(w0, Opt s None ex)] xs); [reflexivity|discriminate|auto].
Qed.
Lemma events_unknown l pos w before rest : ~ In [dash; dash] before -> unknown l w ->
  let evs := events l pos (before ++ w :: rest) in
  (exists e, In (EvFail e) evs) \/ In (EvExtra w) evs \/
  (pos = SubPos /\ exists name a b, In (EvArgs (name :: a ++ w :: b)) evs /\ incl a before).
Proof.
  intros Hb Hu; cbv zeta; unfold events; destruct (classify_all l (before ++ w :: rest)) as [ws|e] eqn:E; [|left; exists e; left; reflexivity].
  assert (Hw : w <> [dash; dash]) by (destruct Hu as ((c & r & ->) & _); discriminate).
  destruct (classify_split l w before Hb Hw (classify_unknown l w Hu) rest ws E) as (xs & ys & -> & <-).
  apply parse_unknown; lia.
Qed.

(** An option that neither the main parser nor a command knows is a usage error wherever it is written before [--]. *)
Theorem C133_unknown fresh top commands before w rest :
  ~ In (u "--") before -> unknown (option_strings short_global top) w ->
  (forall name c, commands name = Some c -> c_positional c <> SubPos /\ unknown (option_strings (c_short c) (c_options c)) w) ->
  exists e, parse_argv fresh top commands (before ++ w :: rest) = Err e /\ usual e.
Proof.
  intros Hb Hu Hc; destruct (parse_argv fresh top commands (before ++ w :: rest)) as [[ns called]|e] eqn:H;
    [exfalso|exists e; split; [reflexivity|exact (C133_outcomes _ _ _ _ _ H)]].
  unfold parse_argv in H; apply bind_Ok in H; destruct H as ([[n1 c1] x1] & H & E).
  destruct x1; [discriminate|]; clear E; destruct (main_ok _ _ _ _ _ _ _ _ _ _ H) as (A & _ & C & _ & F).
  destruct (events_unknown (option_strings short_global top) SubPos w before rest Hb Hu) as [(e & X)|[X|(_ & name & a & b & X & I)]];
    [exact (A e X)|discriminate (C w X)|].
  destruct (F _ _ X) as (c & m1 & m2 & keys & x & Ec & Hr & Hx & _).
  destruct (command_ok _ _ _ _ _ _ _ Hr) as (A' & _ & D').
  assert (Ha : ~ In [dash; dash] a) by (intros Y; exact (Hb (I _ Y))).
  destruct (Hc _ _ Ec) as (Hs & Hw).
  destruct (events_unknown _ (c_positional c) w a b Ha Hw) as [(e & Y)|[Y|(Y & _)]]; [exact (A' e Y)|discriminate (Hx (D' w Y))|exact (Hs Y)].
Qed.

(** Which words that begin with a dash and are no option can be values or keys: numbers and words with a space. *)
Definition decimal (r : text) : Prop :=
  exists a b, Forall (fun x => In x (u "0123456789")) (a ++ b) /\ (r = a /\ b = [] /\ a <> [] \/ r = a ++ 46%N :: b /\ b <> []).
Lemma digit_spec x : digit x = true <-> In x (u "0123456789").
Proof.
  unfold digit, u; cbn; rewrite andb_true_iff, !N.leb_le; split; [|intuition lia].
  intros [H1 H2].
  assert (D : (x = 48 \/ x = 49 \/ x = 50 \/ x = 51 \/ x = 52 \/ x = 53 \/ x = 54 \/ x = 55 \/ x = 56 \/ x = 57)%N) by lia; intuition.
Qed.
Lemma digits_spec r : forallb digit r = true <-> Forall (fun x => In x (u "0123456789")) r.
Proof. rewrite forallb_forall, Forall_forall; split; intros H x Hx; apply digit_spec, H, Hx. Qed.
Theorem C133_dash_words l x r :
  let w := 45%N :: x :: r in
  get w l = None -> (forall a b, split_once equals_sign w = Some (a, b) -> get a l = None) ->
  (forall s o t, In (s, o) l -> s <> firstn 2 w /\ s <> w ++ t) -> x <> 45%N ->
  classify l w = Plain <-> decimal (x :: r) \/ In 32%N w.
Proof.
  intros w Hg He Hs Hx.
  assert (Hc : candidates l x w = []).
  { unfold candidates; destruct (eqb_spec x dash) as [->|_]; [exfalso; apply Hx; reflexivity|].
    revert Hs; generalize w; clear; intros w Hs; induction l as [|[s o] t IH]; [reflexivity|]; cbn [flat_map fst].
    destruct (Hs s o [] (or_introl eq_refl)) as [H1 _]; destruct (eqb_spec s (firstn 2 w)) as [|_]; [contradiction|].
    destruct (is_prefix w s) eqn:P; [apply prefix_app in P; destruct P as (z & P); destruct (Hs s o z (or_introl eq_refl)) as [_ H2]; contradiction|].
    cbn [app]; apply IH; intros s' o' t' Hi; apply (Hs s' o' t'); right; exact Hi. }
  assert (E : classify l w = if negative_number (x :: r) then Plain else if existsb (eqb 32%N) w then Plain else Opt w None None).
  { subst w; unfold classify; change (negb (eqb 45%N dash)) with false; cbv iota; rewrite Hg, Hc.
    destruct (split_once equals_sign (45%N :: x :: r)) as [[a b]|] eqn:Es; [rewrite (He a b eq_refl)|]; reflexivity. }
  assert (Hn : negative_number (x :: r) = true <-> decimal (x :: r)).
  { unfold negative_number; rewrite orb_true_iff; split.
    - intros [H|H].
      + exists (x :: r), []; rewrite app_nil_r; split; [apply digits_spec, H|left; repeat split; discriminate].
      + destruct (split_once 46%N (x :: r)) as [[a b]|] eqn:Es; [|discriminate]; apply split_once_Some in Es; destruct Es as [Es _].
        apply andb_prop in H; destruct H as [H1 H2]; exists a, b; split; [|right; split; [exact Es|destruct b; [discriminate|congruence]]].
        apply Forall_app; split; apply digits_spec; [exact H1|]; destruct b; [discriminate|exact H2].
    - intros (a & b & F & [(-> & -> & Ha)|(Er & Hb)]).
      + left; rewrite app_nil_r in F; apply digits_spec in F; unfold all_digits; destruct a; [contradiction|exact F].
      + right; rewrite Er, split_once_app.
        * apply Forall_app in F; destruct F as [F1 F2]; apply digits_spec in F1; apply digits_spec in F2; rewrite F1; unfold all_digits; destruct b; [contradiction|exact F2].
        * intros Hi; apply Forall_app in F; destruct F as [F1 _]; rewrite Forall_forall in F1; specialize (F1 _ Hi); apply digit_spec in F1; discriminate. }
  assert (Hsp : existsb (eqb 32%N) w = true <-> In 32%N w).
  { rewrite existsb_exists; split; [intros (y & Hy & Ey); destruct (eqb_spec 32%N y) as [<-|]; [exact Hy|discriminate]|intros H; exists 32%N; split; [exact H|apply eqb_refl]]. }
  rewrite E, <- Hn, <- Hsp; destruct (negative_number (x :: r)), (existsb (eqb 32%N) w); intuition discriminate.
Qed.

(** [--] before the command is taken for the command. *)
Theorem C133_separator_refuted fresh top commands rest :
  commands (u "--") = None -> parse_argv fresh top commands (u "--" :: rest) = Err (SystemExit 2).
Proof.
  intros Hc; unfold parse_argv, events; cbn [classify_all].
  change (eqb (u "--") [dash; dash]) with true; cbv iota; cbn [parse_words existsb].
  change (is_opt (u "--", Sep)) with false; cbn [orb].
  replace (existsb is_opt (map (fun x => (x, Plain)) rest)) with false by (clear; induction rest; auto).
  cbn [consume_positionals span]; change (is_sep (u "--", Sep)) with true; cbv iota.
  destruct rest as [|w rest]; [reflexivity|]; cbn [map span]; change (is_sep (w, Plain)) with false; cbv iota; cbn [map fst main_events].
  rewrite Hc; reflexivity.
Qed.

(** A command line that is not accepted: no command runs, nothing is printed besides the usage or help, and the exit code is
    2 for usage errors and 0 only for help and version. *)
Theorem C133_exit fresh top commands argv e func :
  parse_argv fresh top commands argv = Err e ->
  let run := Commands.main (let* _ := parse_argv fresh top commands argv in Ok tt) func in
  fst run = [] /\ (PropCommands.exit_code run = 0%Z /\ e = SystemExit 0 \/ PropCommands.exit_code run = 2%Z /\ e = SystemExit 2 \/
                   PropCommands.exit_code run = 1%Z /\ e = IndexError).
Proof.
  intros E; cbv zeta; rewrite E; cbn [bind Commands.main fst]; split; [reflexivity|].
  destruct (C133_outcomes _ _ _ _ _ E) as [-> | [-> | ->]]; [left|right; left|right; right]; split; reflexivity.
Qed.

(** ** The bundled commands *)
Definition shape_b (s : text) : bool :=
  match s with
  | x :: _ :: _ => eqb x 45%N && negb (eqb s (u "--")) && negb (existsb (eqb 61%N) s) && (eqb (List.length s) 2 || is_prefix (u "--") s)
  | _ => false
  end.
Lemma wf_check l : NoDup (map fst l) -> forallb shape_b (map fst l) = true -> wf_strings l.
Proof.
  intros Hn H; rewrite forallb_forall in H.
  assert (G : forall p, In p l -> (exists c r, fst p = 45%N :: c :: r /\ fst p <> u "--" /\ ~ In 61%N (fst p)) /\
                                  (List.length (fst p) = 2 \/ exists r, fst p = u "--" ++ r)).
  { intros p Hp; specialize (H _ (in_map fst _ _ Hp)); destruct (fst p) as [|x [|c r]]; try discriminate; unfold shape_b in H.
    apply andb_prop in H; destruct H as [H H4]; apply andb_prop in H; destruct H as [H H3]; apply andb_prop in H; destruct H as [H1 H2].
    destruct (eqb_spec x 45%N) as [->|]; [|discriminate]; split.
    - exists c, r; split; [reflexivity|split].
      + intros E; rewrite E in H2; discriminate.
      + intros E; apply negb_true_iff in H3; assert (E2 : existsb (eqb 61%N) (45%N :: c :: r) = true) by (apply existsb_exists; exists 61%N; split; [exact E|reflexivity]); congruence.
    - apply orb_prop in H4; destruct H4 as [H4|H4]; [left; destruct (eqb_spec (List.length (45%N :: c :: r)) 2); [assumption|discriminate]|].
      right; apply prefix_app in H4; destruct H4 as (r' & H4); exists r'; exact H4. }
  split; [exact Hn|split; apply Forall_forall; intros p Hp; apply (G p Hp)].
Qed.

Definition compat_b (top sub : list text) : bool :=
  forallb (fun s => existsb (eqb s) top || (List.length (filter (is_prefix s) top) <=? 1)) sub.
Lemma compat_check top sub : incl top sub -> compat_b (map fst top) (map fst sub) = true -> compatible top sub.
Proof.
  intros Hi H; split; [exact Hi|]; intros s o Hs; unfold compat_b in H; rewrite forallb_forall in H; specialize (H _ (in_map fst _ _ Hs)); cbn [fst] in H.
  apply orb_prop in H; destruct H as [H|H]; [left; apply existsb_exists in H; destruct H as (s' & Hs' & E); destruct (eqb_spec s s') as [->|]; [exact Hs'|discriminate]|right].
  intros s1 o1 r1 s2 o2 r2 H1 H2 E1 E2; apply (in_map fst) in H1; apply (in_map fst) in H2; cbn [fst] in H1, H2.
  assert (F1 : In s1 (filter (is_prefix s) (map fst top))) by (apply filter_In; split; [exact H1|apply prefix_app; eauto]).
  assert (F2 : In s2 (filter (is_prefix s) (map fst top))) by (apply filter_In; split; [exact H2|apply prefix_app; eauto]).
  destruct (filter (is_prefix s) (map fst top)) as [|x [|y t]]; [destruct F1| |discriminate].
  destruct F1 as [<-|[]], F2 as [<-|[]]; reflexivity.
Qed.
Lemma strings_incl short own d :
  incl (option_strings short_global (main_options d)) (option_strings (fun o => short o ++ short_global o) (command_options d own)).
Proof.
  intros q Hq; unfold option_strings in *; apply in_app_or in Hq; apply in_or_app; destruct Hq as [Hq|Hq]; [left|right; exact Hq].
  apply in_flat_map in Hq; destruct Hq as (o & Ho & Hq); apply in_flat_map; exists o; split.
  - unfold command_options; apply in_or_app; right; exact Ho.
  - rewrite <- app_assoc, map_app; apply in_or_app; right; exact Hq.
Qed.

Notation xd := PropCommandLine.xd.
(** The bundled parsers meet all the conditions. *)
Theorem C133_bundled name c : bundled_command xd name = Some c ->
  wf_strings (option_strings short_global (main_options xd)) /\
  wf_strings (option_strings (c_short c) (c_options c)) /\
  compatible (option_strings short_global (main_options xd)) (option_strings (c_short c) (c_options c)).
Proof.
  assert (W : forall l : list (text * opt), Sources.distinct (map fst l) = true -> forallb shape_b (map fst l) = true -> wf_strings l)
    by (intros l H1 H2; apply wf_check; [apply (proj1 (CacheProofs.distinct_NoDup _)); exact H1|exact H2]).
  assert (C : forall own short, compat_b (map fst (option_strings short_global (main_options xd)))
      (map fst (option_strings (fun o => short o ++ short_global o) (command_options xd own))) = true ->
      compatible (option_strings short_global (main_options xd)) (option_strings (fun o => short o ++ short_global o) (command_options xd own)))
    by (intros own short H; apply compat_check; [apply strings_incl|exact H]).
  intros H; split; [apply W; vm_compute; reflexivity|]; unfold bundled_command in H.
  repeat match type of H with (if ?b then _ else _) = _ => destruct b end; try discriminate; injection H as <-; cbn [c_short c_options];
    (split; [apply W; vm_compute; reflexivity|]);
    [refine (C _ (fun _ => []) _)|refine (C _ (fun _ => []) _)|refine (C _ (fun _ => []) _)|refine (C _ short_n _)|refine (C _ short_w _)]; vm_compute; reflexivity.
Qed.

(** The documented commands, their one-letter options, own options and keys; the options of xylem itself. *)
Definition own_strings (name : text) : option (positional * list (text * (text * bool))) :=
  match bundled_command xd name with
  | Some c => Some (c_positional c,
      filter (fun p => negb (existsb (eqb (fst p)) (map fst (option_strings short_global (main_options xd)))))
        (map (fun p => (fst p, (o_flag (snd p), takes_value (snd p)))) (option_strings (c_short c) (c_options c))))
  | None => None
  end.
Theorem C133_documented :
  let flag s := (u "--" ++ s, (s, false)) in
  (forall name, own_strings name =
     if eqb name (u "install") then Some (ManyPos, map flag [u "all"; u "reinstall"; u "dry-run"; u "continue-on-error"; u "fix-prerequisites"])
     else if eqb name (u "resolve") then Some (ManyPos, map flag [u "all"; u "show-default-installer"])
     else if eqb name (u "lookup") then Some (ManyPos, [])
     else if eqb name (u "update") then Some (NoPos, [(u "-n", (u "dry-run", false)); flag (u "dry-run")])
     else if eqb name (u "_compact_rules_file") then Some (OnePos, [(u "-w", (u "write", false)); flag (u "write")])
     else None) /\
  map (fun p => (fst p, o_flag (snd p))) (filter (fun p => eqb (List.length (fst p)) 2) (option_strings short_global (main_options xd))) =
    [(u "-v", u "verbose"); (u "-d", u "debug"); (u "-h", u "help")] /\
  (forall s, In s [u "verbose"; u "debug"; u "pdb"; u "no-color"; u "print-config"; u "no-user-config"; u "help"; u "version"; u "prefix";
                   u "xylem-dir"; u "os"; u "cache-dir"; u "sources-dir"; u "install-from"; u "core-installers"] ->
     exists o, In (u "--" ++ s, o) (option_strings short_global (main_options xd)) /\ o_flag o = s).
Proof.
  cbv zeta; split; [|split; [vm_compute; reflexivity|]].
  - intros name; unfold own_strings, bundled_command.
    repeat match goal with |- context [if eqb name ?x then _ else _] => destruct (eqb name x); [vm_compute; reflexivity|] end; reflexivity.
  - assert (G : forall s, existsb (fun p => eqb (fst p) (u "--" ++ s) && eqb (o_flag (snd p)) s) (option_strings short_global (main_options xd)) = true ->
      exists o, In (u "--" ++ s, o) (option_strings short_global (main_options xd)) /\ o_flag o = s).
    { intros s H; apply existsb_exists in H; destruct H as ([s' o] & Hi & H); cbn [fst snd] in H; apply andb_prop in H; destruct H as [H1 H2].
      destruct (eqb_spec s' (u "--" ++ s)) as [->|]; [|discriminate]; destruct (eqb_spec (o_flag o) s) as [E|]; [|discriminate]; exists o; split; [exact Hi|exact E]. }
    intros s Hs; cbn [In] in Hs; repeat (destruct Hs as [<-|Hs]; [apply G; vm_compute; reflexivity|]); destruct Hs.
Qed.

(** ** Examples *)
Example C133_nonvacuous :
  let strings := option_strings (fun o => [] ++ short_global o) (command_options xd install_options) in
  (exists o, names strings (u "--dry") o /\ o_flag o = u "dry-run" /\ takes_value o = false) /\
  written strings [(u "verbose", None); (u "debug", None)] [u "-vd"] /\
  parse_argv true (main_options xd) (bundled_command xd) [u "--prefix"; u "/x"; u "install"; u "--dry"; u "boost"; u "-vd"] =
    (let* ns := parse_command_line true (main_options xd) (command_options xd install_options)
       [(u "prefix", Some (u "/x"))] [(u "dry-run", None); (u "verbose", None); (u "debug", None)] in
     Ok (ns, Some (u "install", [u "boost"]))).
Proof.
  set (strings := option_strings _ _); cbv zeta.
  assert (Hin : forall s f, (match get s strings with Some o => eqb (o_flag o) f | None => false end) = true ->
     exists o, In (s, o) strings /\ get s strings = Some o /\ o_flag o = f).
  { intros s f H; destruct (get s strings) as [o|] eqn:E; [|discriminate]; exists o; split; [apply get_In, E|].
    split; [reflexivity|]; destruct (eqb_spec (o_flag o) f); [assumption|discriminate]. }
  assert (Hpre : forall a s s' o' r, filter (is_prefix a) (map fst strings) = [s] -> In (s', o') strings -> s' = a ++ r -> s' = s).
  { intros a s s' o' r H Hi E; assert (F : In s' (filter (is_prefix a) (map fst strings)))
      by (apply filter_In; split; [exact (in_map fst _ _ Hi)|apply prefix_app; eauto]); rewrite H in F; destruct F as [<-|[]]; reflexivity. }
  split; [|split].
  - destruct (Hin (u "--dry-run") (u "dry-run") ltac:(vm_compute; reflexivity)) as (o & Ho & Eo & Ef); exists o; split; [|split; [exact Ef|]].
    + apply (names_abbreviated strings (u "--dry") (u "--dry-run") o 100%N (u "ry") (u "-run") Ho); [reflexivity| |reflexivity|].
      * intros H; vm_compute in H; intuition discriminate.
      * intros s' o' r'' Hi E; apply (Hpre (u "--dry") _ s' o' r''); [vm_compute; reflexivity|exact Hi|exact E].
    + vm_compute in Eo; injection Eo as <-; reflexivity.
  - destruct (Hin (u "-v") (u "verbose") ltac:(vm_compute; reflexivity)) as (o & Ho & Eo & Ef).
    destruct (Hin (u "-d") (u "debug") ltac:(vm_compute; reflexivity)) as (o' & Ho' & Eo' & Ef'); rewrite <- Ef, <- Ef'.
    apply (wr_letters strings 118%N 100%N [] o o' [] Ho Ho' (Forall2_nil _)).
    + vm_compute in Eo; injection Eo as <-; vm_compute in Eo'; injection Eo' as <-; repeat constructor.
    + discriminate.
    + intros s o2 r Hi E.
      assert (F : In s (filter (is_prefix (u "-vd")) (map fst strings))) by (apply filter_In; split; [exact (in_map fst _ _ Hi)|apply prefix_app; eauto]).
      vm_compute in F; exact F.
  - vm_compute; reflexivity.
Qed.

Example C133_more_nonvacuous :
  let run := parse_argv true (main_options xd) (bundled_command xd) in
  (forall name c, bundled_command xd name = Some c -> c_positional c <> SubPos) /\
  unknown (option_strings short_global (main_options xd)) (u "--frob") /\
  run [u "install"; u "--frob"; u "boost"] = Err (SystemExit 2) /\ run [u "--frob"; u "update"] = Err (SystemExit 2) /\
  run [] = Err (SystemExit 2) /\ run [u "frob"] = Err (SystemExit 2) /\ run [u "update"; u "boost"] = Err (SystemExit 2) /\
  (let* r := run [u "install"; u "-v"; u "--"; u "--frob"; u "-5"] in Ok (snd r)) = Ok (Some (u "install", [u "--frob"; u "-5"])) /\
  (let* r := run [u "install"; u "-5.5"; u "-x y"] in Ok (snd r)) = Ok (Some (u "install", [u "-5.5"; u "-x y"])).
Proof.
  cbv zeta; split.
  { intros name c H; unfold bundled_command in H.
    repeat match type of H with (if ?b then _ else _) = _ => destruct b end; try discriminate; injection H as <-; discriminate. }
  split.
  { split; [exists 102%N, (u "rob"); reflexivity|]; split; [intros H; vm_compute in H; intuition discriminate|].
    split; [intros H; vm_compute in H; intuition discriminate|].
    intros s o r Hi E; assert (F : existsb (fun p => is_prefix (u "--frob") (fst p)) (option_strings short_global (main_options xd)) = true)
      by (apply existsb_exists; exists (s, o); split; [exact Hi|apply prefix_app; exists r; exact E]); vm_compute in F; discriminate. }
  repeat split; vm_compute; reflexivity.
Qed.

Example C133_refuted_nonvacuous :
  let run := parse_argv true (main_options xd) (bundled_command xd) in
  run [u "install"; u "boost"; u "--all"; u "curl"] = Err (SystemExit 2) /\
  run [u "install"; u "--all"] = Err (SystemExit 2) /\
  run [u "--prefix"; u "-x"; u "update"] = Err (SystemExit 2) /\
  (exists r, run [u "--prefix=-x"; u "update"] = Ok r) /\
  run [u "-v="] = Err IndexError /\ run [u "--vers"; u "install"] = Err (SystemExit 0) /\
  run [u "install"; u "--re"; u "--con"; u "boost"] <> Err (SystemExit 2) /\
  run [u "install"; u "--p"; u "boost"] = Err (SystemExit 2).
Proof.
  cbv zeta; split; [vm_compute; reflexivity|]; split; [vm_compute; reflexivity|]; split; [vm_compute; reflexivity|].
  split; [eexists; vm_compute; reflexivity|]; split; [vm_compute; reflexivity|]; split; [vm_compute; reflexivity|].
  split; [vm_compute; discriminate|vm_compute; reflexivity].
Qed.

Print Assumptions C133_as_written.
Print Assumptions C133_keys_apart_refuted.
Print Assumptions C133_all_needs_key.
Print Assumptions C133_dash_value_refuted.
Print Assumptions C133_crash_refuted.
Print Assumptions C133_leaves.
Print Assumptions C133_outcomes.
Print Assumptions C133_accepted.
Print Assumptions C133_separator_refuted.
Print Assumptions C133_unknown.
Print Assumptions C133_after_separator.
Print Assumptions C133_dash_words.
Print Assumptions C133_documented.
Print Assumptions C133_exit.
Print Assumptions C133_bundled.
