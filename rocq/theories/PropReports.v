(** C131 and C132: what is shown of an exception. *)
From Verif Require Import Base Dict PyVal Sources Util Terminal Paths Output Reports PropOutput.
From Coq Require Import Lia ZArith.
Notation S := Datatypes.S.

(** ** The specification *)
(** A character that is not ASCII is shown as a backslash, a letter that says how many digits follow, and its number in
    hexadecimal digits. *)
Definition digit_of (d : N) (v : N) : Prop := (d = 48 + v /\ v < 10)%N \/ (d = 87 + v /\ 10 <= v < 16)%N.
Inductive number_of : text -> N -> Prop :=
| number_nil : number_of [] 0
| number_snoc s c d v : number_of s c -> digit_of d v -> number_of (s ++ [d]) (16 * c + v).

Inductive shows_char : N -> text -> Prop :=
| shows_ascii c : (c < 128)%N -> shows_char c [c]
| shows_x c s : (128 <= c < 256)%N -> List.length s = 2 -> number_of s c -> shows_char c (u "\x" ++ s)
| shows_u c s : (256 <= c < 65536)%N -> List.length s = 4 -> number_of s c -> shows_char c (u "\u" ++ s)
| shows_U c s : (65536 <= c)%N -> List.length s = 8 -> number_of s c -> shows_char c (u "\U" ++ s).

(** How a message is shown: text character by character, bytes as they are. *)
Inductive shows : pystr -> text -> Prop :=
| shows_text t l : Forall2 shows_char t l -> shows (Text t) (List.concat l)
| shows_bytes b : shows (Bytes b) b.

Definition line_of (name s : text) : text := match s with [] => name | _ => name ++ u ": " ++ s end.

(** The exceptions of a chain, the exception itself first. *)
Fixpoint chain {T} (e : exc T) : list (text * pystr) :=
  match e with
  | Exc n m _ None => [(n, m)]
  | Exc n m _ (Some c) => (n, m) :: chain c
  end.
Definition ascii (t : text) : Prop := Forall (fun c => (c < 128)%N) t.
(** Messages that can be shown: any text, and ASCII bytes. *)
Definition printable (m : pystr) : Prop := match m with Text _ => True | Bytes b => ascii b end.
Definition codes (t : text) : Prop := Forall (fun c => (c < 1114112)%N) t.
Definition code_message (m : pystr) : Prop := match m with Text t => codes t | Bytes _ => True end.

(** ** Digits *)
Lemma hex_digit_of v : (v < 16)%N -> digit_of (hex_digit v) v.
Proof. intros H; unfold hex_digit, digit_of; destruct (N.ltb_spec v 10); [left|right]; lia. Qed.

Lemma hex_digits_length n c : List.length (hex_digits n c) = n.
Proof. revert c; induction n as [|n IH]; intros c; cbn [hex_digits]; [reflexivity|]; rewrite app_length, IH; cbn; lia. Qed.

Lemma hex_digits_number n c : (c < 16 ^ N.of_nat n)%N -> number_of (hex_digits n c) c.
Proof.
  revert c; induction n as [|n IH]; intros c H; cbn [hex_digits].
  - cbn in H; replace c with 0%N by lia; constructor.
  - assert (E : c = (16 * (c / 16) + c mod 16)%N) by (apply N.div_mod; lia).
    rewrite E at 3; constructor.
    + apply IH; rewrite Nnat.Nat2N.inj_succ, N.pow_succ_r' in H; apply N.div_lt_upper_bound; lia.
    + apply hex_digit_of, N.mod_lt; lia.
Qed.

Lemma digit_det d v v' : digit_of d v -> digit_of d v' -> v = v'.
Proof. unfold digit_of; lia. Qed.

Lemma number_det s c c' : number_of s c -> number_of s c' -> c = c'.
Proof.
  intros H; revert c'; induction H as [|s c d v H IH Hd]; intros c' H'; inversion H' as [E1 E2|s' c0 d' v' K1 K2 E1 E2].
  - reflexivity.
  - destruct s'; discriminate.
  - destruct s; discriminate.
  - apply app_inj_tail in E1; destruct E1 as [-> ->]; rewrite (IH _ K1), (digit_det _ _ _ Hd K2); reflexivity.
Qed.

Lemma number_ascii s c : number_of s c -> ascii s.
Proof.
  induction 1 as [|s c d v H IH Hd]; [constructor|]; apply Forall_app; split; [exact IH|constructor; [|constructor]].
  unfold digit_of in Hd; lia.
Qed.

(** ** One message *)
Lemma escaped_char_shows c : (c < 1114112)%N -> shows_char c (escaped_char c).
Proof.
  intros Hc; unfold escaped_char; destruct (N.ltb_spec c 128); [constructor; assumption|].
  destruct (N.ltb_spec c 256); [|destruct (N.ltb_spec c 65536)].
  - apply (shows_x c (hex_digits 2 c)); [lia|apply hex_digits_length|apply hex_digits_number; cbn; lia].
  - apply (shows_u c (hex_digits 4 c)); [lia|apply hex_digits_length|apply hex_digits_number; cbn; lia].
  - apply (shows_U c (hex_digits 8 c)); [lia|apply hex_digits_length|apply hex_digits_number; cbn; lia].
Qed.

Lemma ascii_text_iff t : ascii_text t = true <-> ascii t.
Proof.
  unfold ascii_text, ascii; rewrite forallb_forall, Forall_forall; split; intros H c Hc; specialize (H c Hc);
    [apply N.ltb_lt|apply N.ltb_lt]; exact H.
Qed.

Lemma hex_digits_ascii n c : ascii (hex_digits n c).
Proof.
  revert c; induction n as [|n IH]; intros c; cbn [hex_digits]; [constructor|]; apply Forall_app; split; [apply IH|].
  constructor; [|constructor]; assert (H : (c mod 16 < 16)%N) by (apply N.mod_lt; lia).
  unfold hex_digit; destruct (N.ltb_spec (c mod 16) 10); lia.
Qed.

Lemma escaped_char_ascii c : ascii (escaped_char c).
Proof.
  unfold escaped_char; destruct (N.ltb_spec c 128); [constructor; [assumption|constructor]|].
  destruct (N.ltb c 256); [|destruct (N.ltb c 65536)];
    (constructor; [unfold backslash; lia|constructor; [lia|apply hex_digits_ascii]]).
Qed.

Lemma escaped_ascii t : ascii (flat_map escaped_char t).
Proof. induction t as [|c t IH]; cbn [flat_map]; [constructor|]; apply Forall_app; split; [apply escaped_char_ascii|exact IH]. Qed.

Lemma escaped_plain t : ascii t -> flat_map escaped_char t = t.
Proof.
  induction 1 as [|c t Hc Ht IH]; cbn [flat_map]; [reflexivity|]; rewrite IH; unfold escaped_char.
  destruct (N.ltb_spec c 128); [reflexivity|lia].
Qed.

Lemma some_str_text t : some_str (Text t) = flat_map escaped_char t.
Proof.
  cbn [some_str]; destruct (ascii_text t) eqn:E; [|reflexivity]; apply ascii_text_iff in E; symmetry; apply escaped_plain, E.
Qed.

Lemma shows_some_str m : code_message m -> shows m (some_str m).
Proof.
  destruct m as [t|b]; [|intros _; constructor]; intros H; rewrite some_str_text, flat_map_concat_map; constructor.
  cbn in H; induction H as [|c t Hc Ht IH]; cbn [map]; constructor; [apply escaped_char_shows, Hc|exact IH].
Qed.

Lemma number_inj n : forall s s' c, List.length s = n -> List.length s' = n -> number_of s c -> number_of s' c -> s = s'.
Proof.
  induction n as [|n IH]; intros s s' c L L' H H'.
  - destruct s; [|discriminate]; destruct s'; [reflexivity|discriminate].
  - inversion H as [E1 E2|s1 c1 d v K1 K2 E1 E2]; [subst; discriminate|].
    inversion H' as [E3 E4|s1' c1' d' v' K1' K2' E3 E4]; [subst; discriminate|].
    rewrite <- E1, app_length in L; rewrite <- E3, app_length in L'; cbn [List.length] in L, L'.
    assert (Hv : (v < 16)%N) by (unfold digit_of in K2; lia).
    assert (Hv' : (v' < 16)%N) by (unfold digit_of in K2'; lia).
    assert (Ec : c1 = c1') by lia; assert (Ev : v = v') by lia; subst c1' v'.
    rewrite (IH s1 s1' c1) by (assumption || lia); f_equal; f_equal; unfold digit_of in *; lia.
Qed.

(** Every character is shown in one way only. *)
Lemma shows_char_det c s s' : shows_char c s -> shows_char c s' -> s = s'.
Proof.
  intros H H'.
  destruct H as [c H|c s H L K|c s H L K|c s H L K]; inversion H' as [c' Q|c' t Q L' K'|c' t Q L' K'|c' t Q L' K']; subst; try lia;
    try reflexivity; f_equal; eapply number_inj; eassumption.
Qed.

(** ** The whole report *)
Fixpoint exc_rect' {T} (P : exc T -> Prop) (H0 : forall n m s, P (Exc n m s None))
  (H1 : forall n m s c, P c -> P (Exc n m s (Some c))) (e : exc T) : P e :=
  match e with
  | Exc n m s None => H0 n m s
  | Exc n m s (Some c) => H1 n m s c (exc_rect' P H0 H1 c)
  end.

Lemma exception_only_line n m : exception_only n m = line_of n (some_str m) ++ [nl].
Proof.
  unfold exception_only, line_of; destruct (some_str m); [reflexivity|]; rewrite <- !app_assoc; reflexivity.
Qed.

Lemma some_str_printable m : ascii (some_str m) <-> printable m.
Proof.
  destruct m as [t|b]; [|reflexivity]; rewrite some_str_text; split; [constructor|intros _; apply escaped_ascii].
Qed.

Lemma line_ascii n m : ascii n -> (ascii (exception_only n m) <-> printable m).
Proof.
  intros Hn; rewrite exception_only_line, <- some_str_printable; unfold ascii, line_of.
  rewrite Forall_app; split.
  - intros [H _]; destruct (some_str m); [constructor|]; apply Forall_app in H; destruct H as [_ H]; apply Forall_app in H; apply H.
  - intros H; split; [|repeat constructor]; destruct (some_str m); [exact Hn|].
    apply Forall_app; split; [exact Hn|]; apply Forall_app; split; [repeat constructor|exact H].
Qed.

Section Reports.
  Context {T : Type}.
  Variable show_tb : T -> list N.
  Notation report := (report show_tb).

  Lemma parts_plain (e : exc T) : Forall (fun p => ascii (fst p)) (chain e) -> forall acc,
    (Forall (fun p => printable (snd p)) (chain e) ->
     report_parts show_tb None e None acc = Ok (rev (map (fun p => exception_only (fst p) (snd p)) (chain e)) ++ acc)) /\
    (~ Forall (fun p => printable (snd p)) (chain e) -> report_parts show_tb None e None acc = Err ValueError).
  Proof.
    induction e as [n m s|n m s c IH] using exc_rect'; intros Hn acc; cbn [chain report_parts]; unfold format_no_chain.
    - cbn [app chain] in *; inversion Hn as [|? ? Hn1 _]; subst; cbn [fst] in Hn1.
      destruct (ascii_text (exception_only n m)) eqn:E; cbn [bind]; split; intros H; try reflexivity.
      + exfalso; apply H; constructor; [|constructor]; apply (line_ascii n m Hn1), ascii_text_iff, E.
      + exfalso; inversion H as [|? ? H1 _]; subst; cbn [snd] in H1; apply (line_ascii n m Hn1) in H1; apply ascii_text_iff in H1; congruence.
    - cbn [chain] in Hn; inversion Hn as [|? ? Hn1 Hn2]; subst; cbn [fst] in Hn1; cbn [app].
      destruct (ascii_text (exception_only n m)) eqn:E; cbn [bind].
      + assert (Hm : printable m) by (apply (line_ascii n m Hn1), ascii_text_iff, E).
        destruct (IH Hn2 (exception_only n m :: acc)) as [I1 I2]; split; intros H.
        * inversion H as [|? ? _ H2]; subst; rewrite (I1 H2); cbn [map rev fst snd]; rewrite <- app_assoc; reflexivity.
        * apply I2; intros H2; apply H; constructor; [exact Hm|exact H2].
      + split; intros H; [|reflexivity].
        exfalso; inversion H as [|? ? H1 _]; subst; cbn [snd] in H1; apply (line_ascii n m Hn1) in H1; apply ascii_text_iff in H1; congruence.
  Qed.

  (** An exception can be reported exactly if all messages of its chain are texts or ASCII. *)
  Theorem C131_reported_exactly (e : exc T) : Forall (fun p => ascii (fst p)) (chain e) ->
    (Forall (fun p => printable (snd p)) (chain e) <-> exists t, report e None = Ok t) /\
    (~ Forall (fun p => printable (snd p)) (chain e) -> report e None = Err ValueError).
  Proof.
    intros Hn; destruct (parts_plain e Hn []) as [P1 P2]; unfold Reports.report; split; [split|].
    - intros H; rewrite (P1 H); eexists; reflexivity.
    - intros (t & Ht). assert (D : Forall (fun p => printable (snd p)) (chain e) \/ ~ Forall (fun p => printable (snd p)) (chain e)).
      { clear; induction (chain e) as [|[n m] l IH]; [left; constructor|].
        assert (Dm : printable m \/ ~ printable m).
        { rewrite <- some_str_printable, <- ascii_text_iff; destruct (ascii_text (some_str m)); [left; reflexivity|right; discriminate]. }
        destruct Dm as [Dm|Dm]; [|right; intros H; inversion H; subst; auto].
        destruct IH as [IH|IH]; [left; constructor; assumption|right; intros H; inversion H; subst; auto]. }
      destruct D as [D|D]; [exact D|]; rewrite (P2 D) in Ht; discriminate.
    - intros H; rewrite (P2 H); reflexivity.
  Qed.

  (** What it says: one line for each exception, the root cause first, its class and its message. *)
  Theorem C131_content (e : exc T) : Forall (fun p => ascii (fst p)) (chain e) ->
    Forall (fun p => printable (snd p) /\ code_message (snd p)) (chain e) ->
    exists lines, Forall2 (fun p l => exists s, shows (snd p) s /\ l = line_of (fst p) s) (chain e) lines /\
      exists t k, report e None = Ok t /\ (forall s, t <> s ++ [nl]) /\
        t ++ repeat nl k =
          join (u " --- The above error was the direct cause of the following:" ++ [nl]) (map (fun l => l ++ [nl]) (rev lines)).
  Proof.
    intros Hn Hm; exists (map (fun p => line_of (fst p) (some_str (snd p))) (chain e)); split.
    - clear Hn; induction Hm as [|p l [Hp Hc] Hl IH]; cbn [map]; constructor; [|exact IH].
      exists (some_str (snd p)); split; [apply shows_some_str, Hc|reflexivity].
    - unfold Reports.report; rewrite (proj1 (parts_plain e Hn [])) by (apply (Forall_impl _ (fun p H => proj1 H) Hm)); cbn [bind].
      rewrite app_nil_r; cbn [exc_link].
      destruct (rstrip_nl_spec (join (u " --- " ++ cause_text ++ [nl]) (rev (map (fun p => exception_only (fst p) (snd p)) (chain e)))))
        as (k & H1 & H2).
      eexists; exists k; split; [reflexivity|split; [exact H2|]].
      rewrite <- H1; unfold cause_text.
      change (u " --- The above error was the direct cause of the following:" ++ [nl])
        with (u " --- " ++ u "The above error was the direct cause of the following:" ++ [nl]).
      f_equal; rewrite map_rev; f_equal; rewrite map_map; apply map_ext; intros [n m]; apply exception_only_line.
  Qed.

  (** With tracebacks: the exceptions of the chain, each with its traceback: [tb] for the first, for the
      others what they stored. *)
  Fixpoint traced (e : exc T) (tb : option T) : list (text * pystr * option T) :=
    match e with
    | Exc n m _ None => [(n, m, tb)]
    | Exc n m _ (Some c) => (n, m, tb) :: traced c (match c with Exc _ _ s _ => s end)
    end.
  Definition all_ascii (p : text * pystr * option T) : Prop :=
    ascii (fst (fst p)) /\ printable (snd (fst p)) /\ (forall x, snd p = Some x -> ascii (show_tb x)).
  Inductive traced_lines : text * pystr * option T -> text -> Prop :=
  | tl_none n m s : shows m s -> traced_lines (n, m, None) (line_of n s ++ [10%N])
  | tl_some n m x s : shows m s ->
      traced_lines (n, m, Some x) (u "Traceback (most recent call last):" ++ [10%N] ++ show_tb x ++ line_of n s ++ [10%N]).

  Definition traced_text (p : text * pystr * option T) : text :=
    match snd p with Some t => u "Traceback (most recent call last):" ++ [nl] ++ show_tb t | None => [] end
      ++ exception_only (fst (fst p)) (snd (fst p)).
  Lemma format_traced n m tb : format_no_chain show_tb n m tb =
    if ascii_text (traced_text (n, m, tb)) then Ok (traced_text (n, m, tb)) else Err ValueError.
  Proof. reflexivity. Qed.
  Lemma traced_ascii p : ascii (fst (fst p)) -> (ascii (traced_text p) <-> all_ascii p).
  Proof.
    destruct p as [[n m] tb]; cbn [fst snd]; intros Hn; unfold traced_text, all_ascii; cbn [fst snd].
    unfold ascii at 1; rewrite Forall_app; fold (ascii (exception_only n m)); rewrite (line_ascii n m Hn).
    destruct tb as [x|]; split.
    - intros [H1 H2]; split; [exact Hn|split; [exact H2|]]; intros y E; injection E as <-.
      apply Forall_app in H1; destruct H1 as [_ H1]; apply Forall_app in H1; apply H1.
    - intros (_ & H2 & H3); split; [|exact H2]; apply Forall_app; split; [repeat constructor|].
      apply Forall_app; split; [repeat constructor|apply H3; reflexivity].
    - intros [_ H2]; split; [exact Hn|split; [exact H2|]]; discriminate.
    - intros (_ & H2 & _); split; [constructor|exact H2].
  Qed.

  Lemma parts_traced (e : exc T) x : forall tb, Forall (fun p => ascii (fst (fst p))) (traced e tb) -> forall acc,
    (Forall all_ascii (traced e tb) ->
     report_parts show_tb (Some x) e tb acc = Ok (rev (map traced_text (traced e tb)) ++ acc)) /\
    (~ Forall all_ascii (traced e tb) -> report_parts show_tb (Some x) e tb acc = Err ValueError).
  Proof.
    induction e as [n m s|n m s c IH] using exc_rect'; intros tb Hn acc; cbn [traced report_parts] in *;
      rewrite format_traced; inversion Hn as [|? ? Hn1 Hn2]; subst; pose proof (traced_ascii (n, m, tb) Hn1) as Ha;
      rewrite <- ascii_text_iff in Ha; destruct (ascii_text (traced_text (n, m, tb))); cbn [bind].
    - split; intros H; [reflexivity|exfalso; apply H; constructor; [apply Ha; reflexivity|constructor]].
    - split; intros H; [|reflexivity]; exfalso; inversion H as [|? ? H1 _]; subst; apply Ha in H1; discriminate.
    - destruct (IH _ Hn2 (traced_text (n, m, tb) :: acc)) as [I1 I2]; split; intros H.
      + inversion H as [|? ? _ H2]; subst; rewrite (I1 H2); cbn [map rev]; rewrite <- app_assoc; reflexivity.
      + apply I2; intros H2; apply H; constructor; [apply Ha; reflexivity|exact H2].
    - split; intros H; [|reflexivity]; exfalso; inversion H as [|? ? H1 _]; subst; apply Ha in H1; discriminate.
  Qed.

  (** What a report with tracebacks says: for each exception, the root cause first, its traceback (if there is one)
      under the heading and then its line. *)
  Theorem C131_traceback (e : exc T) x : Forall all_ascii (traced e (Some x)) ->
    Forall (fun p => code_message (snd (fst p))) (traced e (Some x)) ->
    exists blocks, Forall2 traced_lines (traced e (Some x)) blocks /\
      exists t k, report e (Some x) = Ok t /\ (forall s, t <> s ++ [10%N]) /\
        t ++ repeat 10%N k =
          join (10%N :: u "The above error was the direct cause of the following:" ++ [10; 10]%N) (rev blocks).
  Proof.
    intros Ha Hc; exists (map traced_text (traced e (Some x))); split.
    - clear Ha; induction Hc as [|[[n m] tb] l Hp Hl IH]; cbn [map]; constructor; [|exact IH].
      cbn [fst snd] in Hp; unfold traced_text; cbn [fst snd]; rewrite exception_only_line.
      destruct tb; [rewrite <- !app_assoc|]; constructor; apply shows_some_str, Hp.
    - unfold Reports.report; rewrite (proj1 (parts_traced e x (Some x) (Forall_impl _ (fun p (H : all_ascii p) => proj1 H) Ha) []) Ha); cbn [bind].
      rewrite app_nil_r; cbn [exc_link].
      destruct (rstrip_nl_spec (join ([nl] ++ cause_text ++ [nl; nl]) (rev (map traced_text (traced e (Some x)))))) as (k & H1 & H2).
      eexists; exists k; split; [reflexivity|split; [exact H2|]].
      etransitivity; [symmetry; exact H1|reflexivity].
  Qed.

  (** A traceback with a source line or a path that is not ASCII makes the report fail, also that of a cause. *)
  Theorem C131_source_refuted (e : exc T) x n m tb : Forall (fun p => ascii (fst (fst p))) (traced e (Some x)) ->
    In (n, m, Some tb) (traced e (Some x)) -> ~ ascii (show_tb tb) -> report e (Some x) = Err ValueError.
  Proof.
    intros Hn Hin Hs; unfold Reports.report; rewrite (proj2 (parts_traced e x (Some x) Hn [])); [reflexivity|].
    intros H; rewrite Forall_forall in H; destruct (H _ Hin) as (_ & _ & H3); exact (Hs (H3 tb eq_refl)).
  Qed.

  Lemma format_ascii n m tb t : format_no_chain show_tb n m tb = Ok t -> ascii t.
  Proof.
    unfold format_no_chain; destruct (ascii_text _) eqn:E; [|discriminate]; intros H; injection H as <-; apply ascii_text_iff, E.
  Qed.

  Lemma parts_ascii (e : exc T) tb : forall ntb acc l, Forall ascii acc -> report_parts show_tb tb e ntb acc = Ok l -> Forall ascii l.
  Proof.
    induction e as [n m s|n m s c IH] using exc_rect'; intros ntb acc l Ha H; cbn [report_parts] in H;
      apply bind_Ok in H; destruct H as (p & Ep & H); apply format_ascii in Ep.
    - injection H as <-; constructor; assumption.
    - apply IH in H; [exact H|constructor; assumption].
  Qed.

  Lemma parts_error (e : exc T) tb : forall ntb acc x, report_parts show_tb tb e ntb acc = Err x -> x = ValueError.
  Proof.
    induction e as [n m s|n m s c IH] using exc_rect'; intros ntb acc x H; cbn [report_parts] in H;
      apply bind_Err in H; (destruct H as [H|(p & Ep & H)];
        [unfold format_no_chain in H; destruct (ascii_text _); [discriminate|congruence]|]).
    - discriminate.
    - exact (IH _ _ _ H).
  Qed.

  Lemma join_ascii sep l : ascii sep -> Forall ascii l -> ascii (join sep l).
  Proof.
    intros Hs H; induction H as [|x l Hx Hl IH]; [constructor|]; cbn [join]; destruct l; [exact Hx|].
    apply Forall_app; split; [exact Hx|]; apply Forall_app; split; [exact Hs|exact IH].
  Qed.

  (** Whatever was raised, the report is ASCII, and the only failure is the decoding error. *)
  Theorem C131_ascii (e : exc T) tb :
    (forall t, report e tb = Ok t -> ascii t) /\ (forall x, report e tb = Err x -> x = ValueError).
  Proof.
    unfold Reports.report; split.
    - intros t H; apply bind_Ok in H; destruct H as (l & Hl & H); injection H as <-.
      apply parts_ascii in Hl; [|constructor].
      destruct (rstrip_nl_spec (join (exc_link tb) l)) as (k & E & _).
      assert (A : ascii (join (exc_link tb) l)).
      { apply join_ascii; [|exact Hl]; unfold ascii; apply ascii_text_iff; destruct tb; vm_compute; reflexivity. }
      rewrite E in A; apply Forall_app in A; apply A.
    - intros x H; apply bind_Err in H; destruct H as [H|(l & _ & H)]; [exact (parts_error _ _ _ _ _ H)|discriminate].
  Qed.
End Reports.

(** ** Legibility *)
Lemma app_split {A} (a b c d : list A) : List.length a = List.length b -> a ++ c = b ++ d -> a = b /\ c = d.
Proof.
  revert b; induction a as [|x a IH]; intros [|y b] L E; cbn in L; try discriminate; [split; [reflexivity|exact E]|].
  cbn in E; injection E as -> E; destruct (IH b) as [-> ->]; [lia|exact E|split; reflexivity].
Qed.

Lemma shows_char_prefix c c' s s' r r' : shows_char c s -> shows_char c' s' -> c <> backslash -> c' <> backslash ->
  s ++ r = s' ++ r' -> c = c' /\ r = r'.
Proof.
  intros H H' Hc Hc' E; unfold backslash in *.
  change (u "\x") with [92; 120]%N in *; change (u "\u") with [92; 117]%N in *; change (u "\U") with [92; 85]%N in *.
  destruct H as [c H|c s H L K|c s H L K|c s H L K]; destruct H' as [c' H'|c' s' H' L' K'|c' s' H' L' K'|c' s' H' L' K'];
    change (u "\x") with [92; 120]%N in *; change (u "\u") with [92; 117]%N in *; change (u "\U") with [92; 85]%N in *;
    cbn [app] in E; try discriminate E; injection E as E; try (exfalso; congruence).
  - split; assumption.
  - apply app_split in E; [|congruence]; destruct E as [-> ->]; split; [eapply number_det; eassumption|reflexivity].
  - apply app_split in E; [|congruence]; destruct E as [-> ->]; split; [eapply number_det; eassumption|reflexivity].
  - apply app_split in E; [|congruence]; destruct E as [-> ->]; split; [eapply number_det; eassumption|reflexivity].
Qed.

Lemma shows_inj t : forall l t' l', Forall2 shows_char t l -> Forall2 shows_char t' l' ->
  ~ In backslash t -> ~ In backslash t' -> List.concat l = List.concat l' -> t = t'.
Proof.
  assert (Hne : forall c s, shows_char c s -> s <> []) by (intros c s H; destruct H; discriminate).
  induction t as [|c t IH]; intros l t' l' H H' Hb Hb' E; inversion H as [|? s ? l0 Hs Hl]; subst;
    inversion H' as [|c' s' t0 l0' Hs' Hl']; subst; cbn [List.concat] in E.
  - reflexivity.
  - exfalso; apply (Hne _ _ Hs'); destruct s'; [reflexivity|discriminate].
  - exfalso; apply (Hne _ _ Hs); destruct s; [reflexivity|discriminate].
  - destruct (shows_char_prefix c c' s s' (List.concat l0) (List.concat l0') Hs Hs') as [-> Er];
      [intros ->; apply Hb; left; reflexivity|intros ->; apply Hb'; left; reflexivity|exact E|].
    f_equal; eapply IH; try eassumption; intros Hin; [apply Hb|apply Hb']; right; exact Hin.
Qed.

Lemma escaped_last t a : codes t -> flat_map escaped_char t = a ++ [nl] -> exists b, t = b ++ [nl].
Proof.
  destruct t as [|c t] using rev_ind; [intros _ E; destruct a; discriminate|]; intros Hc E.
  rewrite flat_map_app in E; cbn [flat_map] in E; rewrite app_nil_r in E; exists t; f_equal; f_equal.
  apply Forall_app in Hc; destruct Hc as [_ Hc]; inversion Hc as [|? ? Hc1 _]; subst.
  assert (D : exists s d, escaped_char c = s ++ [d] /\ (d = c /\ s = [] \/ (48 <= d)%N)).
  { assert (G : forall n c, 0 < n -> exists s d, hex_digits n c = s ++ [d] /\ (48 <= d)%N).
    { clear; intros [|n] c H; [lia|]; cbn [hex_digits]; eexists; eexists; split; [reflexivity|].
      unfold hex_digit; destruct (N.ltb_spec (c mod 16) 10); lia. }
    unfold escaped_char; destruct (N.ltb c 128); [exists [], c; split; [reflexivity|left; split; reflexivity]|].
    destruct (N.ltb c 256); [|destruct (N.ltb c 65536)];
      [destruct (G 2 c ltac:(lia)) as (s & d & -> & Hd); exists (backslash :: 120%N :: s), d
      |destruct (G 4 c ltac:(lia)) as (s & d & -> & Hd); exists (backslash :: 117%N :: s), d
      |destruct (G 8 c ltac:(lia)) as (s & d & -> & Hd); exists (backslash :: 85%N :: s), d];
      (split; [reflexivity|right; exact Hd]). }
  destruct D as (s & d & Ed & Hd); rewrite Ed, app_assoc in E; apply app_inj_tail in E; destruct E as [_ E].
  destruct Hd as [[-> _]|Hd]; [exact E|subst d; unfold nl in Hd; lia].
Qed.

Lemma rstrip_keeps s : (forall a, s <> a ++ [nl]) -> rstrip_nl (s ++ [nl]) = s.
Proof.
  intros H; unfold rstrip_nl; rewrite rev_app_distr; cbn [rev app drop_nl]; rewrite eqb_refl.
  destruct s as [|c s] using rev_ind; [reflexivity|]; rewrite rev_app_distr; cbn [rev app drop_nl].
  destruct (eqb_spec c nl) as [->|Hc]; [exfalso; exact (H s eq_refl)|].
  cbn [rev]; rewrite rev_involutive; reflexivity.
Qed.

Section Legible.
  Context {T : Type}.
  Variable show_tb : T -> list N.
  Notation report := (Reports.report show_tb).

  Lemma single_report name t (s : option T) : ascii name -> codes t -> (forall a, name <> a ++ [nl]) ->
    (forall a, t <> a ++ [nl]) ->
    report (Exc name (Text t) s None) None = Ok (line_of name (flat_map escaped_char t)).
  Proof.
    intros Hn Hc En Et; unfold Reports.report; cbn [report_parts]; unfold format_no_chain; cbn [app].
    assert (A : ascii_text (exception_only name (Text t)) = true) by (apply ascii_text_iff, line_ascii; [exact Hn|exact I]).
    rewrite A; cbn [bind join]; f_equal; rewrite exception_only_line, some_str_text; apply rstrip_keeps.
    intros a E; unfold line_of in E; destruct (flat_map escaped_char t) as [|c r] eqn:Ee; [exact (En a E)|].
    destruct (exists_last (l := c :: r)) as (r0 & d & Er); [discriminate|]; rewrite Er in E.
    rewrite app_assoc, app_assoc in E; apply app_inj_tail in E; destruct E as [_ ->].
    rewrite Er in Ee; destruct (escaped_last t r0 Hc Ee) as (b & Hb); exact (Et b Hb).
  Qed.

  (** Messages without a backslash can be read back from what is shown. *)
  Theorem C131_legible_partial name t t' (s s' : option T) out : ascii name -> (forall a, name <> a ++ [nl]) ->
    codes t -> codes t' -> ~ In backslash t -> ~ In backslash t' ->
    (forall a, t <> a ++ [nl]) -> (forall a, t' <> a ++ [nl]) ->
    report (Exc name (Text t) s None) None = Ok out -> report (Exc name (Text t') s' None) None = Ok out -> t = t'.
  Proof.
    intros Hn En Hc Hc' Hb Hb' Et Et'; rewrite !single_report by assumption; intros E E'; rewrite <- E' in E; clear E'.
    injection E as E.
    assert (Es : flat_map escaped_char t = flat_map escaped_char t').
    { unfold line_of in E; destruct (flat_map escaped_char t) as [|c r], (flat_map escaped_char t') as [|c' r'];
        try reflexivity.
      - exfalso; apply (f_equal (@List.length N)) in E; rewrite app_length in E; cbn in E; lia.
      - exfalso; apply (f_equal (@List.length N)) in E; rewrite app_length in E; cbn in E; lia.
      - apply app_inv_head in E; apply app_inv_head in E; exact E. }
    rewrite !flat_map_concat_map in Es.
    assert (F : forall t, codes t -> Forall2 shows_char t (map escaped_char t)).
    { intros x H; induction H as [|c x Hx Hl IH]; cbn [map]; constructor; [apply escaped_char_shows, Hx|exact IH]. }
    exact (shows_inj _ _ _ _ (F t Hc) (F t' Hc') Hb Hb' Es).
  Qed.

  (** Messages are not shown as they are, and two messages may look the same. *)
  Theorem C131_escaped_refuted : exists name t t',
    t <> t' /\ report (Exc name (Text t) None None) None = report (Exc name (Text t') None None) None /\
    report (Exc name (Text t) None None) None = Ok (u "ResolutionError: M\xfcnze").
  Proof.
    exists (u "ResolutionError"), (u "M" ++ [252%N] ++ u "nze"), (u "M\xfcnze").
    split; [discriminate|split; reflexivity].
  Qed.

  (** A message in bytes that are not ASCII, as PyYAML makes them from the text around an error in a file, anywhere in the
      chain: no report at all. *)
  Theorem C131_bytes_refuted name m (s : option T) b c : ~ ascii b -> ascii name -> ascii c ->
    report (Exc name (Text m) s (Some (Exc c (Bytes b) None None))) None = Err ValueError.
  Proof.
    intros Hb Hn Hc; apply (C131_reported_exactly show_tb (Exc name (Text m) s (Some (Exc c (Bytes b) None None)))).
    - repeat constructor; assumption.
    - intros H; inversion H as [|? ? _ H2]; subst; inversion H2 as [|? ? H3 _]; subst; exact (Hb H3).
  Qed.

  (** ** What reaches the terminal *)
  Variable bad_more : list N -> nat.
  Variable highlight : option (text -> text).
  Variable encoding : N -> option (list N).

  Lemma encoded_ascii t : (forall c, (c < 128)%N -> encoding c = Some [c]) -> ascii t -> encoded encoding t = Ok t.
  Proof.
    intros He H; induction H as [|c t Hc Ht IH]; [reflexivity|]; cbn [encoded]; rewrite (He c Hc), IH; reflexivity.
  Qed.

  (** Without pygments a report is printed whatever the encoding of the terminal is. *)
  Theorem C131_printed (e : exc T) tb t c : highlight = None -> (forall c, (c < 128)%N -> encoding c = Some [c]) ->
    report e tb = Ok t -> print_exc highlight encoding t c = (Ok tt, with_err c (t ++ [nl])).
  Proof.
    intros -> He Hr; unfold print_exc; rewrite encoded_ascii; [reflexivity|exact He|].
    apply (proj1 (C131_ascii show_tb e tb)), Hr.
  Qed.

  (** Printing in any encoding, with or without highlighting. *)
  Theorem C131_print_text s t c : (highlight = None /\ s = t) \/ (exists h, highlight = Some h /\ s = h t) ->
    (forall l, Forall2 (fun x b => encoding x = Some b) s l ->
       print_exc highlight encoding t c = (Ok tt, with_err c (List.concat l ++ [10%N]))) /\
    ((exists x, In x s /\ encoding x = None) -> print_exc highlight encoding t c = (Err ValueError, c)).
  Proof.
    intros Hs; assert (E : print_exc highlight encoding t c =
      match encoded encoding s with Err e => (Err e, c) | Ok b => (Ok tt, with_err c (b ++ [nl])) end).
    { unfold print_exc; destruct Hs as [[-> ->]|(h & -> & ->)]; reflexivity. }
    rewrite E; clear E Hs; split.
    - intros l H; replace (encoded encoding s) with (Ok (List.concat l)); [reflexivity|].
      induction H as [|x b s l Hx Hl IH]; [reflexivity|]; cbn [encoded List.concat]; rewrite Hx, <- IH; reflexivity.
    - intros (x & Hx & Ex); replace (encoded encoding s) with (Err (A := list N) ValueError); [reflexivity|].
      induction s as [|y s IH]; [destruct Hx|]; cbn [encoded].
      destruct (encoding y) as [b|] eqn:Ey; [|reflexivity].
      destruct Hx as [->|Hx]; [congruence|]; rewrite <- (IH Hx); reflexivity.
  Qed.

  (** The message of an error that ends xylem: once, on stderr, in bold red, and exit code 1; with --debug and for internal errors
      with tracebacks and without colours. *)
  Theorem C131_main (e : exc T) t current c x b r :
    c_debug c = false -> report e None = Ok t ->
    get (u "redf") (c_ansi c) = Some x -> get (u "boldon") (c_ansi c) = Some b -> get (u "reset") (c_ansi c) = Some r ->
    main_report show_tb bad_more highlight encoding false e current c =
      (Err (SystemExit 1), with_err c (encode (x ++ b ++ t ++ r) ++ [nl])).
  Proof.
    intros Hd Hr Hx Hb Hrr; unfold main_report; rewrite Hd, Hr; cbn [orb]; unfold log_error, ansi_code, getitem.
    rewrite Hx, Hb, Hrr; reflexivity.
  Qed.

  Theorem C131_main_debug (e : exc T) t internal current c : c_debug c = true \/ internal = true ->
    highlight = None -> (forall c, (c < 128)%N -> encoding c = Some [c]) -> report e (Some current) = Ok t ->
    main_report show_tb bad_more highlight encoding internal e current c =
      (Err (SystemExit 1), with_err c (t ++ [nl])).
  Proof.
    intros Hd Hh He Hr; unfold main_report; replace (c_debug c || internal) with true
      by (destruct Hd as [-> | ->]; [reflexivity|rewrite orb_true_r; reflexivity]).
    rewrite Hr, (C131_printed e (Some current) t c Hh He Hr); reflexivity.
  Qed.

  (** If there is no report, nothing is shown, and the process ends with the decoding error instead. *)
  Theorem C131_main_lost_refuted (e : exc T) current c : Forall (fun p => ascii (fst p)) (chain e) ->
    ~ Forall (fun p => printable (snd p)) (chain e) -> c_debug c = false ->
    main_report show_tb bad_more highlight encoding false e current c = (Err ValueError, c).
  Proof.
    intros Hn Hp Hd; unfold main_report; rewrite Hd; cbn [orb].
    rewrite (proj2 (C131_reported_exactly show_tb e Hn) Hp); reflexivity.
  Qed.

  (** The errors of resolve and install are shown together, each indented, or not at all. *)
  Definition indented (t : text) : text := join (nl :: u "  ") (split_on nl t).

  Theorem C131_errors (es : list (exc T)) c x b r : es <> [] ->
    Forall (fun e => Forall (fun p => ascii (fst p)) (chain e)) es ->
    get (u "redf") (c_ansi c) = Some x -> get (u "boldon") (c_ansi c) = Some b -> get (u "reset") (c_ansi c) = Some r ->
    (forall ts, Forall2 (fun e t => report e None = Ok t) es ts ->
       print_errors show_tb bad_more es c =
         (Ok tt, with_err c (encode (x ++ b ++ join [nl] (map indented ts) ++ r) ++ [nl]))) /\
    ((exists e, In e es /\ ~ Forall (fun p => printable (snd p)) (chain e)) ->
       print_errors show_tb bad_more es c = (Err ValueError, c)).
  Proof.
    intros Hne Hn Hx Hb Hr.
    assert (L : forall ts, Forall2 (fun e t => report e None = Ok t) es ts ->
      mapM (fun e => let* t := report e None in Ok (indent t 2 [32%N] true)) es = Ok (map indented ts)).
    { clear; induction 1 as [|e t es ts H Hl IH]; [reflexivity|]; cbn [mapM map]; rewrite H; cbn [bind]; rewrite IH; reflexivity. }
    unfold print_errors, errors_text; split.
    - intros ts Hts; rewrite (L ts Hts); clear L; destruct es; [congruence|]; cbn [bind].
      unfold log_error, ansi_code, getitem; rewrite Hx, Hb, Hr; reflexivity.
    - intros (e & Hin & He).
      assert (M : mapM (fun e => let* t := report e None in Ok (indent t 2 [32%N] true)) es = Err ValueError).
      { clear Hne L; induction es as [|e0 es IH]; [destruct Hin|]; inversion Hn as [|? ? Hn1 Hn2]; subst; cbn [mapM].
        destruct (report e0 None) as [t|y] eqn:E0; cbn [bind].
        - destruct Hin as [->|Hin]; [rewrite (proj2 (C131_reported_exactly show_tb e Hn1) He) in E0; discriminate|].
          rewrite (IH Hn2 Hin); reflexivity.
        - apply C131_ascii in E0; subst y; reflexivity. }
      rewrite M; destruct es; [congruence|reflexivity].
  Qed.

  (** ** C132: uncaught exceptions *)
  Theorem C132_reported (interactive tty : bool) (e : exc T) tb t c : highlight = None ->
    (forall c, (c < 128)%N -> encoding c = Some [c]) -> report e (Some tb) = Ok t ->
    exists debugger, custom_exception_handler show_tb highlight encoding interactive tty e tb c =
        (Ok tt, with_err c (t ++ [nl]), debugger) /\
      (debugger = true <-> c_pdb c = true /\ interactive = false /\ tty = true).
  Proof.
    intros Hh He Hr; unfold custom_exception_handler; rewrite Hr, (C131_printed e (Some tb) t c Hh He Hr).
    eexists; split; [reflexivity|]; cbn [with_err c_pdb]; destruct (c_pdb c), interactive, tty; cbn; intuition discriminate.
  Qed.

  (** No debugger is ever started without a printed report. *)
  Theorem C132_debugger_after_report (interactive tty : bool) (e : exc T) tb c r c' :
    custom_exception_handler show_tb highlight encoding interactive tty e tb c = (r, c', true) ->
    r = Ok tt /\ exists b, c' = with_err c (b ++ [nl]).
  Proof.
    unfold custom_exception_handler; destruct (report e (Some tb)) as [t|x]; [|discriminate].
    unfold print_exc; destruct (encoded encoding _) as [b|x]; [|discriminate].
    intros H; injection H as <- <- _; split; [reflexivity|exists b; reflexivity].
  Qed.
End Legible.

(** The handler belongs to the script named xylem alone: --pdb has no effect in xylem-update, the other console script. *)
Theorem C132_installed realpath argv0 dir name : realpath argv0 = dir ++ u "/" ++ name -> ~ In 47%N name ->
  hook_installed realpath argv0 = eqb name (u "xylem").
Proof.
  intros E Hn; unfold hook_installed, running_script_name; rewrite E; clear E; f_equal.
  assert (G : exists p l, split_on 47 (dir ++ u "/" ++ name) = p :: l ++ [name]).
  { change (u "/" ++ name) with (47%N :: name).
    induction dir as [|x dir (p & l & IH)]; cbn [app split_on].
    - rewrite eqb_refl, split_on_none by exact Hn; exists [], []; reflexivity.
    - destruct (eqb x 47%N); rewrite IH; [exists [], (p :: l)|exists (x :: p), l]; reflexivity. }
  destruct G as (p & l & ->); rewrite app_comm_cons; apply last_last.
Qed.

Theorem C132_xylem_update_refuted realpath argv0 dir : realpath argv0 = dir ++ u "/xylem-update" ->
  hook_installed realpath argv0 = false.
Proof.
  intros E; rewrite (C132_installed realpath argv0 dir (u "xylem-update") E); [reflexivity|].
  cbn; intuition discriminate.
Qed.

(** ** The model of Output.v, on exceptions without a cycle *)
Definition exc_cause {T} (e : exc T) : option (exc T) := match e with Exc _ _ _ c => c end.
Definition exc_stored {T} (e : exc T) : option T := match e with Exc _ _ s _ => s end.
Definition exc_format {T} (show_tb : T -> list N) (e : exc T) (tb : option T) : text :=
  match e with Exc n m _ _ => match format_no_chain show_tb n m tb with Ok t => t | Err _ => [] end end.

Theorem C131_same_chain {T} (show_tb : T -> list N) same exc_info (e : exc T) tb t : report show_tb e tb = Ok t ->
  exists fuel, exc_to_str same (exc_format show_tb) exc_cause exc_stored fuel exc_info e
                 (match tb with Some x => Tb x | None => TbNone end) true = Some t.
Proof.
  unfold report; intros H; apply bind_Ok in H; destruct H as (l & Hl & H); injection H as <-.
  assert (G : forall (e : exc T) ntb acc l, report_parts show_tb tb e ntb acc = Ok l ->
    exists fuel, exc_parts (exc_format show_tb) exc_cause exc_stored fuel tb (Some e) ntb acc = Some l).
  { clear; intros e; induction e as [n m s|n m s c IH] using exc_rect'; intros ntb acc l H; cbn [report_parts] in H;
      apply bind_Ok in H; destruct H as (p & Ep & H).
    - injection H as <-; exists 1; cbn [exc_parts exc_cause exc_format]; rewrite Ep; reflexivity.
    - apply IH in H; destruct H as (fuel & H); exists (S fuel); cbn [exc_parts exc_cause exc_format]; rewrite Ep, <- H.
      destruct c as [n' m' s' c']; destruct tb; reflexivity. }
  destruct (G e tb [] l Hl) as (fuel & Hf); exists fuel; unfold exc_to_str.
  assert (A : actual_tb same exc_info e (match tb with Some x => Tb x | None => TbNone end) = tb) by (destruct tb; reflexivity).
  rewrite A, Hf; reflexivity.
Qed.

(** ** Examples *)
Definition utf8_snippet : list N := u "found ': '" ++ [195; 188]%N.
Example C131_nonvacuous :
  let e : exc unit := Exc (u "ConfigValueError") (Text (u "failed to read config file `/tmp/" ++ [252%N] ++ u "`")) None
    (Some (Exc (u "IOError") (Bytes (u "[Errno 13] Permission denied: u'/tmp/\xfc'")) (Some tt) None)) in
  report (fun _ => u "  File x" ++ [nl]) e None =
    Ok (u "IOError: [Errno 13] Permission denied: u'/tmp/\xfc'" ++ [nl] ++
        u " --- The above error was the direct cause of the following:" ++ [nl] ++
        u "ConfigValueError: failed to read config file `/tmp/\xfc`") /\
  Forall (fun p => ascii (fst p)) (chain e) /\ Forall (fun p => printable (snd p)) (chain e) /\
  Forall (fun p => printable (snd p) /\ code_message (snd p)) (chain e).
Proof.
  cbv zeta; split; [vm_compute; reflexivity|].
  split; [|split]; repeat constructor.
Qed.
Example C131_bytes_nonvacuous :
  ~ ascii utf8_snippet /\
  main_report (fun _ : unit => []) (fun _ => 0) None (fun c => Some [c]) false
    (Exc (u "ConfigValueError") (Text (u "failed to parse config file")) None (Some (Exc (u "ScannerError") (Bytes utf8_snippet) None None)))
    tt (fresh_console false) = (Err ValueError, fresh_console false).
Proof.
  split; [|vm_compute; reflexivity].
  intros H; apply ascii_text_iff in H; vm_compute in H; discriminate.
Qed.
Example C131_legible_nonvacuous :
  report (fun _ : unit => []) (Exc (u "E") (Text [8364%N]) None None) None = Ok (u "E: \u20ac") /\
  shows_char 8364 (u "\u20ac") /\ codes [8364%N] /\ ~ In backslash [8364%N].
Proof.
  split; [vm_compute; reflexivity|split; [|split]].
  - exact (escaped_char_shows 8364 ltac:(lia)).
  - constructor; [lia|constructor].
  - intros [E|[]]; unfold backslash in E; lia.
Qed.
Example C131_traceback_nonvacuous :
  let show := fun b : bool => if b then u "  File a" ++ [nl] else u "  # " ++ [195; 188]%N ++ [nl] in
  let e s := Exc (u "E") (Text (u "x")) None (Some (Exc (u "F") (Text []) s None)) in
  report show (e (Some true)) (Some true) =
    Ok (u "Traceback (most recent call last):" ++ [nl] ++ u "  File a" ++ [nl] ++ u "F" ++ [nl] ++
        [nl] ++ u "The above error was the direct cause of the following:" ++ [nl; nl] ++
        u "Traceback (most recent call last):" ++ [nl] ++ u "  File a" ++ [nl] ++ u "E: x") /\
  Forall (all_ascii show) (traced (e (Some true)) (Some true)) /\
  Forall (fun p => code_message (snd (fst p))) (traced (e (Some true)) (Some true)) /\
  In (u "F", Text [], Some false) (traced (e (Some false)) (Some true)) /\ ~ ascii (show false) /\
  Forall (fun p => ascii (fst (fst p))) (traced (e (Some false)) (Some true)).
Proof.
  cbv zeta; split; [vm_compute; reflexivity|split; [|split; [|split; [|split]]]].
  - repeat constructor; intros x E; injection E as <-; apply ascii_text_iff; reflexivity.
  - repeat constructor.
  - right; left; reflexivity.
  - intros H; apply ascii_text_iff in H; vm_compute in H; discriminate.
  - repeat constructor.
Qed.
Example C131_print_text_nonvacuous :
  print_exc (Some (fun t => u "*" ++ t)) (fun x => if (x <? 128)%N then Some [x] else None) (u "a") (fresh_console false) =
    (Ok tt, with_err (fresh_console false) (u "*a" ++ [nl])) /\
  print_exc None (fun x => if (x <? 128)%N then Some [x] else None) (u "a" ++ [252%N]) (fresh_console false) =
    (Err ValueError, fresh_console false).
Proof. split; reflexivity. Qed.
Example C132_nonvacuous :
  let c := handle_global_arguments {| g_debug := false; g_pdb := true; g_verbose := false; g_no_color := false;
                                      g_env_debug := false; g_env_pdb := false |} (fresh_console false) in
  snd (custom_exception_handler (fun _ : unit => u "  File x" ++ [nl]) None (fun x => Some [x]) false true
    (Exc (u "KeyError") (Bytes (u "'foo'")) None None) tt c) = true /\
  hook_installed (fun x => x) (u "/usr/bin/xylem") = true /\ hook_installed (fun x => x) (u "/usr/bin/xylem-update") = false.
Proof. repeat split; vm_compute; reflexivity. Qed.

Print Assumptions C131_reported_exactly.
Print Assumptions C131_content.
Print Assumptions C131_traceback.
Print Assumptions C131_source_refuted.
Print Assumptions C131_ascii.
Print Assumptions C131_legible_partial.
Print Assumptions C131_escaped_refuted.
Print Assumptions C131_bytes_refuted.
Print Assumptions C131_printed.
Print Assumptions C131_print_text.
Print Assumptions C131_main.
Print Assumptions C131_main_debug.
Print Assumptions C131_main_lost_refuted.
Print Assumptions C131_errors.
Print Assumptions C131_same_chain.
Print Assumptions C132_reported.
Print Assumptions C132_debugger_after_report.
Print Assumptions C132_installed.
Print Assumptions C132_xylem_update_refuted.
