(** C118: the layout of help texts. *)
From Verif Require Import Base Dict PyVal Sources Util Paths License HelpText.

(** ** Specification *)
Definition newlines (k : nat) : text := repeat newline k.
Definition contains (p s : text) : Prop := exists a b, s = a ++ p ++ b.
Definition ends_with_newline (s : text) : Prop := exists a, s = a ++ [newline].
Definition starts_with_newline (s : text) : Prop := exists b, s = newline :: b.

(** "Three or more consecutive line-breaks are interpreted as a paragraph break". *)
Inductive paragraphs : text -> list text -> Prop :=
| last_paragraph p : ~ contains (newlines 3) p -> paragraphs p [p]
| next_paragraph p k t ps :
    ~ contains (newlines 3) p -> ~ ends_with_newline p -> 3 <= k -> ~ starts_with_newline t ->
    paragraphs t ps -> paragraphs (p ++ newlines k ++ t) (p :: ps).

(** "Within paragraphs, two consecutive line-breaks are interpreted as a hard line-break". *)
Inductive blocks : text -> list text -> Prop :=
| last_block b : ~ contains (newlines 2) b -> blocks b [b]
| next_block b t bs :
    ~ contains (newlines 2) b -> ~ ends_with_newline b -> blocks t bs -> blocks (b ++ newlines 2 ++ t) (b :: bs).

(** A marker [R|] at the beginning of a paragraph (after white space) makes it pre-formatted; the marker counts as
    white space. *)
Definition raw_paragraph (p body : text) : Prop :=
  exists s rest, Forall (fun c => ascii_space c = true) s /\ p = s ++ u "R|" ++ rest /\
    body = repeat blank_char (List.length s + 2) ++ rest.

(** Pre-formatted paragraphs: the largest indentation all lines share is removed (from lines
    that are not blank), and the new one is added. *)
Definition blank_line (l : text) : Prop := Forall (fun c => c = blank_char \/ c = tab_char) l.
Definition prefix_of (p l : text) : Prop := exists r, l = p ++ r.
Definition margin_of_lines (ls : list text) (m : text) : Prop :=
  blank_line m /\
  (forall l, In l ls -> ~ blank_line l -> prefix_of m l) /\
  (forall m', blank_line m' -> (exists l, In l ls /\ ~ blank_line l) ->
     (forall l, In l ls -> ~ blank_line l -> prefix_of m' l) -> prefix_of m' m).
Definition without_margin (m l l' : text) : Prop :=
  (blank_line l /\ l' = []) \/ (~ blank_line l /\ l = m ++ l').
(** An empty last line is not printed (a text ending in a newline has no further line). *)
Definition without_final_empty (ls : list text) : list text :=
  match rev ls with
  | [] :: r => rev r
  | _ => ls
  end.

(** The words of a text: maximal sequences of characters that are no white space. *)
Fixpoint words_from (cur s : text) : list text :=
  match s with
  | [] => match cur with [] => [] | _ => [rev cur] end
  | c :: s' => if is_space c then match cur with [] => [] | _ => [rev cur] end ++ words_from [] s'
               else words_from (c :: cur) s'
  end.
Definition words (s : text) : list text := words_from [] s.

(** [broken s ls]: [s] is the lines [ls] one after the other, except for white space before, between and after
    them. *)
Inductive broken : text -> list text -> Prop :=
| broken_end s : Forall (fun c => is_space c = true) s -> broken s []
| broken_line s l t ls : Forall (fun c => is_space c = true) s -> broken t ls -> broken (s ++ l ++ t) (l :: ls).

(** Layout of one block in lines of at most [avail] characters: nothing but white space is lost, no words are
    joined. *)
Definition block_layout (avail : nat) (b : text) (ls : list text) : Prop :=
  exists s, words s = words b /\ broken s ls /\
    Forall (fun l => l <> [] /\ List.length l <= avail) ls.

(** Layout of a pre-formatted paragraph, if its lines are ended by newlines only (not by other characters like
    carriage returns). *)
Definition raw_layout (body : text) (out : list text) : Prop :=
  forall ls, body = nl_join ls -> ls <> [] -> Forall (Forall (fun c => line_end c = false)) ls ->
    exists m ls', margin_of_lines ls m /\ Forall2 (without_margin m) ls ls' /\ out = without_final_empty ls'.

(** Layout of a paragraph, before the indentation is added. *)
Definition paragraph_layout (avail : nat) (p : text) (ls : list text) : Prop :=
  (exists body, raw_paragraph p body /\ raw_layout body ls) \/
  ((forall body, ~ raw_paragraph p body) /\
   exists bs lss, blocks p bs /\ Forall2 (block_layout avail) bs lss /\ ls = List.concat lss).

(** Lines filled with words from the left: every line holds as many words as fit. *)
Fixpoint unwords (ws : list text) : text :=
  match ws with
  | [] => []
  | [w] => w
  | w :: ws' => w ++ blank_char :: unwords ws'
  end.
Definition filled (avail : nat) (ws : list text) (lines : list (list text)) : Prop :=
  List.concat lines = ws /\
  Forall (fun l => l <> [] /\ List.length (unwords l) <= avail) lines /\
  (forall before l w l' after, lines = before ++ l :: (w :: l') :: after ->
     avail < List.length (unwords (l ++ [w]))).
(** The pieces of a text in which lines can only be broken between words. *)
Fixpoint words_and_blanks (ws : list text) : list text :=
  match ws with
  | [] => []
  | [w] => [w]
  | w :: ws' => w :: [blank_char] :: words_and_blanks ws'
  end.

(** Paragraphs are separated by one empty line. *)
Fixpoint separated (l : list (list text)) : list text :=
  match l with
  | [] => []
  | [x] => x
  | x :: l' => x ++ [[]] ++ separated l'
  end.

(** What is assumed of [textwrap]'s search for places where lines may be broken: it loses nothing and finds no
    empty pieces. *)
Definition splitter (chunks_of : text -> list text) : Prop :=
  forall s, List.concat (chunks_of s) = s /\ Forall (fun c => c <> []) (chunks_of s).

(** ** Paragraphs *)

(** no run of newlines reaches [m], [n] newlines precede *)
Fixpoint runs_ok (m n : nat) (s : text) : bool :=
  match s with
  | [] => true
  | c :: s' => if eqb c newline then (S n <? m) && runs_ok m (S n) s' else runs_ok m 0 s'
  end.

Lemma repeat_snoc {A} (x : A) n : repeat x n ++ [x] = x :: repeat x n.
Proof. induction n as [|n IH]; [reflexivity|cbn; rewrite IH; reflexivity]. Qed.

Lemma rev_newlines n : rev (newlines n) = newlines n.
Proof. unfold newlines; induction n as [|n IH]; [reflexivity|]; cbn [repeat rev]; rewrite IH, repeat_snoc; reflexivity. Qed.

Lemma newlines_S n s : newlines (S n) ++ s = newlines n ++ newline :: s.
Proof. unfold newlines; cbn [repeat]; rewrite <- repeat_snoc, <- app_assoc; reflexivity. Qed.

Lemma runs_ok_app m s t : forall n, runs_ok m n (s ++ t) = true -> runs_ok m n s = true.
Proof.
  induction s as [|c s IH]; intros n H; [reflexivity|]; cbn in *.
  destruct (eqb c newline); [apply andb_true_iff in H as [H1 H2]; rewrite H1; cbn; eauto|eauto].
Qed.

Lemma runs_ok_repeat m k t : forall n, n < m -> runs_ok m n (newlines k ++ t) = true -> n + k < m.
Proof.
  induction k as [|k IH]; intros n Hn H; [lia|].
  change (newlines (S k) ++ t) with (newline :: (newlines k ++ t)) in H.
  cbn [runs_ok] in H; rewrite eqb_refl in H; apply andb_true_iff in H as [H1 H2].
  apply Nat.ltb_lt in H1; apply IH in H2; lia.
Qed.

Lemma runs_ok_mono m s : forall n n', n' <= n -> runs_ok m n s = true -> runs_ok m n' s = true.
Proof.
  induction s as [|c s IH]; intros n n' Hle H; [reflexivity|]; cbn [runs_ok] in *.
  destruct (eqb c newline); [|assumption].
  apply andb_true_iff in H as [H1 H2]; apply Nat.ltb_lt in H1.
  apply andb_true_iff; split; [apply Nat.ltb_lt; lia|apply (IH (S n)); [lia|assumption]].
Qed.

Lemma runs_ok_suffix m s t : forall n, runs_ok m n (s ++ t) = true -> runs_ok m 0 t = true.
Proof.
  induction s as [|c s IH]; intros n H.
  - apply (runs_ok_mono m t n 0); [lia|exact H].
  - cbn [app runs_ok] in H; destruct (eqb c newline); [apply andb_true_iff in H as [_ H]|]; eauto.
Qed.

Lemma runs_ok_contains m s : 0 < m -> runs_ok m 0 s = true <-> ~ contains (newlines m) s.
Proof.
  intros Hm; split.
  - intros H (a & b & ->); apply runs_ok_suffix in H; apply runs_ok_repeat in H; lia.
  - cut (forall n, n < m -> ~ contains (newlines m) (newlines n ++ s) -> runs_ok m n s = true).
    { intros H Hc; apply H; [assumption|exact Hc]. }
    induction s as [|c s IH]; intros n Hn Hc; [reflexivity|]; cbn [runs_ok].
    destruct (eqb_spec c newline) as [->|Hne].
    + assert (Hlt : S n < m).
      { destruct (Nat.eq_dec (S n) m) as [<-|]; [|lia]; exfalso; apply Hc.
        exists [], s; cbn [app]; unfold newlines; cbn [repeat].
        rewrite <- repeat_snoc, <- app_assoc; reflexivity. }
      apply andb_true_iff; split; [apply Nat.ltb_lt; assumption|].
      apply IH; [assumption|]; intros (a & b & E); apply Hc; exists a, b; rewrite <- E.
      unfold newlines; cbn [repeat]; rewrite <- repeat_snoc, <- app_assoc; reflexivity.
    + apply IH; [lia|]; intros (a & b & E); apply Hc; exists (newlines n ++ c :: a), b.
      cbn [newlines repeat app] in E; rewrite E, <- app_assoc; reflexivity.
Qed.

Lemma ends_nl_app a c : ends_with_newline (a ++ [c]) <-> c = newline.
Proof.
  split; [intros (b & E); apply app_inj_tail in E; tauto|intros ->; exists a; reflexivity].
Qed.

(** scanning a piece without break *)
Lemma para_split_scan p s : forall cur n, n < 3 -> runs_ok 3 n p = true ->
  (p = [] -> n = 0) -> ~ ends_with_newline p ->
  para_split cur n (p ++ s) = para_split (rev p ++ newlines n ++ cur) 0 s.
Proof.
  induction p as [|c p IH]; intros cur n Hn H Hz He.
  - rewrite (Hz eq_refl); reflexivity.
  - cbn [app para_split runs_ok rev] in *; destruct (eqb_spec c newline) as [->|Hne].
    + apply andb_true_iff in H as [H1 H2]; apply Nat.ltb_lt in H1.
      destruct p as [|d p]; [exfalso; apply He; exists []; reflexivity|].
      rewrite IH; [|assumption|assumption|discriminate|intros (a & E); apply He; exists (newline :: a); rewrite E; reflexivity].
      f_equal; rewrite <- app_assoc; f_equal.
    + destruct (Nat.leb_spec 3 n) as [|_]; [lia|].
      destruct p as [|d p]; [reflexivity|].
      rewrite IH; [|lia|assumption|discriminate|intros (a & E); apply He; exists (c :: a); rewrite E; reflexivity].
      cbn [newlines repeat app]; rewrite <- app_assoc; reflexivity.
Qed.

Lemma para_split_end p : forall cur n, n < 3 -> runs_ok 3 n p = true ->
  para_split cur n p = [rev cur ++ newlines n ++ p].
Proof.
  induction p as [|c p IH]; intros cur n Hn H; cbn [para_split runs_ok] in *; fold (newlines n).
  - destruct (Nat.leb_spec 3 n); [lia|]; rewrite rev_app_distr, app_nil_r, rev_newlines; reflexivity.
  - destruct (eqb_spec c newline) as [->|Hne].
    + apply andb_true_iff in H as [H1 H2]; apply Nat.ltb_lt in H1; rewrite IH, newlines_S by assumption; reflexivity.
    + destruct (Nat.leb_spec 3 n) as [|_]; [lia|]; rewrite IH by (assumption || lia).
      cbn [rev app]; rewrite rev_app_distr, rev_newlines, <- !app_assoc; reflexivity.
Qed.

Lemma para_split_newlines k : forall cur n s, para_split cur n (newlines k ++ s) = para_split cur (k + n) s.
Proof.
  induction k as [|k IH]; intros cur n s; [reflexivity|].
  change (newlines (S k) ++ s) with (newline :: (newlines k ++ s)); cbn [para_split]; rewrite eqb_refl, IH.
  f_equal; lia.
Qed.

Lemma paragraphs_para_split t ps : paragraphs t ps -> para_split [] 0 t = ps.
Proof.
  induction 1 as [p Hp|p k t ps Hp He Hk Ht Hps IH].
  - apply runs_ok_contains in Hp; [|lia]; rewrite para_split_end by (assumption || lia); reflexivity.
  - apply runs_ok_contains in Hp; [|lia].
    rewrite para_split_scan by (assumption || lia || auto).
    rewrite para_split_newlines, Nat.add_0_r, app_nil_r.
    destruct t as [|c t].
    + cbn [para_split] in *; destruct (Nat.leb_spec 3 k); [|lia]; rewrite rev_involutive; subst ps; reflexivity.
    + cbn [para_split] in *; destruct (eqb_spec c newline) as [->|Hne]; [exfalso; apply Ht; eexists; reflexivity|].
      destruct (Nat.leb_spec 3 k); [|lia]; rewrite rev_involutive; f_equal; exact IH.
Qed.

Lemma runs_ok_snoc m s n c : n < m -> c <> newline -> forall j, runs_ok m j s = true ->
  ~ ends_with_newline s -> (s = [] -> j + n < m) ->
  runs_ok m j (s ++ newlines n) = true /\ runs_ok m j (s ++ newlines n ++ [c]) = true.
Proof.
  intros Hn Hc; assert (Hrep : forall t, (t = [] \/ t = [c]) -> forall k j, j + k < m -> runs_ok m j (newlines k ++ t) = true).
  { intros t Ht; induction k as [|k IH]; intros j Hj.
    - destruct Ht as [-> | ->]; [reflexivity|]; cbn; rewrite (proj2 (eqb_neq _ _) Hc); reflexivity.
    - change (newlines (S k) ++ t) with (newline :: (newlines k ++ t)); cbn [runs_ok]; rewrite eqb_refl.
      apply andb_true_iff; split; [apply Nat.ltb_lt; lia|apply IH; lia]. }
  induction s as [|x s IH]; intros j Hs He Hj.
  - cbn [app]; split; [rewrite <- (app_nil_r (newlines n))|]; apply Hrep; auto.
  - cbn [app runs_ok] in *; destruct (eqb_spec x newline) as [->|Hx].
    + apply andb_true_iff in Hs as [H1 H2]; rewrite H1; cbn [andb].
      destruct s as [|y s]; [exfalso; apply He; exists []; reflexivity|].
      apply IH; [assumption|intros (a & E); apply He; exists (newline :: a); rewrite E; reflexivity|discriminate].
    + apply IH; [assumption| |intros _; lia].
      intros (a & E); apply He; exists (x :: a); rewrite E; reflexivity.
Qed.


Lemma para_split_paragraphs s : forall cur n,
  runs_ok 3 0 (rev cur) = true -> ~ ends_with_newline (rev cur) ->
  paragraphs (rev cur ++ newlines n ++ s) (para_split cur n s).
Proof.
  induction s as [|c s IH]; intros cur n Hr He; cbn [para_split].
  - rewrite app_nil_r; destruct (Nat.leb_spec 3 n) as [Hn|Hn].
    + rewrite <- (app_nil_r (newlines n)).
      apply next_paragraph; [apply runs_ok_contains; [lia|assumption]|assumption|assumption|intros (b & E); discriminate|].
      apply last_paragraph; intros (a & b & E); destruct a; discriminate.
    + rewrite rev_app_distr, rev_newlines.
      apply last_paragraph, runs_ok_contains; [lia|].
      apply (runs_ok_snoc 3 (rev cur) n 0%N); [lia|discriminate|assumption|assumption|intros; lia].
  - destruct (eqb_spec c newline) as [->|Hne].
    + replace (newlines n ++ newline :: s) with (newlines (S n) ++ s); [apply IH; assumption|apply newlines_S].
    + destruct (Nat.leb_spec 3 n) as [Hn|Hn].
      * apply next_paragraph; [apply runs_ok_contains; [lia|assumption]|assumption|assumption| |].
        -- intros (b & E); injection E as E _; congruence.
        -- apply (IH [c] 0); [cbn [rev app runs_ok]; rewrite (proj2 (eqb_neq _ _) Hne); reflexivity|].
           intros (a & E); destruct a as [|? [|]]; try discriminate; injection E as E; congruence.
      * replace (rev cur ++ newlines n ++ c :: s) with (rev (c :: repeat newline n ++ cur) ++ newlines 0 ++ s).
        -- apply IH; cbn [rev]; rewrite rev_app_distr; fold (newlines n); rewrite rev_newlines, <- app_assoc.
           ++ apply (runs_ok_snoc 3 (rev cur) n c); [lia|assumption|assumption|assumption|intros; lia].
           ++ rewrite app_assoc; intros H; apply ends_nl_app in H; congruence.
        -- cbn [rev newlines repeat]; rewrite rev_app_distr; fold (newlines n); rewrite rev_newlines, <- !app_assoc; reflexivity.
Qed.

Lemma para_split_spec t ps : para_split [] 0 t = ps <-> paragraphs t ps.
Proof.
  split; [|apply paragraphs_para_split]; intros <-.
  apply (para_split_paragraphs t [] 0); [reflexivity|intros (a & E); destruct a; discriminate].
Qed.

(** ** Blocks *)
Lemma line_split_cons2 cur c d s : line_split cur (c :: d :: s) =
  if eqb c newline && eqb d newline then rev cur :: line_split [] s else line_split (c :: cur) (d :: s).
Proof. reflexivity. Qed.

Lemma line_split_scan b s : forall cur, runs_ok 2 0 b = true -> ~ ends_with_newline b ->
  line_split cur (b ++ s) = line_split (rev b ++ cur) s.
Proof.
  induction b as [|c b IH]; intros cur H He; [reflexivity|].
  cbn [app rev]; destruct b as [|d b].
  - cbn [app line_split]; destruct s as [|d s]; [reflexivity|].
    destruct (eqb_spec c newline) as [->|Hne]; [exfalso; apply He; exists []; reflexivity|]; reflexivity.
  - cbn [app]; rewrite line_split_cons2; cbn [runs_ok] in H.
    assert (E : eqb c newline && eqb d newline = false).
    { destruct (eqb c newline); [|reflexivity]; cbn [andb] in *.
      destruct (eqb d newline); [|reflexivity]; discriminate. }
    rewrite E; change (d :: b ++ s) with ((d :: b) ++ s); rewrite IH.
    + rewrite <- app_assoc; reflexivity.
    + cbn [runs_ok]; destruct (eqb c newline); [apply andb_true_iff in H as [_ H]|exact H].
      destruct (eqb d newline); [discriminate|exact H].
    + intros (a & Ea); apply He; exists (c :: a); rewrite Ea; reflexivity.
Qed.

Lemma line_split_end b : forall cur, runs_ok 2 0 b = true -> line_split cur b = [rev cur ++ b].
Proof.
  induction b as [|c b IH]; intros cur H; [cbn; rewrite app_nil_r; reflexivity|].
  destruct b as [|d b]; [reflexivity|].
  rewrite line_split_cons2; cbn [runs_ok] in H.
  assert (E : eqb c newline && eqb d newline = false).
  { destruct (eqb c newline); [|reflexivity]; cbn [andb] in *.
    destruct (eqb d newline); [|reflexivity]; discriminate. }
  rewrite E, IH; [cbn [rev]; rewrite <- app_assoc; reflexivity|].
  cbn [runs_ok]; destruct (eqb c newline); [apply andb_true_iff in H as [_ H]|exact H].
  destruct (eqb d newline); [discriminate|exact H].
Qed.

Lemma blocks_line_split t bs : blocks t bs -> line_split [] t = bs.
Proof.
  induction 1 as [b Hb|b t bs Hb He Hbs IH].
  - apply runs_ok_contains in Hb; [|lia]; apply line_split_end; assumption.
  - apply runs_ok_contains in Hb; [|lia]; rewrite line_split_scan by assumption.
    cbn [newlines repeat app]; rewrite line_split_cons2, eqb_refl; cbn [andb].
    rewrite app_nil_r, rev_involutive, IH; reflexivity.
Qed.

Lemma line_split_blocks s : forall cur, runs_ok 2 0 (rev cur) = true ->
  (ends_with_newline (rev cur) -> ~ starts_with_newline s) -> blocks (rev cur ++ s) (line_split cur s).
Proof.
  induction s as [s IH] using (well_founded_induction (Wf_nat.well_founded_ltof _ (@List.length N))); intros cur Hr He.
  destruct s as [|c s].
  - cbn [line_split]; rewrite app_nil_r; apply last_block, runs_ok_contains; [lia|assumption].
  - assert (Hpush : forall (s' : text), s = s' -> ~ (c = newline /\ starts_with_newline s') ->
       blocks (rev cur ++ c :: s) (line_split (c :: cur) s)).
    { intros s' <- Hn; replace (rev cur ++ c :: s) with (rev (c :: cur) ++ s)
        by (cbn [rev]; rewrite <- app_assoc; reflexivity).
      apply IH; [unfold ltof; cbn; lia| |].
      - cbn [rev]; destruct (eqb_spec c newline) as [->|Hne].
        + apply (runs_ok_snoc 2 (rev cur) 1 0%N); [lia|discriminate|assumption| |intros; lia].
          intros H; apply (He H); eexists; reflexivity.
        + assert (Hcase : ends_with_newline (rev cur) \/ ~ ends_with_newline (rev cur)).
          { destruct cur as [|x cur]; [right; intros (a & E); destruct a; discriminate|].
            cbn [rev]; rewrite ends_nl_app; destruct (eqb_spec x newline); [left|right]; assumption. }
          destruct Hcase as [(a & Ea)|Hcase].
          * rewrite Ea in *; rewrite <- app_assoc.
            apply runs_ok_app in Hr as Hra.
            assert (Hna : ~ ends_with_newline a).
            { intros (a' & ->); rewrite <- app_assoc in Hr; apply runs_ok_suffix in Hr; discriminate. }
            apply (runs_ok_snoc 2 a 1 c); [lia|assumption|assumption|assumption|intros; lia].
          * apply (runs_ok_snoc 2 (rev cur) 0 c); [lia|assumption|assumption|assumption|intros; lia].
      - cbn [rev]; rewrite ends_nl_app; intros -> H; apply Hn; auto. }
    destruct s as [|d s].
    + apply (Hpush [] eq_refl); intros (_ & b & E); discriminate.
    + rewrite line_split_cons2; destruct (eqb_spec c newline) as [->|Hne]; cbn [andb].
      * destruct (eqb_spec d newline) as [->|Hne2].
        -- change (rev cur ++ newline :: newline :: s) with (rev cur ++ newlines 2 ++ s).
           apply next_block; [apply runs_ok_contains; [lia|assumption]| |].
           ++ intros H; apply (He H); eexists; reflexivity.
           ++ refine (IH s _ [] eq_refl _); [unfold ltof; cbn; lia|intros (a & E); destruct a; discriminate].
        -- apply (Hpush (d :: s) eq_refl); intros (_ & b & E); injection E as E _; congruence.
      * apply (Hpush (d :: s) eq_refl); tauto.
Qed.

Lemma line_split_spec t bs : line_split [] t = bs <-> blocks t bs.
Proof.
  split; [|apply blocks_line_split]; intros <-.
  apply (line_split_blocks t []); [reflexivity|intros (a & E); destruct a; discriminate].
Qed.

(** ** Words *)
Definition spaces (s : text) : Prop := Forall (fun c => is_space c = true) s.

Lemma words_from_spaces s : spaces s -> forall t, words_from [] (s ++ t) = words_from [] t.
Proof. induction 1 as [|c s Hc Hs IH]; intros t; [reflexivity|]; cbn; rewrite Hc; apply IH. Qed.

Lemma words_from_end s : spaces s -> forall t cur, words_from cur (t ++ s) = words_from cur t.
Proof.
  intros Hs; induction t as [|c t IH]; intros cur; cbn [app words_from].
  - destruct Hs as [|c s Hc Hs]; [reflexivity|]; cbn [words_from]; rewrite Hc.
    rewrite <- (app_nil_r s), (words_from_spaces s Hs), app_nil_r; reflexivity.
  - destruct (is_space c); [rewrite IH; reflexivity|apply IH].
Qed.

Lemma lstrip_spec s : exists a, spaces a /\ s = a ++ lstrip s /\ (forall c r, lstrip s = c :: r -> is_space c = false).
Proof.
  induction s as [|c s IH]; [exists []; repeat split; [constructor|discriminate]|].
  cbn [lstrip]; destruct (is_space c) eqn:E.
  - destruct IH as (a & Ha & Hs & Hh); exists (c :: a); split; [constructor; assumption|split; [cbn; congruence|assumption]].
  - exists []; repeat split; [constructor|]; intros ? ? H; injection H as <- _; assumption.
Qed.

Lemma strip_spec s : exists a b, spaces a /\ spaces b /\ s = a ++ strip s ++ b.
Proof.
  unfold strip; destruct (lstrip_spec s) as (a & Ha & Es & _).
  destruct (lstrip_spec (rev (lstrip s))) as (b & Hb & Er & _).
  exists a, (rev b); split; [assumption|split; [apply Forall_rev; assumption|]].
  apply (f_equal (@rev N)) in Er; rewrite rev_involutive, rev_app_distr in Er.
  rewrite <- Er; assumption.
Qed.

Lemma strip_last s : strip s = [] \/ exists t c, strip s = t ++ [c] /\ is_space c = false.
Proof.
  unfold strip; destruct (lstrip_spec (rev (lstrip s))) as (b & _ & _ & Hh).
  destruct (lstrip (rev (lstrip s))) as [|c r]; [left; reflexivity|right].
  exists (rev r), c; split; [reflexivity|apply (Hh c r eq_refl)].
Qed.

Lemma all_space_spec c : all_space c = true <-> spaces c.
Proof.
  unfold all_space; rewrite eqb_eq; split; intros H.
  - destruct (strip_spec c) as (a & b & Ha & Hb & ->); rewrite H; apply Forall_app; split; assumption.
  - assert (Hl : forall s, spaces s -> lstrip s = []).
    { induction 1 as [|x s Hx Hs IH]; [reflexivity|]; cbn [lstrip]; rewrite Hx; assumption. }
    unfold strip; rewrite (Hl c H); reflexivity.
Qed.

Lemma ascii_space_is_space c : ascii_space c = true -> is_space c = true.
Proof.
  unfold ascii_space, is_space; intros H; apply orb_true_iff in H as [H|H].
  - rewrite H; reflexivity.
  - apply N.eqb_eq in H; subst; reflexivity.
Qed.

Lemma words_collapse s : forall cur,
  words_from cur (collapse false s) = words_from cur s /\
  words_from [] (collapse true s) = words_from [] s.
Proof.
  induction s as [|c s IH]; intros cur; [split; reflexivity|].
  cbn [collapse words_from]; destruct (ascii_space c) eqn:E.
  - rewrite (ascii_space_is_space c E); cbn [words_from].
    replace (is_space blank_char) with true by reflexivity.
    destruct (IH []) as [_ ->]; split; reflexivity.
  - cbn [words_from]; destruct (is_space c); [destruct (IH []) as [-> _]; split; reflexivity|].
    split; apply IH.
Qed.

Lemma words_normal s : words (normal_block s) = words s.
Proof.
  unfold normal_block; destruct (strip_spec (collapse false s)) as (a & b & Ha & Hb & E).
  transitivity (words (collapse false s)); [|apply words_collapse].
  unfold words; rewrite E at 2; rewrite words_from_spaces, words_from_end by assumption; reflexivity.
Qed.

Lemma words_from_wf s : forall cur, Forall (fun c => is_space c = false) cur ->
  Forall (fun w => w <> [] /\ Forall (fun c => is_space c = false) w) (words_from cur s).
Proof.
  assert (Hfl : forall cur, Forall (fun c => is_space c = false) cur ->
    Forall (fun w => w <> [] /\ Forall (fun c => is_space c = false) w) (match cur with [] => [] | _ => [rev cur] end)).
  { intros [|c cur] H; [constructor|]; constructor; [|constructor]; split; [|apply Forall_rev; assumption].
    intros E; apply (f_equal (@List.length _)) in E; rewrite rev_length in E; discriminate. }
  induction s as [|c s IH]; intros cur H; cbn [words_from]; [apply Hfl; assumption|].
  destruct (is_space c) eqn:E; [apply Forall_app; split; [apply Hfl; assumption|apply IH; constructor]|].
  apply IH; constructor; assumption.
Qed.
Lemma words_wf s : Forall (fun w => w <> [] /\ Forall (fun c => is_space c = false) w) (words s).
Proof. apply words_from_wf; constructor. Qed.

Lemma unwords_cons w ws : ws <> [] -> unwords (w :: ws) = w ++ blank_char :: unwords ws.
Proof. destruct ws; [congruence|reflexivity]. Qed.

Lemma collapse_words s : (forall c, In c s -> is_space c = true -> ascii_space c = true) ->
  (forall cur, cur <> [] -> exists e, spaces e /\ rev cur ++ collapse false s = unwords (words_from cur s) ++ e) /\
  (exists e, spaces e /\ collapse true s = unwords (words_from [] s) ++ e).
Proof.
  induction s as [|c s IH]; intros Hasc.
  - split; [intros cur Hc; exists []; split; [constructor|]; cbn; destruct cur; [congruence|reflexivity]|].
    exists []; split; [constructor|reflexivity].
  - destruct IH as [P1 (e2 & He2 & P2)]; [intros x Hx; apply Hasc; right; assumption|].
    cbn [collapse words_from]; destruct (is_space c) eqn:Es.
    + rewrite (Hasc c (or_introl eq_refl) Es); split; [|exists e2; split; assumption].
      intros cur Hc; rewrite P2; destruct cur as [|x cur]; [congruence|]; cbn [app].
      destruct (words_from [] s) as [|w ws] eqn:Ew.
      * exists (blank_char :: e2); split; [constructor; [reflexivity|assumption]|]; reflexivity.
      * exists e2; split; [assumption|]; rewrite (unwords_cons (rev (x :: cur)) (w :: ws)) by discriminate; rewrite <- app_assoc; reflexivity.
    + assert (Ea : ascii_space c = false).
      { destruct (ascii_space c) eqn:E; [|reflexivity]; apply ascii_space_is_space in E; congruence. }
      rewrite Ea; split.
      * intros cur Hc; destruct (P1 (c :: cur)) as (e & He & E); [discriminate|]; exists e; split; [assumption|].
        rewrite <- E; cbn [rev]; rewrite <- app_assoc; reflexivity.
      * destruct (P1 [c]) as (e & He & E); [discriminate|]; exists e; split; assumption.
Qed.

Lemma lstrip_spaces a s : spaces a -> lstrip (a ++ s) = lstrip s.
Proof. induction 1 as [|c a Hc Ha IH]; [reflexivity|]; cbn [app lstrip]; rewrite Hc; assumption. Qed.

Lemma strip_unique a m e : spaces a -> spaces e ->
  (m = [] \/ (exists c t, m = c :: t /\ is_space c = false) /\ (exists t c, m = t ++ [c] /\ is_space c = false)) ->
  strip (a ++ m ++ e) = m.
Proof.
  intros Ha He [-> | [(c & t & Em & Hc) (t' & c' & Em' & Hc')]]; unfold strip; rewrite lstrip_spaces by assumption.
  - cbn [app]; replace (lstrip e) with (@nil N); [reflexivity|].
    rewrite <- (app_nil_r e), lstrip_spaces by assumption; reflexivity.
  - replace (lstrip (m ++ e)) with (m ++ e) by (rewrite Em; cbn [app lstrip]; rewrite Hc; reflexivity).
    rewrite rev_app_distr, lstrip_spaces by (apply Forall_rev; assumption).
    rewrite Em', rev_app_distr; cbn [rev app lstrip]; rewrite Hc'; cbn [rev]; rewrite rev_involutive; reflexivity.
Qed.

Lemma unwords_ends ws : Forall (fun w => w <> [] /\ Forall (fun c => is_space c = false) w) ws -> ws <> [] ->
  (exists c t, unwords ws = c :: t /\ is_space c = false) /\ (exists t c, unwords ws = t ++ [c] /\ is_space c = false).
Proof.
  induction 1 as [|w ws [Hn Hw] Hws IH]; [congruence|]; intros _.
  assert (Hhd : exists c t, w = c :: t /\ is_space c = false) by (destruct Hw; [congruence|eauto]).
  assert (Htl : exists t c, w = t ++ [c] /\ is_space c = false).
  { destruct (exists_last Hn) as (t & c & ->); apply Forall_app in Hw as [_ Hw]; inversion Hw; eauto. }
  destruct ws as [|v ws]; [split; assumption|].
  destruct (IH ltac:(discriminate)) as [_ (t & c & Et & Hc)]; rewrite unwords_cons by discriminate.
  destruct Hhd as (x & y & -> & Hx); split; [eexists; eexists; split; [reflexivity|assumption]|].
  exists ((x :: y) ++ blank_char :: t), c; split; [rewrite Et, <- app_assoc; reflexivity|assumption].
Qed.

(** Blocks whose white space is ASCII are normalised to their words with single blanks. *)
Lemma normal_block_words b : (forall c, In c b -> is_space c = true -> ascii_space c = true) ->
  normal_block b = unwords (words b).
Proof.
  intros Hasc.
  assert (Hs : exists a e, spaces a /\ spaces e /\ collapse false b = a ++ unwords (words b) ++ e).
  { destruct b as [|c b]; [exists [], []; repeat split; constructor|].
    destruct (collapse_words b) as [P1 (e2 & He2 & P2)]; [intros x Hx; apply Hasc; right; assumption|].
    unfold words; cbn [collapse words_from]; destruct (is_space c) eqn:Es.
    - rewrite (Hasc c (or_introl eq_refl) Es); exists [blank_char], e2; split; [repeat constructor|split; [assumption|]].
      cbn [app]; rewrite P2; reflexivity.
    - assert (Ea : ascii_space c = false).
      { destruct (ascii_space c) eqn:E; [|reflexivity]; apply ascii_space_is_space in E; congruence. }
      rewrite Ea; destruct (P1 [c]) as (e & He & E); [discriminate|]; exists [], e; split; [constructor|split; [assumption|exact E]]. }
  destruct Hs as (a & e & Ha & He & E); unfold normal_block; rewrite E; apply strip_unique; [assumption|assumption|].
  destruct (words b) as [|w ws] eqn:Ew; [left; reflexivity|right].
  apply unwords_ends; [rewrite <- Ew; apply words_wf|discriminate].
Qed.

(** ** Wrapping *)
Lemma take_line_spec avail cs : forall used l r, take_line avail used cs = (l, r) -> used <= avail ->
  cs = l ++ r /\ used + List.length (List.concat l) <= avail /\
  (forall c r', r = c :: r' -> avail < used + List.length (List.concat l) + List.length c).
Proof.
  induction cs as [|c cs IH]; intros used l r E Hu; cbn [take_line] in E.
  - injection E as <- <-; cbn; repeat split; [lia|discriminate].
  - destruct (Nat.leb_spec (used + List.length c) avail) as [Hle|Hlt].
    + destruct (take_line avail (used + List.length c) cs) as [l' r'] eqn:E'; injection E as <- <-.
      destruct (IH _ _ _ E' Hle) as (H1 & H2 & H3); cbn [List.concat]; rewrite app_length.
      split; [cbn; congruence|split; [lia|]]; intros x y Hxy; specialize (H3 x y Hxy); lia.
    + injection E as <- <-; cbn; repeat split; [lia|].
      intros x y Hxy; injection Hxy as <- _; lia.
Qed.

Lemma broken_spaces a t ls : spaces a -> broken t ls -> broken (a ++ t) ls.
Proof.
  intros Ha [s Hs|s l t' ls' Hs Hb]; [apply broken_end, Forall_app; split; assumption|].
  rewrite app_assoc; apply broken_line; [apply Forall_app; split; assumption|assumption].
Qed.

Definition weight (cs : list text) : nat := list_sum (map (fun c => S (List.length c)) cs).
Lemma weight_app a b : weight (a ++ b) = weight a + weight b.
Proof. unfold weight; rewrite map_app, list_sum_app; reflexivity. Qed.

Lemma drop_last_spec l : exists s, spaces s /\ List.concat l = List.concat (drop_last l) ++ s /\
  (exists x, l = drop_last l ++ x).
Proof.
  unfold drop_last; destruct (rev l) as [|c r] eqn:E.
  - apply (f_equal (@rev _)) in E; rewrite rev_involutive in E; subst l; exists []; repeat split; [constructor|exists []; reflexivity].
  - apply (f_equal (@rev _)) in E; rewrite rev_involutive in E; cbn [rev] in E; subst l.
    destruct (all_space c) eqn:Es.
    + apply all_space_spec in Es; exists c; split; [assumption|split; [|eexists; reflexivity]].
      rewrite concat_app; cbn; rewrite app_nil_r; reflexivity.
    + exists []; rewrite !app_nil_r; split; [constructor|split; [reflexivity|exists []; rewrite app_nil_r; reflexivity]].
Qed.

Lemma wrap_chunks_spec avail indent : 1 <= avail -> forall fuel cs hl, weight cs < fuel ->
  Forall (fun c => c <> []) cs ->
  exists ls, wrap_chunks fuel avail indent hl cs = map (app indent) ls /\ broken (List.concat cs) ls /\
    Forall (fun l => l <> [] /\ List.length l <= avail) ls.
Proof.
  intros Hav; induction fuel as [|fuel IH]; intros cs hl Hf Hne; [lia|].
  destruct cs as [|c0 cs0]; [exists []; repeat split; constructor; constructor|].
  set (cs := c0 :: cs0) in *.
  change (wrap_chunks (S fuel) avail indent hl cs) with
    (let (l, r) := take_line avail 0 (drop_head hl cs) in
     let (l, r) := break_long avail l r in
     match drop_last l with
     | [] => wrap_chunks fuel avail indent hl r
     | l' => (indent ++ List.concat l') :: wrap_chunks fuel avail indent true r
     end).
  assert (Hd : exists a, spaces a /\ List.concat cs = a ++ List.concat (drop_head hl cs) /\
             Forall (fun c => c <> []) (drop_head hl cs) /\
             (drop_head hl cs = cs \/ weight (drop_head hl cs) < weight cs)).
  { unfold cs, drop_head; destruct (hl && all_space c0) eqn:E.
    - apply andb_true_iff in E as [_ E]; apply all_space_spec in E; exists c0; split; [assumption|split; [reflexivity|]].
      split; [inversion Hne; assumption|right; unfold weight; cbn [map list_sum fold_right]; change (fold_right Nat.add 0) with list_sum; lia].
    - exists []; split; [constructor|split; [reflexivity|split; [assumption|left; reflexivity]]]. }
  destruct Hd as (a & Ha & Ea & Hne1 & Hw1).
  destruct (take_line avail 0 (drop_head hl cs)) as [l r] eqn:Et.
  destruct (take_line_spec _ _ _ _ _ Et (Nat.le_0_l avail)) as (E1 & Hl & Hr); cbn [Nat.add] in *.
  assert (Hb : exists l2 r2, break_long avail l r = (l2, r2) /\
     List.concat (drop_head hl cs) = List.concat l2 ++ List.concat r2 /\
     List.length (List.concat l2) <= avail /\ Forall (fun c => c <> []) r2 /\
     (drop_last l2 <> [] -> List.concat (drop_last l2) <> []) /\ weight r2 < weight cs).
  { rewrite E1 in Hne1; apply Forall_app in Hne1 as [Hnl Hnr].
    assert (Hdl : forall l2, Forall (fun c => c <> []) l2 -> drop_last l2 <> [] -> List.concat (drop_last l2) <> []).
    { intros l2 H2 Hnn; destruct (drop_last_spec l2) as (s & _ & _ & x & Ex); rewrite Ex in H2.
      apply Forall_app in H2 as [H2 _]; destruct (drop_last l2) as [|y ys]; [congruence|].
      inversion H2; subst; cbn; destruct y; [congruence|discriminate]. }
    unfold break_long; destruct r as [|c r].
    - exists l, []; rewrite E1, concat_app; repeat split; auto.
      unfold cs, weight; cbn; lia.
    - specialize (Hr c r eq_refl); inversion Hnr as [|? ? Hc Hnr']; subst.
      destruct (Nat.ltb_spec avail (List.length c)) as [Hlong|Hshort].
      + destruct (Nat.ltb_spec avail 1) as [|_]; [lia|].
        set (left := avail - List.length (List.concat l)).
        assert (Hleft : left <= avail /\ left < List.length c) by (unfold left; lia).
        exists (l ++ [firstn left c]), (skipn left c :: r); split; [reflexivity|].
        split; [rewrite E1, !concat_app; cbn [List.concat]; rewrite app_nil_r, <- app_assoc, (app_assoc (firstn left c)), firstn_skipn; reflexivity|].
        split; [rewrite concat_app, app_length; cbn [List.concat]; rewrite app_nil_r, firstn_length; unfold left; lia|].
        split; [constructor; [intros Hz; apply (f_equal (@List.length N)) in Hz; rewrite skipn_length in Hz; cbn in Hz; lia|assumption]|].
        split.
        * destruct (Nat.eq_dec left 0) as [Hz|Hz].
          -- rewrite Hz; cbn [firstn]; unfold drop_last; rewrite rev_app_distr; cbn [rev app].
             replace (all_space []) with true by reflexivity; rewrite rev_involutive.
             intros Hnn; destruct l as [|y ys]; [congruence|]; inversion Hnl; subst; cbn; destruct y; [congruence|discriminate].
          -- apply Hdl, Forall_app; split; [assumption|constructor; [|constructor]].
             intros Hn; apply (f_equal (@List.length N)) in Hn; rewrite firstn_length in Hn; cbn in Hn; lia.
        * assert (Hlt : weight (skipn left c :: r) < weight (l ++ c :: r)).
          { rewrite weight_app; unfold weight; cbn [map list_sum fold_right].
            change (fold_right Nat.add 0) with list_sum; rewrite skipn_length.
            destruct (Nat.eq_dec left 0) as [Hz|Hz]; [|lia].
            destruct l as [|y ys]; [unfold left in Hz; cbn in Hz; lia|cbn; lia]. }
          rewrite <- E1 in Hlt; destruct Hw1 as [Hw1|Hw1]; [rewrite Hw1 in Hlt; exact Hlt|lia].
      + exists l, (c :: r); split; [reflexivity|]; rewrite E1, concat_app; repeat split; auto.
        assert (Hlt : weight (c :: r) < weight (l ++ c :: r)).
        { rewrite weight_app; destruct l as [|y ys]; [cbn in Hr; lia|]; unfold weight at 2; cbn; lia. }
        rewrite <- E1 in Hlt; destruct Hw1 as [Hw1|Hw1]; [rewrite Hw1 in Hlt; exact Hlt|lia]. }
  destruct Hb as (l2 & r2 & -> & E2 & Hl2 & Hr2 & Hnn & Hw2).
  destruct (drop_last_spec l2) as (s & Hs & Es & _).
  rewrite Ea, E2, Es, <- app_assoc.
  assert (Hlen : List.length (List.concat (drop_last l2)) <= avail) by (rewrite Es, app_length in Hl2; lia).
  destruct (drop_last l2) as [|y ys] eqn:Ed.
  - destruct (IH r2 hl ltac:(lia) Hr2) as (ls & -> & Hb & Hall); exists ls; split; [reflexivity|split; [|assumption]].
    apply broken_spaces; [assumption|]; cbn [List.concat app]; apply broken_spaces; assumption.
  - destruct (IH r2 true ltac:(lia) Hr2) as (ls & -> & Hb & Hall).
    exists (List.concat (y :: ys) :: ls); split; [reflexivity|split].
    + apply broken_line; [assumption|apply broken_spaces; assumption].
    + constructor; [split; [apply Hnn; discriminate|assumption]|assumption].
Qed.

(** ** Pre-formatted paragraphs *)
Lemma raw_marker_spec p : forall n body, raw_marker n p = Some body <->
  exists s rest, Forall (fun c => ascii_space c = true) s /\ p = s ++ u "R|" ++ rest /\
    body = repeat blank_char (n + List.length s + 2) ++ rest.
Proof.
  induction p as [|c p IH]; intros n body; cbn [raw_marker].
  - split; [discriminate|]; intros (s & rest & _ & E & _); destruct s; discriminate.
  - destruct (ascii_space c) eqn:Ec.
    + rewrite IH; split; intros (s & rest & Hs & E & Eb).
      * exists (c :: s), rest; split; [constructor; assumption|split; [rewrite E; reflexivity|]].
        rewrite Eb; f_equal; f_equal; cbn [List.length]; lia.
      * destruct s as [|x s].
        -- cbn [app] in E; injection E as Ex E; subst c; discriminate.
        -- injection E as <- E; inversion Hs; subst; exists s, rest; split; [assumption|split; [reflexivity|]].
           f_equal; f_equal; cbn [List.length]; lia.
    + split.
      * destruct p as [|d p]; [discriminate|]; destruct (eqb_spec c 82%N) as [->|]; [|discriminate].
        destruct (eqb_spec d 124%N) as [->|]; [|discriminate]; intros E; injection E as <-.
        exists [], p; split; [constructor|split; [reflexivity|]].
        change (blank_char :: blank_char :: repeat blank_char n ++ p) with (repeat blank_char (S (S n)) ++ p).
        f_equal; f_equal; cbn [List.length]; lia.
      * intros (s & rest & Hs & E & Eb); destruct s as [|x s].
        -- cbn [app u] in E; injection E as -> E; subst p.
           change (eqb 82%N 82%N) with true; change (eqb 124%N 124%N) with true; cbn [andb].
           f_equal; subst body; f_equal; change (blank_char :: blank_char :: repeat blank_char n) with (repeat blank_char (S (S n))).
           f_equal; cbn [List.length]; lia.
        -- injection E as -> _; inversion Hs; congruence.
Qed.

Lemma raw_marker_paragraph p body : raw_marker 0 p = Some body <-> raw_paragraph p body.
Proof. apply raw_marker_spec. Qed.

Lemma nl_lines_from ls : ls <> [] -> Forall (fun l => ~ In newline l) ls -> forall cur,
  nl_lines cur (nl_join ls) = match ls with x :: r => (rev cur ++ x) :: r | [] => [] end.
Proof.
  intros Hne Hall; induction Hall as [|x ls Hx Hls IH]; [congruence|]; clear Hne.
  assert (Hscan : forall y t cur, ~ In newline y -> nl_lines cur (y ++ t) = nl_lines (rev y ++ cur) t).
  { induction y as [|c y IHy]; intros t cur Hy; [reflexivity|].
    cbn [app nl_lines rev]; destruct (eqb_spec c newline) as [->|]; [exfalso; apply Hy; left; reflexivity|].
    rewrite IHy by (intros Hi; apply Hy; right; exact Hi); rewrite <- app_assoc; reflexivity. }
  intros cur; destruct ls as [|y ls].
  - cbn [nl_join]; rewrite <- (app_nil_r x) at 1; rewrite Hscan by assumption; cbn [nl_lines].
    rewrite rev_app_distr, rev_involutive; reflexivity.
  - change (nl_join (x :: y :: ls)) with (x ++ newline :: nl_join (y :: ls)).
    rewrite Hscan by assumption; cbn [nl_lines]; rewrite eqb_refl, IH by discriminate.
    rewrite rev_app_distr, rev_involutive; reflexivity.
Qed.

Lemma is_blank_spec c : is_blank c = true <-> c = blank_char \/ c = tab_char.
Proof. unfold is_blank; rewrite orb_true_iff, !eqb_eq; reflexivity. Qed.

Lemma blank_line_spec l : forallb is_blank l = true <-> blank_line l.
Proof.
  unfold blank_line; rewrite forallb_forall, Forall_forall; split; intros H x Hx; apply is_blank_spec; auto.
Qed.

Lemma clear_spec l : (blank_line l /\ clear_blank_line l = []) \/ (~ blank_line l /\ clear_blank_line l = l /\ l <> []).
Proof.
  unfold clear_blank_line; destruct (forallb is_blank l) eqn:E; [left|right].
  - split; [apply blank_line_spec; assumption|reflexivity].
  - split; [rewrite <- blank_line_spec; congruence|split; [reflexivity|]]; intros ->; discriminate.
Qed.

Lemma indentation_spec l : blank_line (indentation l) /\ prefix_of (indentation l) l /\
  (forall m, blank_line m -> prefix_of m l -> prefix_of m (indentation l)).
Proof.
  induction l as [|c l (H1 & (r & H2) & H3)]; cbn [indentation].
  - split; [constructor|split; [exists []; reflexivity|]]; intros m _ (r & E); destruct m; [exists []; reflexivity|discriminate].
  - destruct (is_blank c) eqn:Ec.
    + split; [constructor; [apply is_blank_spec; assumption|assumption]|].
      split; [exists r; cbn; congruence|]; intros m Hm (s & E); destruct m as [|x m]; [eexists; reflexivity|].
      injection E as <- E; inversion Hm; subst; destruct (H3 m) as (t & Et); [assumption|exists s; reflexivity|].
      exists t; cbn; rewrite Et; reflexivity.
    + split; [constructor|split; [eexists; reflexivity|]].
      intros m Hm (s & E); destruct m as [|x m]; [exists []; reflexivity|].
      injection E as <- E; inversion Hm as [|? ? Hx _]; subst; apply is_blank_spec in Hx; congruence.
Qed.

Lemma common_prefix_spec a : forall b, prefix_of (common_prefix a b) a /\ prefix_of (common_prefix a b) b /\
  (forall m, prefix_of m a -> prefix_of m b -> prefix_of m (common_prefix a b)).
Proof.
  assert (Hnil : forall l m : text, prefix_of m [] -> prefix_of m l).
  { intros l m (r & E); destruct m; [exists l; reflexivity|discriminate]. }
  induction a as [|x a IH]; intros b; cbn [common_prefix].
  - split; [exists []; reflexivity|split; [exists b; reflexivity|auto]].
  - destruct b as [|y b].
    + split; [eexists; reflexivity|split; [exists []; reflexivity|auto]].
    + destruct (eqb_spec x y) as [->|Hne].
      * destruct (IH b) as ((r1 & E1) & (r2 & E2) & H3); split; [exists r1; cbn; congruence|].
        split; [exists r2; cbn; congruence|]; intros m (s1 & F1) (s2 & F2); destruct m as [|z m]; [eexists; reflexivity|].
        injection F1 as <- F1; injection F2 as F2; destruct (H3 m) as (t & Et); [exists s1; assumption|exists s2; assumption|].
        exists t; cbn; congruence.
      * split; [eexists; reflexivity|split; [eexists; reflexivity|]].
        intros m (s1 & F1) (s2 & F2); destruct m as [|z m]; [exists []; reflexivity|].
        injection F1 as <- F1; injection F2 as <- F2; congruence.
Qed.

Lemma prefix_trans a b c : prefix_of a b -> prefix_of b c -> prefix_of a c.
Proof. intros (r & ->) (s & ->); exists (r ++ s); rewrite app_assoc; reflexivity. Qed.

Lemma fold_common l : forall i, let m := fold_left common_prefix l i in
  prefix_of m i /\ (forall x, In x l -> prefix_of m x) /\
  (forall m', prefix_of m' i -> (forall x, In x l -> prefix_of m' x) -> prefix_of m' m).
Proof.
  induction l as [|x l IH]; intros i; cbn [fold_left].
  - split; [exists []; rewrite app_nil_r; reflexivity|split; [intros ? []|auto]].
  - destruct (IH (common_prefix i x)) as (H1 & H2 & H3).
    destruct (common_prefix_spec i x) as (P1 & P2 & P3).
    split; [eapply prefix_trans; eassumption|split].
    + intros y [<-|Hy]; [eapply prefix_trans; eassumption|auto].
    + intros m' Hi Hx; apply H3; [apply P3; [assumption|apply Hx; left; reflexivity]|intros y Hy; apply Hx; right; assumption].
Qed.

Lemma margin_spec ls : margin_of_lines ls
  (margin_of (map indentation (filter (fun l => negb (eqb l [])) (map clear_blank_line ls)))).
Proof.
  assert (Hin : forall l, In l (filter (fun l => negb (eqb l [])) (map clear_blank_line ls)) <-> In l ls /\ ~ blank_line l).
  { intros l; rewrite filter_In, in_map_iff; split.
    - intros ((x & Ex & Hx) & Hl); destruct (clear_spec x) as [(Hb & Ec)|(Hb & Ec & _)]; rewrite Ec in Ex; subst l.
      + discriminate.
      + split; assumption.
    - intros (Hl & Hb); destruct (clear_spec l) as [(Hb' & _)|(_ & Ec & Hn)]; [contradiction|].
      split; [exists l; split; assumption|]; apply negb_true_iff, eqb_neq; assumption. }
  destruct (filter (fun l => negb (eqb l [])) (map clear_blank_line ls)) as [|y ys] eqn:Ef; cbn [map margin_of].
  - split; [constructor|split].
    + intros l Hl Hb; exfalso; apply (proj2 (Hin l)); split; assumption.
    + intros m' _ (l & Hl & Hb); exfalso; apply (proj2 (Hin l)); split; assumption.
  - destruct (fold_common (map indentation ys) (indentation y)) as (H1 & H2 & H3).
    split; [|split].
    + destruct (indentation_spec y) as (Hb & _ & _); destruct H1 as (r & Er); unfold blank_line in *; rewrite Er in Hb.
      apply Forall_app in Hb; tauto.
    + intros l Hl Hb; destruct (proj2 (Hin l) (conj Hl Hb)) as [<-|Hy].
      * eapply prefix_trans; [exact H1|apply indentation_spec].
      * eapply prefix_trans; [apply H2, in_map, Hy|apply indentation_spec].
    + intros m' Hm _ Hall; apply H3.
      * apply indentation_spec; [assumption|]; destruct (proj1 (Hin y) (or_introl eq_refl)); auto.
      * intros x Hx; apply in_map_iff in Hx; destruct Hx as (z & <- & Hz).
        destruct (proj1 (Hin z) (or_intror Hz)); apply indentation_spec; auto.
Qed.

Lemma strip_prefix_app m l : strip_prefix m (m ++ l) = Some l.
Proof. induction m as [|c m IH]; [reflexivity|]; cbn; rewrite eqb_refl; assumption. Qed.

Lemma remove_margin_nil m : remove_margin m [] = [].
Proof. destruct m; reflexivity. Qed.

Lemma dedent_lines ls : ls <> [] -> Forall (fun l => ~ In newline l) ls ->
  exists m out, margin_of_lines ls m /\ Forall2 (without_margin m) ls out /\ dedent (nl_join ls) = nl_join out.
Proof.
  intros Hne Hall; pose proof (margin_spec ls) as Hm.
  unfold dedent; rewrite (nl_lines_from ls Hne Hall []).
  replace (match ls with [] => [] | x :: r => (rev [] ++ x) :: r end) with ls by (destruct ls; reflexivity).
  set (m := margin_of (map indentation (filter (fun l => negb (eqb l [])) (map clear_blank_line ls)))) in *.
  exists m, (map (remove_margin m) (map clear_blank_line ls)); split; [exact Hm|split; [|reflexivity]].
  destruct Hm as (_ & Hp & _); clearbody m; clear Hne Hall.
  assert (Hgo : forall l, In l ls -> without_margin m l (remove_margin m (clear_blank_line l))).
  { intros l Hl; destruct (clear_spec l) as [(Hb & ->)|(Hb & -> & _)].
    - left; split; [assumption|apply remove_margin_nil].
    - right; split; [assumption|]; destruct (Hp l Hl Hb) as (r & ->); unfold remove_margin; rewrite strip_prefix_app; reflexivity. }
  clear Hp; induction ls as [|x ls IH]; constructor; [apply Hgo; left; reflexivity|apply IH; intros; apply Hgo; right; assumption].
Qed.

Lemma line_end_newline c : line_end c = false -> c <> newline /\ eqb c carriage = false.
Proof. intros H; split; [intros ->; discriminate|]; apply eqb_neq; intros ->; discriminate. Qed.

Lemma without_end_newline x : Forall (fun c => line_end c = false) x -> without_end (x ++ [newline]) = x.
Proof.
  intros Hx; unfold without_end; rewrite rev_app_distr; cbn [rev app]; rewrite eqb_refl.
  destruct (rev x) as [|d r] eqn:E.
  - apply (f_equal (@rev _)) in E; rewrite rev_involutive in E; subst; reflexivity.
  - assert (Hd : line_end d = false).
    { rewrite Forall_forall in Hx; apply Hx, in_rev; rewrite E; left; reflexivity. }
    rewrite (proj2 (line_end_newline d Hd)), <- E, rev_involutive; reflexivity.
Qed.

Lemma without_end_same x : Forall (fun c => line_end c = false) x -> without_end x = x.
Proof.
  intros Hx; unfold without_end; destruct (rev x) as [|d r] eqn:E; [reflexivity|].
  assert (Hd : line_end d = false).
  { rewrite Forall_forall in Hx; apply Hx, in_rev; rewrite E; left; reflexivity. }
  rewrite Hd; destruct (eqb_spec d newline) as [->|]; [discriminate|reflexivity].
Qed.

Lemma lines_from_scan x t : Forall (fun c => line_end c = false) x -> forall cur,
  lines_from cur (x ++ t) = lines_from (rev x ++ cur) t.
Proof.
  induction 1 as [|c x Hc Hx IH]; intros cur; [reflexivity|]; cbn [app lines_from rev].
  rewrite (proj2 (line_end_newline c Hc)), Hc, IH, <- app_assoc; reflexivity.
Qed.

Lemma plain_lines_join ls : Forall (Forall (fun c => line_end c = false)) ls ->
  plain_lines (nl_join ls) = without_final_empty ls.
Proof.
  unfold plain_lines, splitlines; intros Hall; induction Hall as [|x ls Hx Hls IH]; [reflexivity|].
  destruct ls as [|y ls].
  - cbn [nl_join]; rewrite <- (app_nil_r x) at 1; rewrite lines_from_scan by assumption; rewrite app_nil_r.
    cbn [lines_from]; unfold without_final_empty; cbn [rev app]; destruct x as [|c x]; [reflexivity|].
    destruct (rev (c :: x)) as [|d r] eqn:E; [apply (f_equal (@List.length _)) in E; rewrite rev_length in E; discriminate|].
    rewrite <- E, rev_involutive; cbn [map]; rewrite without_end_same by assumption; reflexivity.
  - change (nl_join (x :: y :: ls)) with (x ++ newline :: nl_join (y :: ls)).
    rewrite lines_from_scan by assumption; rewrite app_nil_r; cbn [lines_from].
    change (eqb newline carriage) with false; change (line_end newline) with true; cbn [map rev].
    rewrite rev_involutive, without_end_newline, IH by assumption.
    unfold without_final_empty; cbn [rev]; destruct (rev ls) as [|z r] eqn:E; cbn [app].
    + apply (f_equal (@rev _)) in E; rewrite rev_involutive in E; subst ls; destruct y; reflexivity.
    + destruct z as [|c z]; [cbn [rev]; rewrite !rev_app_distr; reflexivity|reflexivity].
Qed.

Lemma raw_lines_layout body : raw_layout body (plain_lines (dedent body)).
Proof.
  intros ls -> Hne Hall.
  assert (Hnl : Forall (fun l => ~ In newline l) ls).
  { eapply Forall_impl; [|exact Hall]; intros l Hl Hi; rewrite Forall_forall in Hl; specialize (Hl _ Hi); discriminate. }
  destruct (dedent_lines ls Hne Hnl) as (m & out & Hm & Hout & E).
  exists m, out; split; [assumption|split; [assumption|]].
  rewrite E, plain_lines_join; [reflexivity|].
  clear - Hall Hout; induction Hout as [|x y ls out H Hout IH]; [constructor|]; inversion Hall; subst.
  constructor; [|auto]; destruct H as [(_ & ->)|(_ & ->)]; [constructor|].
  match goal with H : Forall _ (m ++ y) |- _ => apply Forall_app in H; tauto end.
Qed.

Lemma wrap_chunks_step fuel avail indent hl cs : cs <> [] ->
  wrap_chunks (S fuel) avail indent hl cs =
  (let (l, r) := take_line avail 0 (drop_head hl cs) in
   let (l, r) := break_long avail l r in
   match drop_last l with
   | [] => wrap_chunks fuel avail indent hl r
   | _ => (indent ++ List.concat (drop_last l)) :: wrap_chunks fuel avail indent true r
   end).
Proof.
  destruct cs as [|c cs]; [congruence|]; intros _; cbn [wrap_chunks].
  destruct (take_line avail 0 (drop_head hl (c :: cs))) as [l r]; destruct (break_long avail l r) as [l2 r2].
  destruct (drop_last l2); reflexivity.
Qed.

Lemma concat_words ws : List.concat (words_and_blanks ws) = unwords ws.
Proof.
  induction ws as [|w ws IH]; [reflexivity|]; destruct ws as [|v ws]; [cbn; apply app_nil_r|].
  rewrite unwords_cons by discriminate; rewrite <- IH; reflexivity.
Qed.

Lemma words_and_blanks_cons w ws : ws <> [] -> words_and_blanks (w :: ws) = w :: [blank_char] :: words_and_blanks ws.
Proof. destruct ws; [congruence|reflexivity]. Qed.

Lemma words_and_blanks_cons_head w ws : exists r, words_and_blanks (w :: ws) = w :: r.
Proof. destruct ws; eexists; reflexivity. Qed.

Lemma take_words avail ws : forall w used, used + List.length w <= avail ->
  exists g rest l r, take_line avail used (words_and_blanks (w :: ws)) = (l, r) /\ w :: ws = g ++ rest /\ g <> [] /\
    used + List.length (unwords g) <= avail /\
    ((rest = [] /\ l = words_and_blanks g /\ r = []) \/
     (rest <> [] /\ l = words_and_blanks g /\ r = [blank_char] :: words_and_blanks rest /\
      avail < used + List.length (unwords g) + 1) \/
     (l = words_and_blanks g ++ [[blank_char]] /\ r = words_and_blanks rest /\
      exists v rest', rest = v :: rest' /\ avail < used + List.length (unwords g) + 1 + List.length v)).
Proof.
  induction ws as [|v ws IH]; intros w used Hw.
  - exists [w], [], [w], []; cbn [words_and_blanks take_line].
    destruct (Nat.leb_spec (used + List.length w) avail); [|lia].
    repeat split; [discriminate|cbn; lia|left; repeat split].
  - rewrite words_and_blanks_cons by discriminate; cbn [take_line].
    destruct (Nat.leb_spec (used + List.length w) avail) as [_|]; [|lia].
    cbn [List.length]; destruct (Nat.leb_spec (used + List.length w + 1) avail) as [Hb|Hb].
    + destruct (Nat.leb_spec (used + List.length w + 1 + List.length v) avail) as [Hv|Hv].
      * destruct (IH v (used + List.length w + 1) Hv) as (g & rest & l & r & E & Eg & Hg & Hlen & Hcase).
        rewrite E; exists (w :: g), rest, (w :: [blank_char] :: l), r.
        assert (Hu : List.length (unwords (w :: g)) = List.length w + 1 + List.length (unwords g)).
        { rewrite unwords_cons by assumption; rewrite app_length; cbn; lia. }
        split; [reflexivity|split; [rewrite Eg; reflexivity|split; [discriminate|split; [lia|]]]].
        rewrite words_and_blanks_cons by assumption.
        destruct Hcase as [(-> & -> & ->)|[(Hr & -> & -> & Hlt)|(-> & -> & x & y & -> & Hlt)]].
        -- left; repeat split.
        -- right; left; repeat split; [assumption|lia].
        -- right; right; repeat split; exists x, y; split; [reflexivity|lia].
      * destruct (words_and_blanks_cons_head v ws) as (q & Eq); rewrite Eq; cbn [take_line].
        destruct (Nat.leb_spec (used + List.length w + 1 + List.length v) avail); [lia|].
        exists [w], (v :: ws), [w; [blank_char]], (v :: q); repeat split; [discriminate|cbn; lia|].
        right; right; rewrite Eq; repeat split; exists v, ws; split; [reflexivity|cbn [unwords]; lia].
    + exists [w], (v :: ws), [w], ([blank_char] :: words_and_blanks (v :: ws)); repeat split; [discriminate|cbn; lia|].
      right; left; repeat split; [discriminate|cbn [unwords]; lia].
Qed.

Lemma not_all_space w : w <> [] -> Forall (fun c => is_space c = false) w -> all_space w = false.
Proof.
  intros Hn Hw; destruct (all_space w) eqn:E; [|reflexivity]; apply all_space_spec in E.
  destruct w; [congruence|]; inversion Hw; inversion E; congruence.
Qed.

Lemma words_and_blanks_last g : g <> [] -> exists t w, words_and_blanks g = t ++ [w] /\ In w g.
Proof.
  induction g as [|w g IH]; [congruence|]; intros _; destruct g as [|v g]; [exists [], w; split; [reflexivity|left; reflexivity]|].
  destruct (IH ltac:(discriminate)) as (t & x & E & Hx); rewrite words_and_blanks_cons, E by discriminate.
  exists (w :: [blank_char] :: t), x; split; [reflexivity|right; assumption].
Qed.

Lemma filled_cons avail g rest lines : g <> [] -> List.length (unwords g) <= avail ->
  filled avail rest lines -> (forall v r, rest = v :: r -> avail < List.length (unwords g) + 1 + List.length v) ->
  filled avail (g ++ rest) (g :: lines).
Proof.
  intros Hg Hl (H1 & H2 & H3) Hlt; split; [cbn; congruence|split; [constructor; [split; assumption|assumption]|]].
  intros before l w l' after E; destruct before as [|x before].
  - injection E as <- ->; cbn in H1; specialize (Hlt w (l' ++ List.concat after) (eq_sym H1)).
    assert (Hu : List.length (unwords (g ++ [w])) = List.length (unwords g) + 1 + List.length w).
    { clear - Hg; induction g as [|x g IH]; [congruence|]; destruct g as [|y g]; [cbn; rewrite app_length; cbn; lia|].
      cbn [app]; cbn [app] in IH; rewrite (unwords_cons x (y :: g ++ [w])), (unwords_cons x (y :: g)) by discriminate; rewrite !app_length; cbn [List.length]; rewrite IH by discriminate; lia. }
    lia.
  - injection E as <- E; apply (H3 before l w l' after E).
Qed.

Lemma wrap_words avail indent : 1 <= avail -> forall fuel ws hl,
  Forall (fun w => w <> [] /\ Forall (fun c => is_space c = false) w /\ List.length w <= avail) ws ->
  weight (words_and_blanks ws) < fuel ->
  exists lines, filled avail ws lines /\
    wrap_chunks fuel avail indent hl (words_and_blanks ws) = map (fun l => indent ++ unwords l) lines.
Proof.
  intros Hav.
  cut (forall fuel ws hl cs, (cs = words_and_blanks ws \/ (hl = true /\ ws <> [] /\ cs = [blank_char] :: words_and_blanks ws)) ->
    Forall (fun w => w <> [] /\ Forall (fun c => is_space c = false) w /\ List.length w <= avail) ws ->
    weight cs < fuel ->
    exists lines, filled avail ws lines /\ wrap_chunks fuel avail indent hl cs = map (fun l => indent ++ unwords l) lines).
  { intros H fuel ws hl Hws Hf; apply (H fuel ws hl); [left; reflexivity|assumption|assumption]. }
  induction fuel as [|fuel IH]; intros ws hl cs Hcs Hws Hf; [lia|].
  destruct ws as [|w ws].
  { destruct Hcs as [-> |(_ & H & _)]; [|congruence]; exists []; split; [|reflexivity].
    split; [reflexivity|split; [constructor|]]; intros before; destruct before; discriminate. }
  assert (Hne : cs <> []).
  { destruct (words_and_blanks_cons_head w ws) as (q & Eq); destruct Hcs as [-> |(_ & _ & ->)]; [rewrite Eq|]; discriminate. }
  rewrite wrap_chunks_step by assumption.
  assert (Hdh : drop_head hl cs = words_and_blanks (w :: ws)).
  { inversion Hws as [|? ? (Hn & Hs & _) _]; subst; destruct (words_and_blanks_cons_head w ws) as (q & Eq).
    destruct Hcs as [-> |(-> & _ & ->)].
    - rewrite Eq; cbn [drop_head]; rewrite (not_all_space w Hn Hs), andb_false_r; reflexivity.
    - reflexivity. }
  assert (Hwt : weight (words_and_blanks (w :: ws)) <= weight cs).
  { destruct Hcs as [-> |(_ & _ & ->)]; [lia|]; change (weight ([blank_char] :: words_and_blanks (w :: ws))) with (2 + weight (words_and_blanks (w :: ws))); lia. }
  rewrite Hdh; destruct (take_words avail ws w 0) as (g & rest & l & r & E & Eg & Hg & Hlen & Hcase).
  { inversion Hws as [|? ? (_ & _ & H) _]; subst; cbn; lia. }
  rewrite E; cbn [Nat.add] in *.
  rewrite Eg in Hws; apply Forall_app in Hws as [Hwg Hwr].
  assert (Hbl : break_long avail l r = (l, r)).
  { unfold break_long; destruct Hcase as [(-> & -> & ->)|[(Hr & -> & -> & _)|(-> & -> & v & rest' & -> & _)]].
    - reflexivity.
    - cbn [List.length]; destruct (Nat.ltb_spec avail 1); [lia|reflexivity].
    - destruct (words_and_blanks_cons_head v rest') as (q & Eq); rewrite Eq.
      inversion Hwr as [|? ? (_ & _ & H) _]; subst; destruct (Nat.ltb_spec avail (List.length v)); [lia|reflexivity]. }
  rewrite Hbl.
  assert (Hdl : drop_last l = words_and_blanks g).
  { destruct (words_and_blanks_last g Hg) as (t & x & Ex & Hx).
    rewrite Forall_forall in Hwg; destruct (Hwg x Hx) as (Hn & Hs & _).
    destruct Hcase as [(_ & -> & _)|[(_ & -> & _)|(-> & _)]]; unfold drop_last.
    - rewrite Ex, rev_app_distr; cbn [rev app]; rewrite (not_all_space x Hn Hs); reflexivity.
    - rewrite Ex, rev_app_distr; cbn [rev app]; rewrite (not_all_space x Hn Hs); reflexivity.
    - rewrite rev_app_distr; cbn [rev app]; change (all_space [blank_char]) with true; cbn iota; apply rev_involutive. }
  assert (Hdn : drop_last l <> []).
  { rewrite Hdl; destruct (words_and_blanks_last g Hg) as (t & x & -> & _); destruct t; discriminate. }
  replace (match drop_last l with [] => wrap_chunks fuel avail indent hl r
           | _ => (indent ++ List.concat (drop_last l)) :: wrap_chunks fuel avail indent true r end)
    with ((indent ++ List.concat (drop_last l)) :: wrap_chunks fuel avail indent true r)
    by (destruct (drop_last l); [congruence|reflexivity]).
  rewrite Hdl, concat_words, Eg.
  assert (Hw : words_and_blanks (w :: ws) = l ++ r) by (apply (take_line_spec _ _ _ _ _ E); lia).
  assert (Hwr2 : weight r < fuel).
  { rewrite Hw, weight_app in Hwt; enough (0 < weight l) by lia.
    destruct Hcase as [(_ & -> & _)|[(_ & -> & _)|(-> & _)]].
    - destruct g as [|x g]; [congruence|]; destruct (words_and_blanks_cons_head x g) as (q & ->); apply Nat.lt_0_succ.
    - destruct g as [|x g]; [congruence|]; destruct (words_and_blanks_cons_head x g) as (q & ->); apply Nat.lt_0_succ.
    - rewrite weight_app; unfold weight at 2; cbn; lia. }
  destruct (IH rest true r) as (lines & Hfl & ->).
  - destruct Hcase as [(-> & _ & ->)|[(Hr & _ & -> & _)|(_ & -> & _)]]; [left; reflexivity|right; auto|left; reflexivity].
  - assumption.
  - assumption.
  - exists (g :: lines); split; [|reflexivity].
    apply filled_cons; [assumption|assumption|assumption|].
    intros v rr Ev; destruct Hcase as [(-> & _)|[(_ & _ & _ & Hlt)|(_ & _ & v' & rr' & Ev' & Hlt)]].
    + discriminate.
    + lia.
    + rewrite Ev in Ev'; injection Ev' as -> ->; lia.
Qed.

Section Help.
  Variable chunks_of : text -> list text.
  Hypothesis Hsplit : splitter chunks_of.

  Lemma textwrap_layout b width indent : List.length indent < width ->
    exists ls, textwrap_wrap chunks_of (normal_block b) width indent = Ok (map (app indent) ls) /\
      block_layout (width - List.length indent) b ls.
  Proof.
    intros Hw; unfold textwrap_wrap; destruct (Nat.eqb_spec width 0) as [|_]; [lia|].
    destruct (Hsplit (normal_block b)) as [Hc Hne].
    destruct (wrap_chunks_spec (width - List.length indent) indent ltac:(lia) (fuel_for (chunks_of (normal_block b)))
                (chunks_of (normal_block b)) false (Nat.lt_succ_diag_r _) Hne) as (ls & E & Hb & Hall).
    exists ls; rewrite E; split; [reflexivity|]; exists (normal_block b); split; [apply words_normal|].
    rewrite Hc in Hb; split; assumption.
  Qed.

  Lemma separated_join (l : list (list text)) : l <> [] ->
    removelast (List.concat (map (fun x => x ++ [[]]) l)) = separated l.
  Proof.
    induction l as [|x l IH]; [congruence|]; intros _; destruct l as [|y l].
    - cbn; rewrite app_nil_r; apply removelast_last.
    - change (separated (x :: y :: l)) with (x ++ [[]] ++ separated (y :: l)).
      rewrite <- IH by discriminate.
      change (List.concat (map (fun x => x ++ [[]]) (x :: y :: l))) with
        ((x ++ [[]]) ++ List.concat (map (fun x => x ++ [[]]) (y :: l))).
      rewrite removelast_app; [rewrite <- app_assoc; reflexivity|].
      cbn; destruct y; discriminate.
  Qed.

  (** Every text is laid out paragraph by paragraph (and there is exactly one way to divide it into paragraphs and
      blocks): one empty line between paragraphs, every other line indented; blocks start on new lines, fit the
      width, and nothing but white space is lost.  This never fails if there is room besides the
      indentation. *)
  Theorem C118_layout width indent s : List.length indent < width ->
    exists ps lss, paragraphs s ps /\ (forall qs, paragraphs s qs -> qs = ps) /\
      Forall2 (paragraph_layout (width - List.length indent)) ps lss /\
      wrap_paragraphs chunks_of width indent s = Ok (separated (map (map (app indent)) lss)).
  Proof.
    intros Hw; exists (para_split [] 0 s).
    assert (Hp : paragraphs s (para_split [] 0 s)) by (apply para_split_spec; reflexivity).
    assert (Hne : para_split [] 0 s <> []) by (destruct Hp; discriminate).
    assert (Hu : forall qs, paragraphs s qs -> qs = para_split [] 0 s)
      by (intros qs Hq; symmetry; apply para_split_spec; assumption).
    assert (Hpar : forall p, exists ls, paragraph_layout (width - List.length indent) p ls /\
              para_lines chunks_of width indent p = Ok (map (app indent) ls)).
    { intros p; unfold para_lines; destruct (raw_marker 0 p) as [body|] eqn:Er.
      - exists (plain_lines (dedent body)); split; [|reflexivity].
        left; exists body; split; [apply raw_marker_paragraph; assumption|apply raw_lines_layout].
      - assert (Hm : forall bs, exists lss, Forall2 (block_layout (width - List.length indent)) bs lss /\
            mapM (fun b => textwrap_wrap chunks_of (normal_block b) width indent) bs = Ok (map (map (app indent)) lss)).
        { induction bs as [|b bs (lss & H1 & H2)]; [exists []; split; [constructor|reflexivity]|].
          destruct (textwrap_layout b width indent Hw) as (ls & E & Hb); exists (ls :: lss); split; [constructor; assumption|].
          cbn [mapM]; rewrite E; cbn [bind]; rewrite H2; reflexivity. }
        destruct (Hm (line_split [] p)) as (lss & H1 & H2); exists (List.concat lss); split.
        + right; split; [intros body Hb; apply raw_marker_paragraph in Hb; congruence|].
          exists (line_split [] p), lss; split; [apply line_split_spec; reflexivity|split; [assumption|reflexivity]].
        + rewrite H2; cbn [bind]; rewrite concat_map; reflexivity. }
    assert (Hall : forall ps, exists lss, Forall2 (paragraph_layout (width - List.length indent)) ps lss /\
              mapM (para_lines chunks_of width indent) ps = Ok (map (map (app indent)) lss)).
    { induction ps as [|p ps (lss & H1 & H2)]; [exists []; split; [constructor|reflexivity]|].
      destruct (Hpar p) as (ls & Hl & E); exists (ls :: lss); split; [constructor; assumption|].
      cbn [mapM]; rewrite E; cbn [bind]; rewrite H2; reflexivity. }
    destruct (Hall (para_split [] 0 s)) as (lss & H1 & H2); exists lss.
    split; [assumption|split; [assumption|split; [assumption|]]].
    unfold wrap_paragraphs; rewrite H2; cbn [bind]; f_equal; apply separated_join.
    destruct H1; [congruence|discriminate].
  Qed.

  (** The description of a parser (or of a group) is the text with these lines; the help of an argument is these lines without
      indentation, so it never fails with a width. *)
  Definition text_of_lines (ls : list text) (t : text) : Prop :=
    (ls = [] /\ t = []) \/ (ls <> [] /\ t ++ [10%N] = List.concat (map (fun l => l ++ [10%N]) ls)).
  Theorem C118_description width indent s : List.length indent < width ->
    exists ps lss t, paragraphs s ps /\ Forall2 (paragraph_layout (width - List.length indent)) ps lss /\
      fill_text chunks_of s width indent = Ok t /\ text_of_lines (separated (map (map (app indent)) lss)) t.
  Proof.
    intros Hw; destruct (C118_layout width indent s Hw) as (ps & lss & Hp & _ & Hl & E).
    exists ps, lss; unfold fill_text; rewrite E; cbn [bind]; eexists; split; [exact Hp|split; [exact Hl|split; [reflexivity|]]].
    set (ls := separated _); clearbody ls; clear.
    destruct ls as [|x l]; [left; split; reflexivity|right; split; [discriminate|]].
    revert x; induction l as [|y l IH]; intros x; [cbn; rewrite app_nil_r; reflexivity|].
    change (nl_join (x :: y :: l)) with (x ++ 10%N :: nl_join (y :: l)); rewrite <- app_assoc; cbn [app]; rewrite IH.
    cbn [map List.concat]; rewrite <- !app_assoc; reflexivity.
  Qed.
  Theorem C118_argument width s : 0 < width ->
    exists ps lss, paragraphs s ps /\ Forall2 (paragraph_layout width) ps lss /\ split_lines chunks_of s width = Ok (separated lss).
  Proof.
    intros Hw; destruct (C118_layout width [] s Hw) as (ps & lss & Hp & _ & Hl & E).
    rewrite Nat.sub_0_r in Hl; exists ps, lss; split; [exact Hp|split; [exact Hl|]]; unfold split_lines; rewrite E.
    f_equal; f_equal; clear; rewrite <- (map_id lss) at 2; apply map_ext; intros l; apply map_id.
  Qed.

  (** A block that fits in a line is printed in one line, as it is (up to its white space). *)
  Theorem C118_short_block width indent p b :
    (forall body, ~ raw_paragraph p body) -> blocks p [b] ->
    List.length indent + List.length (normal_block b) <= width -> List.length indent < width ->
    words b <> [] ->
    para_lines chunks_of width indent p = Ok [indent ++ normal_block b].
  Proof.
    intros Hr Hb Hlen Hw Hwords; unfold para_lines.
    destruct (raw_marker 0 p) as [body|] eqn:Er; [exfalso; apply (Hr body), raw_marker_paragraph; assumption|].
    apply line_split_spec in Hb; rewrite Hb; cbn [mapM].
    unfold textwrap_wrap; destruct (Nat.eqb_spec width 0) as [|_]; [lia|]; cbn [bind].
    destruct (Hsplit (normal_block b)) as [Hc Hne].
    set (nb := normal_block b) in *; set (cs := chunks_of nb) in *.
    assert (Htake : forall cs used, used + List.length (List.concat cs) <= width - List.length indent ->
              take_line (width - List.length indent) used cs = (cs, [])).
    { clear; induction cs as [|c cs IH]; intros used H; [reflexivity|]; cbn [take_line List.concat] in *.
      rewrite app_length in H; destruct (Nat.leb_spec (used + List.length c) (width - List.length indent)); [|lia].
      rewrite IH by lia; reflexivity. }
    assert (Hnb : nb <> []).
    { intros Hz; apply Hwords; rewrite <- words_normal; fold nb; rewrite Hz; reflexivity. }
    assert (Hdl : drop_last cs = cs).
    { unfold drop_last; destruct (rev cs) as [|c r] eqn:E.
      - apply (f_equal (@rev _)) in E; rewrite rev_involutive in E; rewrite E; reflexivity.
      - destruct (all_space c) eqn:Es; [exfalso|reflexivity].
        apply all_space_spec in Es; apply (f_equal (@rev _)) in E; rewrite rev_involutive in E; cbn [rev] in E.
        destruct (strip_last (collapse false b)) as [Hz|(t & x & Et & Hx)]; [exact (Hnb Hz)|].
        fold (normal_block b) in Et; fold nb in Et; rewrite <- Hc, E, concat_app in Et; cbn [List.concat] in Et.
        rewrite app_nil_r in Et; rewrite E in Hne; apply Forall_app in Hne as [_ Hn]; inversion Hn as [|? ? Hcn _]; subst.
        destruct (exists_last Hcn) as (c' & y & ->); rewrite app_assoc in Et; apply app_inj_tail in Et as [_ ->].
        apply Forall_app in Es as [_ Es]; inversion Es; congruence. }
    assert (Hcn : cs <> []) by (intros Hz; apply Hnb; rewrite <- Hc, Hz; reflexivity).
    unfold fuel_for; rewrite wrap_chunks_step by assumption.
    replace (drop_head false cs) with cs by (destruct cs; reflexivity).
    rewrite Htake by (rewrite Hc; cbn; lia); cbn [break_long]; rewrite Hdl, Hc.
    destruct cs as [|c cs'] eqn:Ecs; [congruence|].
    destruct (list_sum (map (fun c0 : list N => S (Datatypes.length c0)) (c :: cs'))); reflexivity.
  Qed.

  (** If lines can only be broken between words and every word fits in a line, lines are
      filled with words. *)
  Theorem C118_filled width indent p b :
    (forall body, ~ raw_paragraph p body) -> blocks p [b] ->
    (forall c, In c b -> is_space c = true -> ascii_space c = true) ->
    Forall (fun w => List.length indent + List.length w <= width) (words b) ->
    List.length indent < width ->
    chunks_of (unwords (words b)) = words_and_blanks (words b) ->
    exists lines, filled (width - List.length indent) (words b) lines /\
      para_lines chunks_of width indent p = Ok (map (fun l => indent ++ unwords l) lines).
  Proof.
    intros Hr Hb Hasc Hfit Hw Hch; unfold para_lines.
    destruct (raw_marker 0 p) as [body|] eqn:Er; [exfalso; apply (Hr body), raw_marker_paragraph; assumption|].
    apply line_split_spec in Hb; rewrite Hb; cbn [mapM].
    unfold textwrap_wrap; destruct (Nat.eqb_spec width 0) as [|_]; [lia|]; cbn [bind].
    rewrite (normal_block_words b Hasc), Hch.
    destruct (wrap_words (width - List.length indent) indent ltac:(lia)
                (fuel_for (words_and_blanks (words b))) (words b) false) as (lines & Hf & E).
    - clear - Hfit; pose proof (words_wf b) as Hwf; induction Hwf as [|w ws Hw Hws IH]; [constructor|].
      inversion Hfit; subst; constructor; [|auto]; destruct Hw; repeat split; try assumption; lia.
    - unfold fuel_for, weight; lia.
    - exists lines; split; [assumption|].
      rewrite E; cbn [List.concat]; rewrite app_nil_r; reflexivity.
  Qed.
End Help.

(** *** Examples: lines broken only next to white space. *)
Fixpoint ex_chunks (s : text) : list text :=
  match s with
  | [] => []
  | c :: s' =>
    match ex_chunks s' with
    | (d :: r) :: cs => if Bool.eqb (is_space c) (is_space d) then (c :: d :: r) :: cs else [c] :: (d :: r) :: cs
    | cs => [c] :: cs
    end
  end.
Lemma ex_splitter : splitter ex_chunks.
Proof.
  intros s; induction s as [|c s [IH1 IH2]]; [split; [reflexivity|constructor]|]; cbn [ex_chunks].
  destruct (ex_chunks s) as [|[|d r] cs].
  - split; [rewrite <- IH1; reflexivity|repeat constructor; discriminate].
  - inversion IH2; congruence.
  - destruct (Bool.eqb (is_space c) (is_space d)); (split; [cbn in *; congruence|]).
    + inversion IH2; subst; constructor; [discriminate|assumption].
    + constructor; [discriminate|assumption].
Qed.

Definition ex_help : text :=
  u "one  two" ++ [newline] ++ u "three verylongword" ++ newlines 2 ++ u "four" ++ newlines 4 ++
  u " R|a" ++ [newline] ++ u "     b" ++ newlines 2 ++ u "   c".
Example C118_nonvacuous : splitter ex_chunks /\
  wrap_paragraphs ex_chunks 10 (u "  ") ex_help =
    Ok [u "  one two"; u "  three ve"; u "  rylongwo"; u "  rd"; u "  four"; []; u "  a"; u "    b"; u "  "; u "  c"].
Proof. split; [exact ex_splitter|vm_compute; reflexivity]. Qed.

Example C118_description_nonvacuous :
  fill_text ex_chunks (u "one two  three") 9 (u " ") = Ok (u " one two" ++ 10%N :: u " three") /\
  split_lines ex_chunks (u "one two  three") 9 = Ok [u "one two"; u "three"].
Proof. split; vm_compute; reflexivity. Qed.

Example C118_paragraphs_nonvacuous : exists ps, paragraphs ex_help ps /\ List.length ps = 2 /\
  (exists p body, In p ps /\ raw_paragraph p body) /\
  (exists p b1 b2, In p ps /\ (forall body, ~ raw_paragraph p body) /\ blocks p [b1; b2]).
Proof.
  exists (para_split [] 0 ex_help); split; [apply para_split_spec; reflexivity|split; [reflexivity|split]].
  - let r := eval vm_compute in (para_split [] 0 ex_help) in
    match r with [_; ?p] => exists p end.
    eexists; split; [right; left; reflexivity|apply raw_marker_paragraph; vm_compute; reflexivity].
  - let r := eval vm_compute in (para_split [] 0 ex_help) in
    match r with [?p; _] => exists p end.
    eexists; eexists; split; [left; reflexivity|split].
    + intros body H; apply raw_marker_paragraph in H; vm_compute in H; discriminate.
    + apply line_split_spec; vm_compute; reflexivity.
Qed.

Example C118_filled_nonvacuous : let b := u "the quick brown  fox jumps" in
  (forall body, ~ raw_paragraph b body) /\ blocks b [b] /\
  Forall (fun w => 1 + List.length w <= 11) (words b) /\
  ex_chunks (unwords (words b)) = words_and_blanks (words b) /\
  para_lines ex_chunks 11 (u " ") b = Ok [u " the quick"; u " brown fox"; u " jumps"].
Proof.
  cbv zeta; split; [intros body H; apply raw_marker_paragraph in H; vm_compute in H; discriminate|].
  split; [apply line_split_spec; vm_compute; reflexivity|].
  split; [vm_compute; repeat constructor|split; vm_compute; reflexivity].
Qed.

(** Without room besides the indentation at least a width must be given. *)
Example C118_no_width : wrap_paragraphs ex_chunks 0 [] (u "x") = Err ValueError.
Proof. reflexivity. Qed.

Print Assumptions C118_layout.
Print Assumptions C118_description.
Print Assumptions C118_argument.
Print Assumptions C118_filled.
Print Assumptions C118_short_block.
