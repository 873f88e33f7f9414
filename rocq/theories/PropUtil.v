(** Properties C54 (removing duplicates) and C55 (terminal formatting). *)
From Verif Require Import Base Dict PyVal Sources Util Terminal TerminalProofs.
From Coq Require Import Lia.

(** * C54 *)
(** The result has the same elements, each once, and the positions of first
    occurrence increase: whenever [x] comes before [y] in the result, then [x] occurs
    in the list before any occurrence of [y]. *)
Theorem C54_remove_duplicates : forall (A : Type) (E : EqB A) (l : list A),
  (forall x, In x (remove_duplicates l) <-> In x l) /\
  NoDup (remove_duplicates l) /\
  (forall a x b y c, remove_duplicates l = a ++ x :: b ++ y :: c ->
     exists p q, l = p ++ x :: q /\ ~ In x p /\ ~ In y p).
Proof.
  intros A E l; split; [intros x; apply remove_duplicates_In|].
  split; [apply remove_duplicates_NoDup|].
  unfold remove_duplicates.
  assert (X : forall l items a x r, remove_dup_from items l = a ++ x :: r ->
            exists p q, l = p ++ x :: q /\ ~ In x p /\ forall y, In y r -> ~ In y p).
  { clear l; induction l as [|z l IH]; intros items a x r; cbn [remove_dup_from].
    - destruct a; discriminate.
    - destruct (mem z items) eqn:Em.
      + intros Hr.
        assert (Hx : ~ In x items /\ forall y, In y r -> ~ In y items).
        { split; [|intros y Hy];
            eapply (remove_dup_from_In _ items l); rewrite Hr; apply in_or_app; right;
              [left; reflexivity|right; exact Hy]. }
        apply (proj1 (mem_In _ _)) in Em.
        destruct (IH _ _ _ _ Hr) as (p & q & -> & H1 & H2).
        exists (z :: p), q; split; [reflexivity|split].
        * intros [->|Hp]; [apply Hx, Em|exact (H1 Hp)].
        * intros y Hy [->|Hp]; [exact (proj2 Hx y Hy Em)|exact (H2 y Hy Hp)].
      + destruct a as [|a0 a]; cbn [app]; intros Hr; injection Hr as Hz Hr.
        * subst z; exists [], l; split; [reflexivity|]; simpl; tauto.
        * subst a0.
          assert (Hx : x <> z /\ forall y, In y r -> y <> z).
          { assert (Hs : forall w, In w (remove_dup_from (z :: items) l) -> w <> z).
            { intros w Hw ->; apply remove_dup_from_In in Hw; destruct Hw as [_ Hw]; apply Hw; left; reflexivity. }
            split; [|intros y Hy]; apply Hs; rewrite Hr; apply in_or_app; right;
              [left; reflexivity|right; exact Hy]. }
          destruct (IH _ _ _ _ Hr) as (p & q & -> & H1 & H2).
          exists (z :: p), q; split; [reflexivity|split].
          -- intros [Ez|Hp]; [apply (proj1 Hx); congruence|exact (H1 Hp)].
          -- intros y Hy [Ez|Hp]; [apply (proj2 Hx y Hy); congruence|exact (H2 y Hy Hp)]. }
  intros a x b y c Hr; destruct (X _ _ _ _ _ Hr) as (p & q & E1 & E2 & E3).
  exists p, q; split; [assumption|split; [assumption|]].
  apply E3, in_or_app; right; left; reflexivity.
Qed.
Print Assumptions C54_remove_duplicates.

Example C54_example : remove_duplicates [3; 1; 3; 2; 1]%N = [3; 1; 2]%N.
Proof. reflexivity. Qed.

(** * C55 *)
(** The claim: formatting an escaped text yields the text, followed by the reset
    sequence that [fmt] always appends. *)
Definition reset : text := [27; 91; 48; 109]%N.
Definition bold : text := [27; 91; 49; 109]%N.
Definition brace_free (m : text) : Prop := ~ In 123%N m /\ ~ In 125%N m.

(** Proved with colours enabled for every text without braces. *)
Theorem C55_escaped_text_prints_itself_partial : forall m, brace_free m ->
  fmt ansi_enabled (sanitize m) = Ok (m ++ reset).
Proof.
  intros m [H1 H2]; pose proof (fmt_pieces m [] (Forall_nil _)) as E.
  cbn [flat_map] in E; rewrite !app_nil_r, doubled_id in E by assumption; exact E.
Qed.
Print Assumptions C55_escaped_text_prints_itself_partial.

(** Escaped texts can be combined with markup: each text appears literally, each
    markup sequence as its escape sequence. *)
Theorem C55_escaped_text_between_markup : forall m1 m2 m3,
  brace_free m1 -> brace_free m2 -> brace_free m3 ->
  fmt ansi_enabled (sanitize m1 ++ u "@!" ++ sanitize m2 ++ u "@|" ++ sanitize m3)
  = Ok (m1 ++ bold ++ m2 ++ reset ++ m3 ++ reset).
Proof.
  intros m1 m2 m3 [A1 A2] [B1 B2] [D1 D2].
  pose proof (fmt_pieces m1 [(33%N, m2); (124%N, m3)]) as E.
  cbn [flat_map fst snd app] in E; rewrite !doubled_id, !app_nil_r in E by assumption.
  cbn [u app]; etransitivity; [apply E; repeat constructor; simpl; tauto|].
  f_equal; repeat rewrite <- app_assoc; reflexivity.
Qed.
Print Assumptions C55_escaped_text_between_markup.

(** Formatting never fails on escaped text (any text, colours on or off). *)
Theorem C55_never_fails : forall m d, d = ansi_enabled \/ d = ansi_disabled ->
  exists t, fmt d (sanitize m) = Ok t.
Proof.
  intros m d Hd; destruct (fmt_pieces_total d m [] Hd (Forall_nil _)) as [t E].
  cbn [flat_map] in E; rewrite app_nil_r in E; eauto.
Qed.
Print Assumptions C55_never_fails.

(** ** What exactly is printed *)
(** Braces are printed twice. *)
Definition with_braces_doubled (m : text) : text :=
  flat_map (fun c => if (eqb c 123 || eqb c 125)%N then [c; c] else [c]) m.
(** With colours off, '@' and a following '!', '/', '_' or '|' are not printed. *)
Fixpoint without_codes (m : text) : text :=
  match m with
  | [] => []
  | c :: r =>
    if eqb c 64%N then
      match r with
      | k :: r' => if mem k [33; 47; 95; 124]%N then without_codes r' else c :: without_codes r
      | [] => [c]
      end
    else c :: without_codes r
  end.

Theorem C55_enabled_exactly : forall m, fmt ansi_enabled (sanitize m) = Ok (with_braces_doubled m ++ reset).
Proof.
  intros m; pose proof (fmt_pieces m [] (Forall_nil _)) as E.
  cbn [flat_map] in E; rewrite !app_nil_r in E; exact E.
Qed.
Print Assumptions C55_enabled_exactly.

(** Meaning of the tokens when the pairs of '@@' and a character of [K] vanish. *)
Fixpoint vanish (K : list N) (ts : list tok) : text :=
  match ts with
  | [] => []
  | TAt :: r =>
    match r with
    | TC c :: ts' => if mem c K then vanish K ts' else at_ :: vanish K r
    | _ => at_ :: vanish K r
    end
  | t :: r => mean ansi_disabled t ++ vanish K r
  end.

Lemma vanish_nil ts : vanish [] ts = flat_map (mean ansi_disabled) ts.
Proof.
  induction ts as [|t r IH]; [reflexivity|]; destruct t as [|c|c|n|c]; cbn [vanish flat_map mean]; rewrite <- ?IH; try reflexivity.
  destruct r as [|[|c|c|n|c] r']; reflexivity.
Qed.

Lemma vanish_merge k name K ts : get name ansi_disabled = Some [] -> vanish K (merge k name ts) = vanish (k :: K) ts.
Proof.
  intros Hg; induction ts as [ts IH] using tok_list_ind.
  destruct ts as [|t r]; [reflexivity|].
  assert (Hr : vanish K (merge k name r) = vanish (k :: K) r) by (apply IH; simpl; lia).
  destruct t as [|c|c|n|c]; try (cbn [merge vanish]; rewrite Hr; reflexivity).
  assert (G : forall K l, (forall c l', l <> TC c :: l') -> vanish K (TAt :: l) = at_ :: vanish K l).
  { intros K' l Hl; destruct l as [|[|x|x|n|x] l']; try reflexivity; destruct (Hl _ _ eq_refl). }
  assert (G' : (forall c l', r <> TC c :: l') -> merge k name (TAt :: r) = TAt :: merge k name r ->
    vanish K (merge k name (TAt :: r)) = vanish (k :: K) (TAt :: r)).
  { intros Hc Em; rewrite Em, !G; [rewrite Hr; reflexivity|exact Hc|].
    intros c l' E; apply merge_head in E; destruct E as (l'' & E); exact (Hc _ _ E). }
  destruct r as [|[|c|c|n|c] r']; try (apply G'; [intros; discriminate|reflexivity]).
  - cbn [merge]; destruct (eqb_spec c k) as [->|Hn].
    + cbn [vanish mean]; rewrite Hg; cbn [app]; rewrite IH by (simpl; lia).
      cbn [mem]; rewrite eqb_refl; reflexivity.
    + cbn [vanish merge]; assert (E : mem c (k :: K) = mem c K) by (cbn [mem]; destruct (eqb_spec c k); [congruence|reflexivity]).
      rewrite E; destruct (mem c K).
      * apply IH; simpl; lia.
      * cbn [merge vanish] in Hr; rewrite Hr; reflexivity.
Qed.

Lemma text_list_ind (P : text -> Prop) :
  (forall ts, (forall ts', List.length ts' < List.length ts -> P ts') -> P ts) -> forall ts, P ts.
Proof.
  intros H ts; remember (List.length ts) as n eqn:E; revert ts E.
  induction n as [n IH] using (well_founded_induction lt_wf); intros ts ->.
  apply H; intros ts' Hl; apply (IH _ Hl ts' eq_refl).
Qed.

Lemma vanish_text m : vanish [33; 47; 95; 124]%N (map tok_of m) = with_braces_doubled (without_codes m).
Proof.
  induction m as [m IH] using text_list_ind; destruct m as [|c r]; [reflexivity|].
  assert (Hr : vanish [33; 47; 95; 124]%N (map tok_of r) = with_braces_doubled (without_codes r)) by (apply IH; simpl; lia).
  cbn [map without_codes]; unfold tok_of at 1; fold at_; destruct (eqb_spec c at_) as [->|Hn].
  - destruct r as [|k r']; [reflexivity|]; cbn [map] in *.
    destruct (mem k [33; 47; 95; 124]%N) eqn:Ek.
    + assert (T : tok_of k = TC k).
      { apply (proj1 (mem_In _ _)) in Ek; destruct Ek as [<-|[<-|[<-|[<-|[]]]]]; reflexivity. }
      rewrite T; cbn [vanish]; rewrite Ek; apply IH; simpl; lia.
    + unfold with_braces_doubled; cbn [flat_map]; fold (with_braces_doubled (without_codes (k :: r'))); rewrite <- Hr.
      replace ((eqb at_ 123 || eqb at_ 125)%N) with false by reflexivity; cbn [app].
      unfold tok_of at 1; unfold tok_of at 2; destruct (eqb k at_), (eqb k lbrace), (eqb k rbrace); cbn [vanish]; try rewrite Ek; reflexivity.
  - destruct (eqb_spec c lbrace) as [->|H1]; [cbn [vanish mean]; rewrite Hr; reflexivity|].
    destruct (eqb_spec c rbrace) as [->|H2]; [cbn [vanish mean]; rewrite Hr; reflexivity|].
    cbn [vanish mean]; rewrite Hr; unfold with_braces_doubled; cbn [flat_map].
    destruct (eqb_spec c 123%N); [contradiction|]; destruct (eqb_spec c 125%N); [contradiction|]; reflexivity.
Qed.

Theorem C55_disabled_exactly : forall m,
  fmt ansi_disabled (sanitize m) = Ok (with_braces_doubled (without_codes m)).
Proof.
  intros m; rewrite sanitize_merged, fmt_render.
  - rewrite uncode_no_code by apply merged_ok; cbn [bind].
    replace (getitem (u "reset") ansi_disabled) with (Ok (@nil N)) by reflexivity; cbn [bind].
    rewrite app_nil_r, <- vanish_nil; unfold merged; rewrite !vanish_merge by reflexivity.
    rewrite vanish_text; reflexivity.
  - apply merged_ok.
  - intros k Hk; apply merged_nobad; exact Hk.
  - rewrite uncode_no_code by apply merged_ok; apply merged_known; intros n Hn; apply tables_known; [right; reflexivity|].
    apply in_or_app; left; exact Hn.
Qed.
Print Assumptions C55_disabled_exactly.

(** The ANSI control sequences: names and numbers. *)
Definition sgr_codes : list (text * text) :=
  [(u "reset", u "0"); (u "|", u "0"); (u "boldon", u "1"); (u "!", u "1"); (u "italicson", u "3"); (u "/", u "3");
   (u "ulon", u "4"); (u "_", u "4"); (u "invon", u "7"); (u "boldoff", u "22"); (u "italicsoff", u "23"); (u "uloff", u "24");
   (u "invoff", u "27");
   (u "black", u "30"); (u "red", u "31"); (u "green", u "32"); (u "yellow", u "33");
   (u "blue", u "34"); (u "purple", u "35"); (u "cyan", u "36"); (u "white", u "37");
   (u "blackf", u "30"); (u "redf", u "31"); (u "greenf", u "32"); (u "yellowf", u "33");
   (u "bluef", u "34"); (u "purplef", u "35"); (u "cyanf", u "36"); (u "whitef", u "37");
   (u "kf", u "30"); (u "rf", u "31"); (u "gf", u "32"); (u "yf", u "33");
   (u "bf", u "34"); (u "pf", u "35"); (u "cf", u "36"); (u "wf", u "37");
   (u "blackb", u "40"); (u "redb", u "41"); (u "greenb", u "42"); (u "yellowb", u "43");
   (u "blueb", u "44"); (u "purpleb", u "45"); (u "cyanb", u "46"); (u "whiteb", u "47");
   (u "kb", u "40"); (u "rb", u "41"); (u "gb", u "42"); (u "yb", u "43");
   (u "bb", u "44"); (u "pb", u "45"); (u "cb", u "46"); (u "wb", u "47")].
(** The names that stand for texts. *)
Definition plain_codes : list (text * text) :=
  [(u "escape", [27%N]); (u "atexclimation", u "@!"); (u "atfwdslash", u "@/"); (u "atunderscore", u "@_"); (u "atbar", u "@|")].

(** What the names in a text for [fmt] stand for: with colours, control sequences or texts; without, nothing. *)
Theorem C55_codes name v :
  (get name ansi_enabled = Some v <->
     (exists n, In (name, n) sgr_codes /\ v = [27%N] ++ u "[" ++ n ++ u "m") \/ In (name, v) plain_codes) /\
  (get name ansi_disabled = Some v <-> v = [] /\ In name (map fst (sgr_codes ++ plain_codes))).
Proof.
  assert (E : forall w, get name ansi_enabled = Some w <->
    In (name, w) (map (fun p => (fst p, [27%N] ++ u "[" ++ snd p ++ u "m")) sgr_codes ++ plain_codes)).
  { intros w; set (l := map _ sgr_codes ++ plain_codes).
    assert (Same : forallb (fun p => match get (fst p) ansi_enabled with Some x => eqb x (snd p) | None => false end) l = true) by (vm_compute; reflexivity).
    assert (Same' : forallb (fun p => existsb (fun q => eqb (fst p) (fst q) && eqb (snd p) (snd q)) l) ansi_enabled = true) by (vm_compute; reflexivity).
    rewrite forallb_forall in Same, Same'; split.
    - intros H; apply get_In in H; specialize (Same' _ H); apply existsb_exists in Same'; destruct Same' as ([a b] & Hin & Hq).
      cbn [fst snd] in Hq; apply andb_prop in Hq; destruct Hq as [H1 H2].
      apply (proj1 (eqb_eq _ _)) in H1; apply (proj1 (eqb_eq _ _)) in H2; subst; exact Hin.
    - intros H; specialize (Same _ H); cbn [fst snd] in Same; destruct (get name ansi_enabled) as [x|]; [|discriminate].
      apply (proj1 (eqb_eq _ _)) in Same; subst; reflexivity. }
  assert (M : forall w, In (name, w) (map (fun p => (fst p, [27%N] ++ u "[" ++ snd p ++ u "m")) sgr_codes ++ plain_codes) <->
     (exists n, In (name, n) sgr_codes /\ w = [27%N] ++ u "[" ++ n ++ u "m") \/ In (name, w) plain_codes).
  { intros w; rewrite in_app_iff, in_map_iff; split; (intros [H|H]; [left|right; exact H]).
    - destruct H as ([a b] & H & Hin); cbn [fst snd] in H; injection H as -> <-; exists b; split; [exact Hin|reflexivity].
    - destruct H as (n & Hin & ->); exists (name, n); split; [reflexivity|exact Hin]. }
  split; [rewrite E, M; reflexivity|].
  assert (D : get name ansi_disabled = option_map (fun _ => []) (get name ansi_enabled)).
  { clear; unfold ansi_disabled; induction ansi_enabled as [|[a b] l IH]; [reflexivity|]; cbn [map fst]; rewrite !get_cons.
    destruct (eqb name a); [reflexivity|exact IH]. }
  rewrite D, map_app, in_app_iff, !in_map_iff; split.
  - destruct (get name ansi_enabled) as [w|] eqn:G; [|discriminate]; intros H; injection H as <-; split; [reflexivity|].
    destruct (proj1 (M w) (proj1 (E w) eq_refl)) as [(n & Hin & _)|Hin]; [left; exists (name, n)|right; exists (name, w)]; split; auto.
  - intros [-> H]; assert (G : exists w, get name ansi_enabled = Some w).
    { destruct H as [([a b] & <- & Hin)|([a b] & <- & Hin)]; cbn [fst] in *.
      - eexists; apply E, M; left; exists b; split; [exact Hin|reflexivity].
      - exists b; apply E, M; right; exact Hin. }
    destruct G as (w & ->); reflexivity.
Qed.
Print Assumptions C55_codes.

(** Every text with a brace is printed wrongly (braces are doubled). *)
Theorem C55_braces_refuted : forall m, In 123%N m \/ In 125%N m ->
  exists t, fmt ansi_enabled (sanitize m) = Ok (t ++ reset) /\ t <> m.
Proof.
  intros m Hm; exists (doubled m); split; [|apply doubled_neq; exact Hm].
  pose proof (fmt_pieces m [] (Forall_nil _)) as E.
  cbn [flat_map] in E; rewrite !app_nil_r in E; exact E.
Qed.
Print Assumptions C55_braces_refuted.

(** With colours disabled some '@' sequences vanish although the text was escaped. *)
Theorem C55_disabled_refuted : fmt ansi_disabled (sanitize (u "a@!b")) = Ok (u "ab").
Proof. vm_compute; reflexivity. Qed.
Print Assumptions C55_disabled_refuted.

Example C55_example : brace_free (u "me@host: 100% @! @@ $x") /\
  fmt ansi_enabled (sanitize (u "me@host: 100% @! @@ $x")) = Ok (u "me@host: 100% @! @@ $x" ++ reset) /\
  sanitize (u "a@!b") = u "a@{atexclimation}b".
Proof.
  split; [split; vm_compute; intros H; repeat destruct H as [H|H]; try discriminate; contradiction|].
  split; vm_compute; reflexivity.
Qed.
