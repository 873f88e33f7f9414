(** Properties C101-C104: the operating system detectors and the [OsDetect] object. *)
From Verif Require Import Base Dict PyVal Sources Util Paths Config OsSupport Detectors.
From Coq Require Import Lia.
Notation S := Datatypes.S.

(** The detectors of the module, with any file names. *)
Inductive bundled_detector : hdetector -> Prop :=
| BdLsb n : bundled_detector (of_machine (lsb_detect n))
| BdOsx : bundled_detector (of_machine osx_detect)
| BdOpensuse a b : bundled_detector (opensuse a b)
| BdFedora a b : bundled_detector (fedora a b)
| BdRhel a : bundled_detector (rhel a)
| BdQnx a : bundled_detector (qnx a)
| BdFreebsd a : bundled_detector (freebsd a)
| BdArch a : bundled_detector (arch a)
| BdCygwin : bundled_detector cygwin
| BdGentoo a : bundled_detector (gentoo a)
| BdWindows : bundled_detector windows.

Lemma default_bundled n d : In (n, d) default_os_list -> bundled_detector d.
Proof.
  cbn [default_os_list registrations fold_left add_detector fst snd].
  intros H; repeat (destruct H as [H|H]; [injection H as <- <-; constructor|]); destruct H.
Qed.

(** ** C101 *)
(** On another system than the detector's, version and codename raise OsNotDetected. *)
Theorem C101_wrong_os d h : bundled_detector d -> hd_is d h = Ok false ->
  hd_version d h = Err OsNotDetected /\ hd_codename d h = Err OsNotDetected.
Proof.
  intros Hd E; destruct Hd; cbn [hd_is hd_version hd_codename of_machine d_is d_get_version d_get_codename lsb_detect osx_detect
    opensuse fedora rhel qnx freebsd uname_detector arch cygwin gentoo windows] in *;
    unfold guarded; try (rewrite E; split; reflexivity).
  - injection E as E; destruct (m_lsb (h_machine h)) as [[[n' v] c]|]; [rewrite E|]; split; reflexivity.
  - destruct (m_sw_vers (h_machine h)); [discriminate|split; reflexivity].
Qed.

(** ... and they never answer where the system was not recognised. *)
Theorem C101_answer_means_detected d h x : bundled_detector d ->
  (hd_version d h = Ok x \/ hd_codename d h = Ok x) -> hd_is d h = Ok true.
Proof.
  intros Hd [E|E]; destruct Hd as [nm| |a b|a b|a|a|a|a| |a|]; cbn [hd_is hd_version hd_codename of_machine d_is d_get_version d_get_codename lsb_detect osx_detect
    opensuse fedora rhel qnx freebsd uname_detector arch cygwin gentoo windows] in *; unfold guarded in E;
    try (apply bind_Ok in E; destruct E as (bb & Eb & E); destruct bb; [exact Eb|discriminate]).
  all: first [destruct (m_lsb (h_machine h)) as [[[n' v] c]|]; [destruct (eqb n' nm)|]; (discriminate E || reflexivity)
             |destruct (m_sw_vers (h_machine h)); [reflexivity|discriminate E]].
Qed.

(** ** C102 *)
(** A text made of words separated by white space: the words are found, whatever the white
    space. *)
Definition spaces (s : text) : Prop := Forall (fun c => is_space c = true) s.
Definition a_word (w : text) : Prop := w <> [] /\ Forall (fun c => is_space c = false) w.

Lemma words_from_spaces s r : spaces s -> words_from [] (s ++ r) = words_from [] r.
Proof. intros H; induction H as [|c s Hc Hs IH]; cbn [app words_from]; [reflexivity|rewrite Hc; exact IH]. Qed.

Lemma words_from_word w r cur : Forall (fun c => is_space c = false) w ->
  words_from cur (w ++ r) = words_from (rev w ++ cur) r.
Proof.
  intros H; revert cur; induction H as [|c w Hc Hw IH]; intros cur; cbn [app words_from rev]; [reflexivity|].
  rewrite Hc, IH, <- app_assoc; reflexivity.
Qed.

Lemma words_from_end w r : a_word w -> words_from (rev w) r = match r with
  | [] => [w] | c :: r' => if is_space c then w :: words_from [] r' else words_from (c :: rev w) r' end.
Proof.
  intros [Hn _]; destruct r as [|c r]; cbn [words_from]; [|destruct (is_space c); [|reflexivity]];
    destruct (rev w) eqn:E; try (apply (f_equal (@rev N)) in E; rewrite rev_involutive in E; cbn in E; congruence);
    rewrite <- E, rev_involutive; reflexivity.
Qed.

Theorem C102_words (l : list (text * text)) (lead : text) :
  spaces lead -> Forall (fun p => a_word (fst p) /\ spaces (snd p)) l ->
  (forall l1 p l2, l = l1 ++ p :: l2 -> l2 <> [] -> snd p <> []) ->
  words (lead ++ List.concat (map (fun p => fst p ++ snd p) l)) = map fst l.
Proof.
  intros Hlead Hl Hsep; unfold words; rewrite words_from_spaces by exact Hlead; clear lead Hlead.
  induction Hl as [|[w s] l [Hw Hs] Hl IH]; [reflexivity|]; cbn [map List.concat fst snd] in *.
  rewrite <- app_assoc, words_from_word by apply Hw; rewrite app_nil_r, words_from_end by exact Hw.
  assert (IH' : words_from [] (List.concat (map (fun p => fst p ++ snd p) l)) = map fst l).
  { apply IH; intros l1 p l2 E Hn; apply (Hsep ((w, s) :: l1) p l2); [rewrite E; reflexivity|exact Hn]. }
  destruct s as [|c s].
  - destruct l as [|p l]; [reflexivity|]; exfalso; apply (Hsep [] (w, []) (p :: l)); [reflexivity|discriminate|reflexivity].
  - cbn [app]; inversion Hs as [|? ? Hc Hs']; subst; rewrite Hc, words_from_spaces by exact Hs'; f_equal; exact IH'.
Qed.

(** The words of a file. *)
Definition file_words (h : host) (p : text) (ws : list text) : Prop :=
  exists s, h_file h p = Some (Ok s) /\ words s = ws.

Lemma read_words h p ws : file_words h p ws -> read_issue h p = Ok (Some ws).
Proof. intros (s & Ef & <-); unfold read_issue; rewrite Ef; reflexivity. Qed.

Lemma index_first x pre post : ~ In x pre -> index_of x (pre ++ x :: post) = Ok (List.length pre).
Proof.
  induction pre as [|y pre IH]; cbn [app index_of List.length]; intros H; [rewrite eqb_refl; reflexivity|].
  destruct (eqb_spec y x) as [->|]; [exfalso; apply H; left; reflexivity|].
  rewrite IH by (intros Hin; apply H; right; exact Hin); reflexivity.
Qed.

Lemma nth_after {A} (pre : list A) x v post : nth_item (pre ++ x :: v :: post) (S (List.length pre)) = Ok v.
Proof.
  unfold nth_item; rewrite nth_error_app2 by lia.
  replace (S (List.length pre) - List.length pre) with 1 by lia; reflexivity.
Qed.

(** Version: the word after "release". *)
Theorem C102_fedora_version release issue h rest pre v post :
  file_words h release (u "Fedora" :: rest) ->
  file_words h issue (pre ++ u "release" :: v :: post) -> pre <> [] -> ~ In (u "release") pre ->
  hd_version (fedora release issue) h = Ok (Some v).
Proof.
  intros Hr Hi Hn Hp; cbn [fedora hd_version]; unfold guarded; rewrite (read_words _ _ _ Hr), (read_words _ _ _ Hi).
  cbn [bind first_is]; rewrite eqb_refl; cbn [index_in]; rewrite index_first by exact Hp; cbn [bind].
  destruct (List.length pre) as [|n] eqn:El; [destruct pre; [congruence|discriminate]|].
  rewrite <- El, nth_after; reflexivity.
Qed.

Theorem C102_rhel_version release h rest pre v post :
  file_words h release (u "Red" :: u "Hat" :: u "Enterprise" :: rest) ->
  u "Red" :: u "Hat" :: u "Enterprise" :: rest = pre ++ u "release" :: v :: post -> ~ In (u "release") pre ->
  hd_version (rhel release) h = Ok (Some v).
Proof.
  intros Hr E Hp; cbn [rhel hd_version]; unfold guarded; rewrite (read_words _ _ _ Hr).
  cbn [bind firstn]; rewrite eqb_refl; rewrite E; cbn [index_in]; rewrite index_first by exact Hp; cbn [bind].
  rewrite nth_after; reflexivity.
Qed.

(** Codename: the first word in parentheses, in lower case. *)
Definition opens_paren (w : text) : Prop := exists r, w = open_paren :: r.

Lemma paren_filter pre w post : Forall (fun x => ~ opens_paren x) pre -> opens_paren w ->
  nth_item (filter (fun w => match w with c :: _ => eqb c open_paren | [] => false end) (pre ++ w :: post)) 0 = Ok w.
Proof.
  intros Hp (r & ->); induction Hp as [|x pre Hx Hp IH]; cbn [app filter]; [rewrite eqb_refl; reflexivity|].
  destruct x as [|c x]; [exact IH|]; destruct (eqb_spec c open_paren) as [->|]; [|exact IH].
  exfalso; apply Hx; exists x; reflexivity.
Qed.

Lemma index_Some x l : In x l -> exists n, index_of x l = Ok n.
Proof.
  induction l as [|y l IH]; [intros []|]; cbn [index_of]; intros H; destruct (eqb_spec y x) as [->|Hn]; [eexists; reflexivity|].
  destruct H as [H|H]; [congruence|]; destruct (IH H) as (n & ->); eexists; reflexivity.
Qed.

Lemma paren_codename_spec release h pre name post :
  file_words h release (pre ++ (u "(" ++ name ++ u ")") :: post) ->
  Forall (fun x => ~ opens_paren x) pre -> In (u "release") (pre ++ post) ->
  paren_codename release h = Ok (Some (h_lower h name)).
Proof.
  intros Hr Hp Hin; unfold paren_codename; rewrite (read_words _ _ _ Hr); cbn [bind index_in].
  destruct (index_Some (u "release") (pre ++ (u "(" ++ name ++ u ")") :: post)) as (n & ->).
  { apply in_app_or in Hin; apply in_or_app; destruct Hin as [H|H]; [left; exact H|right; right; exact H]. }
  cbn [bind]; rewrite paren_filter; [|exact Hp|exists (name ++ u ")"); reflexivity].
  cbn [bind]; change (u "(" ++ name ++ u ")") with (open_paren :: name ++ [close_paren]).
  cbv iota beta; rewrite rev_app_distr; cbn [rev app]; rewrite eqb_refl, rev_involutive; reflexivity.
Qed.

Theorem C102_codename release issue h pre name post :
  file_words h release (pre ++ (u "(" ++ name ++ u ")") :: post) ->
  Forall (fun x => ~ opens_paren x) pre -> In (u "release") (pre ++ post) ->
  (forall rest, pre = u "Fedora" :: rest -> hd_codename (fedora release issue) h = Ok (Some (h_lower h name))) /\
  (forall rest, pre = u "Red" :: u "Hat" :: u "Enterprise" :: rest ->
     hd_codename (rhel release) h = Ok (Some (h_lower h name))).
Proof.
  intros Hr Hp Hin; pose proof (paren_codename_spec _ _ _ _ _ Hr Hp Hin) as E.
  split; intros rest ->; cbn [fedora rhel hd_codename]; unfold guarded; rewrite (read_words _ _ _ Hr); cbn [app bind first_is firstn];
    rewrite eqb_refl; exact E.
Qed.

(** A codename of several words is cut off after the first one, whatever the words are. *)
Theorem C102_codename_first_word release issue h pre first post :
  file_words h release (pre ++ (u "(" ++ first) :: post) ->
  Forall (fun x => ~ opens_paren x) pre -> In (u "release") (pre ++ post) ->
  first <> [] -> (forall r, first <> r ++ u ")") ->
  (forall rest, pre = u "Fedora" :: rest -> hd_codename (fedora release issue) h = Ok (Some (h_lower h first))) /\
  (forall rest, pre = u "Red" :: u "Hat" :: u "Enterprise" :: rest ->
     hd_codename (rhel release) h = Ok (Some (h_lower h first))).
Proof.
  intros Hr Hp Hin Hne Hno.
  assert (E : paren_codename release h = Ok (Some (h_lower h first))).
  { unfold paren_codename; rewrite (read_words _ _ _ Hr); cbn [bind index_in].
    destruct (index_Some (u "release") (pre ++ (u "(" ++ first) :: post)) as (n & ->).
    { apply in_app_or in Hin; apply in_or_app; destruct Hin as [H|H]; [left; exact H|right; right; exact H]. }
    cbn [bind]; rewrite paren_filter; [|exact Hp|exists first; reflexivity].
    cbn [bind]; change (u "(" ++ first) with (open_paren :: first); cbv iota beta.
    destruct (rev first) as [|c r] eqn:Er; [apply (f_equal (@rev N)) in Er; rewrite rev_involutive in Er; contradiction|].
    destruct (eqb_spec c close_paren) as [->|Hc]; [|reflexivity].
    exfalso; apply (Hno (rev r)); apply (f_equal (@rev N)) in Er; rewrite rev_involutive in Er; rewrite Er; reflexivity. }
  split; intros rest ->; cbn [fedora rhel hd_codename]; unfold guarded; rewrite (read_words _ _ _ Hr); cbn [app bind first_is firstn];
    rewrite eqb_refl; exact E.
Qed.

(** For example: *)
Theorem C102_codename_words_refuted : exists h,
  file_words h (u "/etc/redhat-release") [u "Fedora"; u "release"; u "17"; u "(Beefy"; u "Miracle)"] /\
  hd_codename (fedora (u "/etc/redhat-release") (u "/etc/issue")) h = Ok (Some (u "beefy")).
Proof.
  exists {| h_machine := {| m_lsb := None; m_sw_vers := None; m_strict_version := fun _ => None |};
            h_file := fun p => if eqb p (u "/etc/redhat-release") then Some (Ok (u "Fedora release 17 (Beefy Miracle)")) else None;
            h_run := fun _ => None; h_platform := ([], [], []);
            h_lower := map (fun c => if ((65 <=? c) && (c <=? 90))%N then (c + 32)%N else c) |}.
  split; [eexists; split; vm_compute; reflexivity|vm_compute; reflexivity].
Qed.

Theorem C102_gentoo_version release h a b v post :
  file_words h release (u "Gentoo" :: u "Base" :: a :: b :: v :: post) ->
  hd_is (gentoo release) h = Ok true /\
  hd_version (gentoo release) h = Ok (Some v) /\ hd_codename (gentoo release) h = Ok (Some []).
Proof.
  intros Hr; cbn [gentoo hd_is hd_version hd_codename]; unfold guarded; rewrite (read_words _ _ _ Hr); cbn [bind].
  repeat split; reflexivity.
Qed.

(** openSUSE: "VERSION = ..." in the second of two lines, "CODENAME = ..." in some line. *)
Definition equals_sign : text := u " = ".
Lemma split_equals_none s : (forall a b, s <> a ++ equals_sign ++ b) -> split_equals s = [s].
Proof.
  induction s as [s IH] using (induction_ltof1 _ (@List.length N)); unfold ltof in IH; intros Hn.
  destruct s as [|c1 s1]; [reflexivity|]; cbn [split_equals].
  assert (H1 : split_equals s1 = [s1]).
  { apply IH; [cbn; lia|]; intros a b E; apply (Hn (c1 :: a) b); rewrite E; reflexivity. }
  rewrite H1; destruct s1 as [|c2 [|c3 s3]]; try reflexivity.
  destruct (eqb_spec c1 32%N) as [->|], (eqb_spec c2 61%N) as [->|], (eqb_spec c3 32%N) as [->|]; try reflexivity.
  exfalso; apply (Hn [] s3); reflexivity.
Qed.

Lemma split_equals_key k v : ~ In 32%N k -> ~ In 61%N k -> (forall a b, v <> a ++ equals_sign ++ b) ->
  split_equals (k ++ equals_sign ++ v) = [k; v].
Proof.
  intros H1 H2 Hv; induction k as [|c k IH].
  - cbn; rewrite split_equals_none by exact Hv; reflexivity.
  - cbn [app split_equals].
    rewrite IH by (intros Hin; first [apply H1; right; exact Hin|apply H2; right; exact Hin]).
    assert (Hc : c <> 32%N) by (intros ->; apply H1; left; reflexivity).
    destruct (k ++ equals_sign ++ v) as [|c2 [|c3 s3]] eqn:E.
    + destruct k; discriminate.
    + reflexivity.
    + destruct (eqb_spec c 32%N); [contradiction|reflexivity].
Qed.

Lemma strip_id s : s <> [] -> is_space (List.hd 0%N s) = false -> is_space (List.last s 0%N) = false -> strip s = s.
Proof.
  intros Hn Hh Hl; unfold strip.
  assert (E1 : lstrip s = s) by (destruct s as [|c s]; [congruence|]; cbn [List.hd] in Hh; cbn [lstrip]; rewrite Hh; reflexivity).
  rewrite E1.
  assert (E2 : lstrip (rev s) = rev s).
  { destruct (rev s) as [|c r] eqn:E; [reflexivity|]; cbn [lstrip].
    assert (Ec : List.last s 0%N = c).
    { rewrite <- (rev_involutive s), E; cbn [rev]; rewrite last_last; reflexivity. }
    rewrite Ec in Hl; rewrite Hl; reflexivity. }
  rewrite E2; apply rev_involutive.
Qed.

Theorem C102_opensuse brand release h line v lines1 name lines2 :
  h_file h brand = Some (Ok (line ++ [10%N] ++ u "VERSION = " ++ v)) ->
  h_file h release = Some (Ok (join [10%N] (lines1 ++ (u "CODENAME = " ++ name) :: lines2))) ->
  (* the first line begins with the word openSUSE, and is one line *)
  (exists r, line = u "openSUSE" ++ r /\ (r = [] \/ is_space (List.hd 0%N r) = true)) -> ~ In 10%N line ->
  (* the values are plain *)
  v <> [] -> is_space (List.last v 0%N) = false -> ~ In 10%N v -> (forall a b, v <> a ++ equals_sign ++ b) ->
  ~ In 10%N name -> (forall a b, name <> a ++ equals_sign ++ b) ->
  Forall (fun l => ~ In 10%N l /\ forall r, l <> u "CODENAME" ++ r) lines1 -> Forall (fun l => ~ In 10%N l) lines2 ->
  is_space (List.hd 0%N (join [10%N] (lines1 ++ (u "CODENAME = " ++ name) :: lines2))) = false ->
  is_space (List.last (join [10%N] (lines1 ++ (u "CODENAME = " ++ name) :: lines2)) 0%N) = false ->
  hd_is (opensuse brand release) h = Ok true /\
  hd_version (opensuse brand release) h = Ok (Some v) /\
  hd_codename (opensuse brand release) h = Ok (Some name).
Proof.
  intros Hb Hr (r & -> & Hrs) Hline Hv Hvl Hvn Hve Hnn Hne Hl1 Hl2 Hhd Hlast.
  assert (Eis : hd_is (opensuse brand release) h = Ok true).
  { cbn [opensuse hd_is]; unfold read_issue; rewrite Hb; cbn [bind]; f_equal; unfold words; rewrite <- !app_assoc.
    rewrite words_from_word by (repeat constructor).
    rewrite app_nil_r; unfold first_is.
    assert (E : exists tl, words_from (rev (u "openSUSE")) (r ++ [10%N] ++ u "VERSION = " ++ v) = u "openSUSE" :: tl).
    { destruct Hrs as [->|Hrs]; [eexists; reflexivity|]; destruct r as [|c r]; [discriminate|]; cbn [List.hd] in Hrs.
      cbn [app words_from]; rewrite Hrs; eexists; reflexivity. }
    destruct E as (tl & ->); apply eqb_refl. }
  split; [exact Eis|].
  assert (Eis' := Eis); cbn [opensuse hd_is] in Eis'; cbn [opensuse hd_version hd_codename]; unfold guarded; rewrite Eis'.
  cbn [bind]; split.
  - unfold opensuse_version; rewrite Hb; cbn [bind].
    rewrite strip_id.
    + replace (split_on 10%N ((u "openSUSE" ++ r) ++ [10%N] ++ u "VERSION = " ++ v))
        with ((u "openSUSE" ++ r) :: split_on 10%N (u "VERSION = " ++ v))
        by (symmetry; exact (split_on_app 10%N (u "openSUSE" ++ r) (u "VERSION = " ++ v) Hline)).
      rewrite split_on_none.
      * replace (u "VERSION = " ++ v) with (u "VERSION" ++ equals_sign ++ v) by reflexivity.
        rewrite split_equals_key; [reflexivity| | |exact Hve]; cbn; intuition discriminate.
      * intros Hin; apply in_app_or in Hin; destruct Hin as [Hin|Hin]; [|contradiction]; cbn in Hin; intuition discriminate.
    + cbn; discriminate.
    + reflexivity.
    + replace ((u "openSUSE" ++ r) ++ [10%N] ++ u "VERSION = " ++ v) with (((u "openSUSE" ++ r) ++ [10%N] ++ u "VERSION = ") ++ v)
        by (rewrite <- !app_assoc; reflexivity).
      generalize ((u "openSUSE" ++ r) ++ [10%N] ++ u "VERSION = "); intros pre.
      destruct (exists_last Hv) as (v0 & c & ->); rewrite last_last in Hvl; rewrite app_assoc, last_last; exact Hvl.
  - unfold opensuse_codename; rewrite Hr; cbn [bind].
    assert (Hj : join [10%N] (lines1 ++ (u "CODENAME = " ++ name) :: lines2) <> []).
    { destruct lines1 as [|a lines1]; cbn [app join].
      - destruct lines2; discriminate.
      - destruct (lines1 ++ (u "CODENAME = " ++ name) :: lines2) eqn:E; [destruct lines1; discriminate|].
        destruct a; discriminate. }
    rewrite (strip_id _ Hj Hhd Hlast).
    rewrite split_on_join; [|destruct lines1; discriminate|].
    2: { apply Forall_app; split; [revert Hl1; apply Forall_impl; tauto|]; constructor; [|exact Hl2].
         intros Hin; apply in_app_or in Hin; destruct Hin as [Hin|Hin]; [|contradiction]; cbn in Hin; intuition discriminate. }
    clear Hj Hhd Hlast Hr; induction Hl1 as [|l ls [_ Hl] Hls IH]; cbn [app opensuse_codename_lines].
    + replace (u "CODENAME = " ++ name) with (u "CODENAME" ++ equals_sign ++ name) by reflexivity.
      rewrite split_equals_key; [reflexivity| | |exact Hne]; cbn; intuition discriminate.
    + assert (Hk : exists k kv, split_equals l = k :: kv /\ k <> u "CODENAME").
      { assert (Hp : forall s, exists k kv, split_equals s = k :: kv /\ exists r0, s = k ++ r0).
        { clear; intros s; induction s as [s IH] using (induction_ltof1 _ (@List.length N)); unfold ltof in IH.
          destruct s as [|c1 s1]; [exists [], []; split; [reflexivity|exists []; reflexivity]|].
          destruct (IH s1) as (k & kv & E & r0 & Er); [cbn; lia|]; cbn [split_equals]; rewrite E.
          assert (Hd : exists k0 kv0, (c1 :: k) :: kv = k0 :: kv0 /\ exists r1, c1 :: s1 = k0 ++ r1)
            by (exists (c1 :: k), kv; split; [reflexivity|exists r0; rewrite Er; reflexivity]).
          destruct s1 as [|c2 [|c3 s3]]; try exact Hd.
          destruct (eqb c1 32%N && eqb c2 61%N && eqb c3 32%N)%bool; [|exact Hd].
          exists [], (split_equals s3); split; [reflexivity|eexists; reflexivity]. }
        destruct (Hp l) as (k & kv & E & r0 & Er); exists k, kv; split; [exact E|].
        intros ->; apply (Hl r0); exact Er. }
      destruct Hk as (k & kv & -> & Hk); cbn [nth_item nth_error bind].
      destruct (eqb_spec k (u "CODENAME")); [contradiction|exact IH].
Qed.

(** The other systems: what their detectors answer. *)
Theorem C102_windows h v c : h_platform h = (u "Windows", v, c) ->
  hd_is windows h = Ok true /\ hd_version windows h = Ok (Some v) /\ hd_codename windows h = Ok (Some c).
Proof.
  intros E; cbn [windows hd_is hd_version hd_codename]; unfold guarded; rewrite E; cbn [fst snd].
  rewrite eqb_refl; repeat split; reflexivity.
Qed.

Theorem C102_arch release h : (exists r, h_file h release = Some r) ->
  hd_is (arch release) h = Ok true /\ hd_version (arch release) h = Ok (Some []) /\ hd_codename (arch release) h = Ok (Some []).
Proof.
  intros (r & E); cbn [arch hd_is hd_version hd_codename]; unfold guarded, exists_file; rewrite E; repeat split; reflexivity.
Qed.

Theorem C102_cygwin h : (exists r, h_file h (u "/usr/bin/cygwin1.dll") = Some r) ->
  hd_is cygwin h = Ok true /\
  (forall s, h_run h [u "uname"; u "-r"] = Some s -> hd_version cygwin h = Ok (Some (strip s))) /\
  hd_codename cygwin h = Ok (Some []).
Proof.
  intros (r & E); cbn [cygwin hd_is hd_version hd_codename]; unfold guarded, exists_file, read_stdout; rewrite E; cbn [bind].
  split; [reflexivity|split; [intros s Es; rewrite Es; reflexivity|reflexivity]].
Qed.

(** QNX and FreeBSD: the system's own [uname] names the system, and [uname -r] its version. *)
Theorem C102_uname name d uname h s v :
  (name = u "QNX" /\ d = qnx uname) \/ (name = u "FreeBSD" /\ d = freebsd uname) ->
  (exists r, h_file h uname = Some r) ->
  h_run h [uname] = Some s -> strip (strip s) = name -> h_run h [uname; u "-r"] = Some v ->
  hd_is d h = Ok true /\ hd_version d h = Ok (Some (strip v)) /\ hd_codename d h = Ok (Some []).
Proof.
  intros Hd (r & Ef) Es Hs Ev.
  assert (Ed : d = uname_detector uname name) by (destruct Hd as [[-> ->]|[-> ->]]; reflexivity).
  assert (Ei : uname_is uname name h = Ok true).
  { unfold uname_is, exists_file, read_stdout; rewrite Ef, Es; rewrite Hs, eqb_refl; reflexivity. }
  subst d; cbn [uname_detector hd_is hd_version hd_codename]; unfold guarded; rewrite Ei; cbn [bind].
  unfold exists_file, read_stdout; rewrite Ef, Ev; repeat split; reflexivity.
Qed.

Theorem C102_gentoo release h a b rest :
  file_words h release (u "Gentoo" :: u "Base" :: a :: b :: rest) ->
  hd_is (gentoo release) h = Ok true /\ hd_codename (gentoo release) h = Ok (Some []).
Proof.
  intros Hr; cbn [gentoo hd_is hd_codename]; unfold guarded; rewrite (read_words _ _ _ Hr); cbn [bind].
  rewrite eqb_refl; cbn [nth_item nth_error bind]; rewrite eqb_refl; split; reflexivity.
Qed.

Definition x_machine : machine := {| m_lsb := None; m_sw_vers := None; m_strict_version := fun _ => None |}.
Definition x_host (files : dict text text) : host :=
  {| h_machine := x_machine;
     h_file := fun p => match get p files with Some s => Some (Ok s) | None => None end;
     h_run := fun _ => None; h_platform := (u "Linux", [], []);
     h_lower := map (fun c => if ((65 <=? c) && (c <=? 90))%N then (c + 32)%N else c) |}.

Example C102_nonvacuous :
  let nl := [10%N] in
  let h := x_host [(u "/etc/redhat-release", u "Fedora release 20 (Heisenbug)" ++ nl);
                   (u "/etc/issue", u "Fedora release 20 (Heisenbug)" ++ nl ++ u "Kernel \r" ++ nl);
                   (u "/etc/SuSE-brand", u "openSUSE" ++ nl ++ u "VERSION = 13.1");
                   (u "/etc/SuSE-release", u "openSUSE 13.1" ++ nl ++ u "CODENAME = Bottle" ++ nl ++ u "# end");
                   (u "/etc/gentoo-release", u "Gentoo Base System release 2.2" ++ nl)] in
  map (fun p => (hd_version (snd p) h, hd_codename (snd p) h))
    [(tt, fedora (u "/etc/redhat-release") (u "/etc/issue"));
     (tt, opensuse (u "/etc/SuSE-brand") (u "/etc/SuSE-release"));
     (tt, gentoo (u "/etc/gentoo-release"))] =
  [(Ok (Some (u "20")), Ok (Some (u "heisenbug")));
   (Ok (Some (u "13.1")), Ok (Some (u "Bottle")));
   (Ok (Some (u "2.2")), Ok (Some []))].
Proof. vm_compute; reflexivity. Qed.

(** ** C103 *)
(** The documentation names OsNotDetected as the only exception of the detectors.  This is
    true of these detectors ... *)
Theorem C103_documented_error_partial d h :
  (exists n, d = of_machine (lsb_detect n)) \/ (exists a, d = arch a) \/ d = cygwin \/ d = windows ->
  (exists b, hd_is d h = Ok b) /\
  (forall e, hd_version d h = Err e -> e = OsNotDetected) /\ (forall e, hd_codename d h = Err e -> e = OsNotDetected).
Proof.
  intros [(n & ->)|[(a & ->)|[-> | ->]]]; cbn [hd_is hd_version hd_codename of_machine d_is d_get_version d_get_codename lsb_detect arch cygwin windows];
    unfold guarded; cbn [bind]; (split; [eexists; reflexivity|]).
  - destruct (m_lsb (h_machine h)) as [[[n' v] c]|]; [destruct (eqb n' n)|]; split; intros; congruence.
  - destruct (exists_file _ _); split; intros; congruence.
  - destruct (exists_file _ _); split; intros; congruence.
  - destruct (eqb _ _); split; intros; congruence.
Qed.

(** ... and of the others where the release file is absent (and readable files are the only
    source of errors). *)
Theorem C103_absent_file_partial d h a :
  ((exists b, d = fedora a b) \/ d = rhel a \/ d = gentoo a \/ (exists b, d = opensuse a b) \/ d = qnx a \/ d = freebsd a) ->
  h_file h a = None ->
  hd_is d h = Ok false /\ hd_version d h = Err OsNotDetected /\ hd_codename d h = Err OsNotDetected.
Proof.
  intros Hd Ha.
  assert (E : hd_is d h = Ok false).
  { destruct Hd as [(b & ->)|[->|[->|[(b & ->)|[-> | ->]]]]];
      cbn [hd_is opensuse fedora rhel qnx freebsd uname_detector gentoo]; unfold read_issue, uname_is, exists_file;
      rewrite Ha; reflexivity. }
  split; [exact E|]; apply C101_wrong_os; [|exact E].
  destruct Hd as [(b & ->)|[->|[->|[(b & ->)|[-> | ->]]]]]; constructor.
Qed.

(** Without a word in front of "release" in the issue file there is no version. *)
Theorem C103_fedora_first_word release issue h rest rest' :
  file_words h release (u "Fedora" :: rest) -> file_words h issue (u "release" :: rest') ->
  hd_version (fedora release issue) h = Err OsNotDetected.
Proof.
  intros Hr Hi; cbn [fedora hd_version]; unfold guarded; rewrite (read_words _ _ _ Hr), (read_words _ _ _ Hi).
  cbn [bind first_is]; rewrite eqb_refl; reflexivity.
Qed.

(** But unexpected contents, and programs that can not be run, give other exceptions. *)
Theorem C103_documented_error_refuted :
  (exists h, hd_version (fedora (u "/etc/redhat-release") (u "/etc/issue")) h = Err ValueError) /\
  (exists h, hd_version (fedora (u "/etc/redhat-release") (u "/etc/issue")) h = Err AttributeError) /\
  (exists h, hd_codename (rhel (u "/etc/redhat-release")) h = Err IndexError) /\
  (exists h, hd_is (gentoo (u "/etc/gentoo-release")) h = Err IndexError) /\
  (exists h, hd_version (opensuse (u "/etc/SuSE-brand") (u "/etc/SuSE-release")) h = Err IndexError) /\
  (exists h, hd_is (qnx (u "/bin/uname")) h = Err AttributeError) /\
  (exists h, hd_codename (of_machine osx_detect) h = Err AttributeError).
Proof.
  split; [exists (x_host [(u "/etc/redhat-release", u "Fedora release 22 (Twenty Two)"); (u "/etc/issue", u "\S")]); vm_compute; reflexivity|].
  split; [exists (x_host [(u "/etc/redhat-release", u "Fedora release 22 (Twenty Two)")]); vm_compute; reflexivity|].
  split; [exists (x_host [(u "/etc/redhat-release", u "Red Hat Enterprise Linux release 7")]); vm_compute; reflexivity|].
  split; [exists (x_host [(u "/etc/gentoo-release", u "Gentoo")]); vm_compute; reflexivity|].
  split; [exists (x_host [(u "/etc/SuSE-brand", u "openSUSE" ++ [10%N] ++ u "VERSION")]); vm_compute; reflexivity|].
  split; [exists (x_host [(u "/bin/uname", u "")]); vm_compute; reflexivity|].
  exists {| h_machine := {| m_lsb := None; m_sw_vers := Some None; m_strict_version := fun _ => None |};
            h_file := fun _ => None; h_run := fun _ => None; h_platform := ([], [], []); h_lower := fun s => s |}.
  vm_compute; reflexivity.
Qed.

(** ** C104 *)
(** The one detector that matches decides, whatever its place in the list. *)
Lemma od_loop_none l h o : (forall n d, In (n, d) l -> hd_is d h = Ok false) -> od_loop l h o = (Ok tt, o).
Proof.
  revert o; induction l as [|[n d] l IH]; intros o H; cbn [od_loop]; [reflexivity|].
  rewrite (H n d (or_introl eq_refl)); apply IH; intros n' d' Hin; apply (H n' d'); right; exact Hin.
Qed.

Lemma od_loop_app l1 l2 h o : (forall n d, In (n, d) l1 -> hd_is d h = Ok false) ->
  od_loop (l1 ++ l2) h o = od_loop l2 h o.
Proof.
  revert o; induction l1 as [|[n d] l IH]; intros o H; cbn [od_loop app]; [reflexivity|].
  rewrite (H n d (or_introl eq_refl)); apply IH; intros n' d' Hin; apply (H n' d'); right; exact Hin.
Qed.

Theorem C104_single_match h l1 name d l2 v c o : name <> [] -> od_list o = l1 ++ (name, d) :: l2 ->
  hd_is d h = Ok true -> hd_version d h = Ok v -> hd_codename d h = Ok c ->
  (forall n' d', In (n', d') (l1 ++ l2) -> hd_is d' h = Ok false) ->
  exists o', od_detect None h o = (Ok (name, v, c), o') /\
    fst (od_get od_name None h o') = Ok (Some name) /\
    (forall ov h', fst (od_get_detector None ov h' o') = Ok (Some (name, d))).
Proof.
  intros Hn El E1 E2 E3 Hno; unfold od_detect; rewrite El, od_loop_app by (intros n' d' Hin; apply (Hno n' d'), in_or_app; left; exact Hin).
  cbn [od_loop]; rewrite E1, E2, E3, od_loop_none by (intros n' d' Hin; apply (Hno n' d'), in_or_app; right; exact Hin).
  cbn [od_name od_version od_codename]; destruct name as [|a name]; [congruence|].
  eexists; split; [reflexivity|]; split; [reflexivity|intros; reflexivity].
Qed.

(** The bundled list on a plain Debian, Ubuntu, Mint or Xubuntu system. *)
Definition plain_linux (h : host) : Prop :=
  Forall (fun p => h_file h p = None)
    [u "/etc/arch-release"; u "/usr/bin/cygwin1.dll"; u "/etc/redhat-release"; u "/etc/gentoo-release"; u "/etc/SuSE-brand"] /\
  (forall p, p = u "/usr/bin/uname" \/ p = u "/bin/uname" -> h_file h p = None \/ h_run h [p] = Some (u "Linux")) /\
  fst (fst (h_platform h)) = u "Linux" /\ m_sw_vers (h_machine h) = None.

Theorem C104_default_list h lsb name v c : plain_linux h ->
  m_lsb (h_machine h) = Some (lsb, v, c) ->
  In (lsb, name) [(u "debian", u "debian"); (u "Ubuntu", u "ubuntu"); (u "LinuxMint", u "mint"); (u "Xubuntu", u "xubuntu")] ->
  fst (od_detect None h (new_odetect default_os_list)) = Ok (name, Some v, Some c).
Proof.
  intros (Hf & Hu & Hp & Hs) Hl Hin.
  assert (Hfile : forall p, In p [u "/etc/arch-release"; u "/usr/bin/cygwin1.dll"; u "/etc/redhat-release"; u "/etc/gentoo-release"; u "/etc/SuSE-brand"] ->
    h_file h p = None) by (apply Forall_forall; exact Hf).
  assert (Huname : forall p nm, p = u "/usr/bin/uname" \/ p = u "/bin/uname" -> nm <> u "Linux" -> uname_is p nm h = Ok false).
  { intros p nm Hpp Hnm; unfold uname_is, exists_file, read_stdout; destruct (Hu p Hpp) as [E|E]; [rewrite E; reflexivity|].
    destruct (h_file h p); [|reflexivity]; rewrite E.
    destruct (eqb_spec (strip (strip (u "Linux"))) nm) as [E'|]; [exfalso; apply Hnm; rewrite <- E'; reflexivity|reflexivity]. }
  assert (Hlsb : forall x, hd_is (of_machine (lsb_detect x)) h = Ok (eqb lsb x)) by (intros x; cbn; rewrite Hl; reflexivity).
  assert (Hv : hd_version (of_machine (lsb_detect lsb)) h = Ok (Some v)) by (cbn; rewrite Hl, eqb_refl; reflexivity).
  assert (Hc : hd_codename (of_machine (lsb_detect lsb)) h = Ok (Some c)) by (cbn; rewrite Hl, eqb_refl; reflexivity).
  assert (Hw : hd_is windows h = Ok false) by (cbn [hd_is windows]; rewrite Hp; reflexivity).
  assert (Hrh : hd_is (rhel (u "/etc/redhat-release")) h = Ok false)
    by (cbn [hd_is rhel]; unfold read_issue; rewrite Hfile by (cbn; tauto); reflexivity).
  assert (Hfe : forall i, hd_is (fedora (u "/etc/redhat-release") i) h = Ok false)
    by (intros i; cbn [hd_is fedora]; unfold read_issue; rewrite Hfile by (cbn; tauto); reflexivity).
  assert (Hsu : forall i, hd_is (opensuse (u "/etc/SuSE-brand") i) h = Ok false)
    by (intros i; cbn [hd_is opensuse]; unfold read_issue; rewrite Hfile by (cbn; tauto); reflexivity).
  assert (Hge : hd_is (gentoo (u "/etc/gentoo-release")) h = Ok false)
    by (cbn [hd_is gentoo]; unfold read_issue; rewrite Hfile by (cbn; tauto); reflexivity).
  assert (Har : hd_is (arch (u "/etc/arch-release")) h = Ok false)
    by (cbn [hd_is arch]; unfold exists_file; rewrite Hfile by (cbn; tauto); reflexivity).
  assert (Hcy : hd_is cygwin h = Ok false)
    by (cbn [hd_is cygwin]; unfold exists_file; rewrite Hfile by (cbn; tauto); reflexivity).
  assert (Hqn : hd_is (qnx (u "/bin/uname")) h = Ok false) by (apply Huname; [auto|discriminate]).
  assert (Hfr : hd_is (freebsd (u "/usr/bin/uname")) h = Ok false) by (apply Huname; [auto|discriminate]).
  assert (Hos : hd_is (of_machine osx_detect) h = Ok false) by (cbn; rewrite Hs; reflexivity).
  clear Hfile Huname Hf Hu Hp Hs Hl.
  assert (Hmain : forall l1 l2, default_os_list = l1 ++ (name, of_machine (lsb_detect lsb)) :: l2 -> name <> [] ->
    (forall n' d', In (n', d') (l1 ++ l2) -> hd_is d' h = Ok false) ->
    fst (od_detect None h (new_odetect default_os_list)) = Ok (name, Some v, Some c)).
  { intros l1 l2 El Hn Ho.
    destruct (C104_single_match h l1 name (of_machine (lsb_detect lsb)) l2 (Some v) (Some c) (new_odetect default_os_list)) as (o' & E & _);
      [exact Hn|exact El|rewrite Hlsb, eqb_refl; reflexivity|exact Hv|exact Hc|exact Ho|rewrite E; reflexivity]. }
  destruct Hin as [E|[E|[E|[E|[]]]]]; injection E as <- <-.
  - apply (Hmain (firstn 11 default_os_list) (skipn 12 default_os_list)); [reflexivity|discriminate|].
    cbn [firstn skipn app default_os_list registrations fold_left add_detector fst snd]; intros n' d' Hd.
    repeat (destruct Hd as [Hd|Hd]; [injection Hd as <- <-; first [assumption|apply Hfe|apply Hsu|rewrite Hlsb; reflexivity]|]); destruct Hd.
  - apply (Hmain (firstn 2 default_os_list) (skipn 3 default_os_list)); [reflexivity|discriminate|].
    cbn [firstn skipn app default_os_list registrations fold_left add_detector fst snd]; intros n' d' Hd.
    repeat (destruct Hd as [Hd|Hd]; [injection Hd as <- <-; first [assumption|apply Hfe|apply Hsu|rewrite Hlsb; reflexivity]|]); destruct Hd.
  - apply (Hmain (firstn 7 default_os_list) (skipn 8 default_os_list)); [reflexivity|discriminate|].
    cbn [firstn skipn app default_os_list registrations fold_left add_detector fst snd]; intros n' d' Hd.
    repeat (destruct Hd as [Hd|Hd]; [injection Hd as <- <-; first [assumption|apply Hfe|apply Hsu|rewrite Hlsb; reflexivity]|]); destruct Hd.
  - apply (Hmain (firstn 1 default_os_list) (skipn 2 default_os_list)); [reflexivity|discriminate|].
    cbn [firstn skipn app default_os_list registrations fold_left add_detector fst snd]; intros n' d' Hd.
    repeat (destruct Hd as [Hd|Hd]; [injection Hd as <- <-; first [assumption|apply Hfe|apply Hsu|rewrite Hlsb; reflexivity]|]); destruct Hd.
Qed.

(** ROS_OS_OVERRIDE: name, version and codename separated by colons, missing ones empty. *)
Theorem C104_override n v c h o : ~ In 58%N n -> ~ In 58%N v -> ~ In 58%N c -> n <> [] ->
  fst (od_detect (Some n) h o) = Ok (n, Some [], Some []) /\
  fst (od_detect (Some (n ++ u ":" ++ v)) h o) = Ok (n, Some v, Some []) /\
  fst (od_detect (Some (n ++ u ":" ++ v ++ u ":" ++ c)) h o) = Ok (n, Some v, Some c).
Proof.
  intros Hn Hv Hc Hne; unfold od_detect.
  assert (E1 : split_on 58%N n = [n]) by (apply split_on_none; exact Hn).
  assert (E2 : split_on 58%N (n ++ u ":" ++ v) = [n; v]).
  { etransitivity; [exact (split_on_app 58%N n v Hn)|]; rewrite split_on_none by exact Hv; reflexivity. }
  assert (E3 : split_on 58%N (n ++ u ":" ++ v ++ u ":" ++ c) = [n; v; c]).
  { etransitivity; [exact (split_on_app 58%N n (v ++ u ":" ++ c) Hn)|]; f_equal.
    etransitivity; [exact (split_on_app 58%N v c Hv)|]; rewrite split_on_none by exact Hc; reflexivity. }
  rewrite E1, E2, E3; cbn [nth_error od_name od_version od_codename]; destruct n as [|a n]; [congruence|].
  repeat split; reflexivity.
Qed.

(** A name once found is answered again whatever happens to the system, until detection is
    run again. *)
Inductive od_call :=
| CGetName (override : option text) (h : host)
| CGetDetector (name : text) (override : option text) (h : host)
| CAdd (name : text) (d : hdetector).
Definition od_step (o : odetect) (c : od_call) : odetect :=
  match c with
  | CGetName ov h => snd (od_get od_name ov h o)
  | CGetDetector n ov h => snd (od_get_detector (Some n) ov h o)
  | CAdd n d => od_add n d o
  end.

Theorem C104_name_remembered h ov o n v c o' calls h' ov' :
  od_detect ov h o = (Ok (n, v, c), o') ->
  fst (od_get od_name ov' h' (fold_left od_step calls o')) = Ok (Some n).
Proof.
  intros E.
  assert (Hn : od_name o' = Some n /\ n <> []).
  { unfold od_detect in E; destruct (match ov with Some s => _ | None => _ end) as [[[]|e] o1]; [|discriminate].
    destruct (od_name o1) as [[|a n0]|] eqn:En; try discriminate; injection E as <- <- <- <-; split; [exact En|discriminate]. }
  assert (Hk : forall o1, od_name o1 = Some n -> od_name (fold_left od_step calls o1) = Some n).
  { destruct Hn as [_ Hn]; clear E o'; induction calls as [|k calls IH]; intros o1 H1; cbn [fold_left]; [exact H1|]; apply IH.
    destruct k; cbn [od_step od_get_detector snd od_add od_name]; [|exact H1|exact H1].
    unfold od_get; rewrite H1; destruct n; [congruence|exact H1]. }
  unfold od_get; rewrite (Hk o' (proj1 Hn)); destruct n; [destruct Hn; congruence|reflexivity].
Qed.

(** But the memory also outlives the system it describes, and failures: *)
Definition mac (version : text) : host :=
  {| h_machine := {| m_lsb := None; m_sw_vers := Some (Some version);
                     m_strict_version := fun s => if eqb s (u "10.9") then Some (10, 9)%Z else Some (10, 99)%Z |};
     h_file := fun _ => None; h_run := fun _ => None; h_platform := (u "Darwin", [], []); h_lower := fun s => s |}.

(** detection on a system nothing matches gives the result of an earlier detection, ... *)
Theorem C104_stale_refuted : exists h h' o,
  (forall n d, In (n, d) default_os_list -> hd_is d h' = Ok false) /\
  od_detect None h (new_odetect default_os_list) = (Ok (u "osx", Some (u "10.9"), Some (u "mavericks")), o) /\
  fst (od_detect None h' o) = Ok (u "osx", Some (u "10.9"), Some (u "mavericks")) /\
  fst (od_detect None h' (new_odetect default_os_list)) = Err OsNotDetected.
Proof.
  exists (mac (u "10.9")), (x_host []).
  destruct (od_detect None (mac (u "10.9")) (new_odetect default_os_list)) as [r o] eqn:E.
  assert (Er : r = Ok (u "osx", Some (u "10.9"), Some (u "mavericks"))) by (apply (eq_trans (eq_sym (f_equal fst E))); vm_compute; reflexivity).
  exists o; split; [|split; [rewrite Er; reflexivity|]].
  - cbn [default_os_list registrations fold_left add_detector fst snd]; intros n d Hd.
    repeat (destruct Hd as [Hd|Hd]; [injection Hd as <- <-; vm_compute; reflexivity|]); destruct Hd.
  - assert (Eo : o = snd (od_detect None (mac (u "10.9")) (new_odetect default_os_list))) by (rewrite E; reflexivity).
    split; [rewrite Eo; vm_compute; reflexivity|vm_compute; reflexivity].
Qed.

(** ... and after a detection that failed, the name is answered all the same, with the
    codename of an earlier system. *)
Theorem C104_failure_refuted : exists h h' o o',
  od_detect None h (new_odetect default_os_list) = (Ok (u "osx", Some (u "10.9"), Some (u "mavericks")), o) /\
  od_detect None h' o = (Err OsNotDetected, o') /\
  fst (od_get od_name None h' o') = Ok (Some (u "osx")) /\
  fst (od_get od_version None h' o') = Ok (Some (u "10.99")) /\
  fst (od_get od_codename None h' o') = Ok (Some (u "mavericks")).
Proof.
  exists (mac (u "10.9")), (mac (u "10.99")).
  destruct (od_detect None (mac (u "10.9")) (new_odetect default_os_list)) as [r o] eqn:E.
  destruct (od_detect None (mac (u "10.99")) o) as [r' o'] eqn:E'.
  assert (Er : r = Ok (u "osx", Some (u "10.9"), Some (u "mavericks"))) by (apply (eq_trans (eq_sym (f_equal fst E))); vm_compute; reflexivity).
  assert (Eo : o = snd (od_detect None (mac (u "10.9")) (new_odetect default_os_list))) by (rewrite E; reflexivity).
  assert (Er' : r' = Err OsNotDetected) by (apply (eq_trans (eq_sym (f_equal fst E'))); rewrite Eo; vm_compute; reflexivity).
  assert (Eo' : o' = snd (od_detect None (mac (u "10.99")) o)) by (rewrite E'; reflexivity).
  exists o, o'; split; [rewrite Er; reflexivity|split; [rewrite E', Er'; reflexivity|]].
  rewrite Eo', Eo; repeat split; vm_compute; reflexivity.
Qed.

(** With ROS_OS_OVERRIDE there is no detector for the system: [None] is returned. *)
Theorem C104_override_detector_refuted : forall s h l,
  fst (od_get_detector None (Some (u "ubuntu:" ++ s)) h (new_odetect l)) = Ok None.
Proof.
  intros s h l; unfold od_get_detector, od_detect; cbn [new_odetect od_detector].
  assert (E : nth_error (split_on 58%N (u "ubuntu:" ++ s)) 0 = Some (u "ubuntu")).
  { change (u "ubuntu:" ++ s) with (u "ubuntu" ++ 58%N :: s); rewrite split_on_app; [reflexivity|].
    cbn; intuition discriminate. }
  rewrite E; reflexivity.
Qed.

Example C101_nonvacuous :
  hd_is (fedora (u "/etc/redhat-release") (u "/etc/issue")) (x_host []) = Ok false /\
  hd_is (of_machine osx_detect) (mac (u "10.9")) = Ok true.
Proof. split; reflexivity. Qed.

Definition ubuntu_host : host :=
  {| h_machine := {| m_lsb := Some (u "Ubuntu", u "14.04", u "trusty"); m_sw_vers := None; m_strict_version := fun _ => None |};
     h_file := fun p => if eqb p (u "/bin/uname") then Some (Err IOError) else None;
     h_run := fun _ => Some (u "Linux"); h_platform := (u "Linux", [], []); h_lower := fun s => s |}.
Example C104_nonvacuous : plain_linux ubuntu_host /\
  fst (od_detect None ubuntu_host (new_odetect default_os_list)) = Ok (u "ubuntu", Some (u "14.04"), Some (u "trusty")) /\
  fst (od_detect (Some (u "debian:7:wheezy")) ubuntu_host (new_odetect default_os_list)) = Ok (u "debian", Some (u "7"), Some (u "wheezy")).
Proof.
  split; [|split; vm_compute; reflexivity].
  split; [repeat constructor|]; split; [intros p [-> | ->]; [left|right]; reflexivity|split; reflexivity].
Qed.

(** In general the detector that decides is the LAST of the list that matches, if those before
    it answer all their questions; what they answered is forgotten. *)
Definition answers (d : hdetector) (h : host) : Prop :=
  hd_is d h = Ok false \/
  (hd_is d h = Ok true /\ (exists v, hd_version d h = Ok v) /\ exists c, hd_codename d h = Ok c).

Theorem C104_last_match h l1 name d l2 v c o : name <> [] -> od_list o = l1 ++ (name, d) :: l2 ->
  (forall n' d', In (n', d') l1 -> answers d' h) ->
  hd_is d h = Ok true -> hd_version d h = Ok v -> hd_codename d h = Ok c ->
  (forall n' d', In (n', d') l2 -> hd_is d' h = Ok false) ->
  exists o', od_detect None h o = (Ok (name, v, c), o') /\ od_list o' = od_list o /\
    fst (od_get od_name None h o') = Ok (Some name) /\
    (forall ov h', fst (od_get_detector None ov h' o') = Ok (Some (name, d))).
Proof.
  intros Hn El Hpre E1 E2 E3 Hno; unfold od_detect; rewrite El.
  assert (Hl : exists o1, od_list o1 = od_list o /\
    od_loop (l1 ++ (name, d) :: l2) h o = od_loop ((name, d) :: l2) h o1).
  { clear El; revert o Hpre; induction l1 as [|[n1 d1] l1 IH]; intros o Hpre; [exists o; split; reflexivity|].
    cbn [app]; destruct (Hpre n1 d1 (or_introl eq_refl)) as [Ef|(Et & (v1 & Ev) & (c1 & Ec))].
    - destruct (IH o) as (o1 & H1 & H2); [intros n' d' Hin; apply (Hpre n' d'); right; exact Hin|].
      exists o1; split; [exact H1|]; rewrite <- H2; cbn [od_loop]; rewrite Ef; reflexivity.
    - destruct (IH {| od_list := od_list o; od_name := Some n1; od_version := v1; od_codename := c1; od_detector := Some (n1, d1) |})
        as (o1 & H1 & H2); [intros n' d' Hin; apply (Hpre n' d'); right; exact Hin|].
      exists o1; split; [exact H1|]; rewrite <- H2; cbn [od_loop]; rewrite Et, Ev, Ec; reflexivity. }
  destruct Hl as (o1 & Hl1 & Hl); rewrite Hl; cbn [od_loop]; rewrite E1, E2, E3, od_loop_none by exact Hno.
  cbn [od_name od_version od_codename]; destruct name as [|a name]; [congruence|].
  eexists; split; [reflexivity|]; split; [rewrite <- El; exact Hl1|]; split; [reflexivity|intros; reflexivity].
Qed.

(** [add_detector]: the new detector is the one returned for its name, and the others stay; but
    it is put in front, so a detector of the old list that matches wins over it. *)
Theorem C104_added n d o ov h :
  fst (od_get_detector (Some n) ov h (od_add n d o)) = Ok (Some (n, d)) /\
  (forall n', n' <> n -> fst (od_get_detector (Some n') ov h (od_add n d o)) = fst (od_get_detector (Some n') ov h o)).
Proof.
  unfold od_get_detector, od_add; cbn [od_list fst]; split.
  - unfold get_detector, add_detector; cbn; rewrite eqb_refl; reflexivity.
  - intros n' Hn; unfold get_detector, add_detector; cbn; destruct (eqb_spec n n'); [congruence|reflexivity].
Qed.

Theorem C104_added_loses_refuted h n d o name v c l1 d' l2 : answers d h ->
  name <> [] -> od_list o = l1 ++ (name, d') :: l2 ->
  (forall n1 d1, In (n1, d1) l1 -> answers d1 h) ->
  hd_is d' h = Ok true -> hd_version d' h = Ok v -> hd_codename d' h = Ok c ->
  (forall n1 d1, In (n1, d1) l2 -> hd_is d1 h = Ok false) ->
  fst (od_detect None h (od_add n d o)) = Ok (name, v, c).
Proof.
  intros Ha Hn El Hpre E1 E2 E3 Hno.
  destruct (C104_last_match h ((n, d) :: l1) name d' l2 v c (od_add n d o)) as (o' & E & _); auto.
  - unfold od_add, add_detector; cbn [od_list]; rewrite El; reflexivity.
  - intros n1 d1 [Q|Q]; [injection Q as <- <-; exact Ha|exact (Hpre _ _ Q)].
  - rewrite E; reflexivity.
Qed.

(** What is already remembered is not questioned by adding a detector. *)
Theorem C104_added_keeps_memory n d o ov h name : od_name o = Some name -> name <> [] ->
  fst (od_get od_name ov h (od_add n d o)) = Ok (Some name).
Proof.
  intros E Hn; unfold od_get, od_add, truthy_text; cbn [od_name]; rewrite E; destruct name; [congruence|reflexivity].
Qed.

(** By name: an answer exactly for the registered names, the first entry of that name; KeyError
    for the others.  Nothing is detected and nothing changes. *)
Theorem C104_by_name n ov h o :
  snd (od_get_detector (Some n) ov h o) = o /\
  (~ In n (map fst (od_list o)) -> fst (od_get_detector (Some n) ov h o) = Err KeyError) /\
  (forall l1 d l2, od_list o = l1 ++ (n, d) :: l2 -> ~ In n (map fst l1) ->
     fst (od_get_detector (Some n) ov h o) = Ok (Some (n, d))).
Proof.
  unfold od_get_detector; cbn [fst snd]; split; [reflexivity|].
  assert (F : forall l : list (text * hdetector), ~ In n (map fst l) -> filter (fun p => eqb (fst p) n) l = []).
  { induction l as [|[n1 d1] l IH]; cbn [map fst filter In]; [reflexivity|]; intros H.
    destruct (eqb_spec n1 n) as [->|]; [exfalso; apply H; left; reflexivity|]; apply IH; intros Hin; apply H; right; exact Hin. }
  unfold get_detector; split.
  - intros H; rewrite F by exact H; reflexivity.
  - intros l1 d l2 E H; rewrite E, filter_app, F by exact H; cbn [app filter fst]; rewrite eqb_refl; reflexivity.
Qed.

(** An empty or missing version (or codename) is not remembered: it is asked for again every time. *)
Theorem C104_empty_asked_again (field : odetect -> option text) ov h o : field o = None \/ field o = Some [] ->
  od_get field ov h o = match od_detect ov h o with (Ok _, o') => (Ok (field o'), o') | (Err e, o') => (Err e, o') end.
Proof. intros [E|E]; unfold od_get, truthy_text; rewrite E; reflexivity. Qed.

(** If the version of the system found can not be told, its name is remembered all the same. *)
Theorem C104_name_without_version_refuted h l1 name d l2 e o : name <> [] -> od_list o = l1 ++ (name, d) :: l2 ->
  (forall n' d', In (n', d') l1 -> hd_is d' h = Ok false) -> hd_is d h = Ok true -> hd_version d h = Err e ->
  exists o', od_detect None h o = (Err e, o') /\ forall ov h', fst (od_get od_name ov h' o') = Ok (Some name).
Proof.
  intros Hn El Hno E1 E2; unfold od_detect; rewrite El, od_loop_app by exact Hno; cbn [od_loop]; rewrite E1, E2.
  eexists; split; [reflexivity|]; intros ov h'; unfold od_get, truthy_text; cbn [od_name]; destruct name; [congruence|reflexivity].
Qed.

(** The files and programs that the registered detectors look at, and the names that lsb_release gives. *)
Theorem C104_registered ov h : forall n d, In (n, d)
    [(u "arch", arch (u "/etc/arch-release")); (u "cygwin", cygwin); (u "debian", of_machine (lsb_detect (u "debian")));
     (u "fedora", fedora (u "/etc/redhat-release") (u "/etc/issue")); (u "freebsd", freebsd (u "/usr/bin/uname"));
     (u "gentoo", gentoo (u "/etc/gentoo-release")); (u "mint", of_machine (lsb_detect (u "LinuxMint")));
     (u "opensuse", opensuse (u "/etc/SuSE-brand") (u "/etc/SuSE-release")); (u "osx", of_machine osx_detect);
     (u "qnx", qnx (u "/bin/uname")); (u "rhel", rhel (u "/etc/redhat-release")); (u "ubuntu", of_machine (lsb_detect (u "Ubuntu")));
     (u "xubuntu", of_machine (lsb_detect (u "Xubuntu"))); (u "windows", windows)] ->
  fst (od_get_detector (Some n) ov h (new_odetect default_os_list)) = Ok (Some (n, d)).
Proof.
  intros n d H; repeat (destruct H as [H|H]; [injection H as <- <-; reflexivity|]); destruct H.
Qed.

Example C104_refuted_nonvacuous :
  fst (od_detect None (mac (u "not a version")) (new_odetect default_os_list)) = Err OsNotDetected /\
  let h := x_host [(u "/etc/redhat-release", u "Fedora release 20 (Heisenbug)"); (u "/etc/issue", u "release 20")] in
  hd_is (fedora (u "/etc/redhat-release") (u "/etc/issue")) h = Ok true /\
  hd_version (fedora (u "/etc/redhat-release") (u "/etc/issue")) h = Err OsNotDetected.
Proof. split; [vm_compute; reflexivity|split; reflexivity]. Qed.

Example C104_added_nonvacuous :
  fst (od_detect None ubuntu_host (od_add (u "mine") (of_machine (lsb_detect (u "Ubuntu"))) (new_odetect default_os_list))) =
    Ok (u "ubuntu", Some (u "14.04"), Some (u "trusty")) /\
  answers (of_machine (lsb_detect (u "Ubuntu"))) ubuntu_host.
Proof. split; [vm_compute; reflexivity|right; split; [reflexivity|split; eexists; reflexivity]]. Qed.

Example C104_by_name_nonvacuous :
  fst (od_get_detector (Some (u "haiku")) None ubuntu_host (new_odetect default_os_list)) = Err KeyError /\
  fst (od_get_detector (Some (u "arch")) None ubuntu_host (new_odetect default_os_list)) =
    Ok (Some (u "arch", arch (u "/etc/arch-release"))).
Proof. split; reflexivity. Qed.

Example C102_others_nonvacuous :
  let h := {| h_machine := x_machine; h_file := fun p => Some (Ok []);
              h_run := fun a => match a with [_] => Some (u "QNX") | _ => Some (u "6.5") end;
              h_platform := (u "Windows", u "6.1", u "7"); h_lower := fun s => s |} in
  hd_version windows h = Ok (Some (u "6.1")) /\ hd_codename windows h = Ok (Some (u "7")) /\
  hd_version cygwin h = Ok (Some (u "6.5")) /\ hd_version (qnx (u "/bin/uname")) h = Ok (Some (u "6.5")).
Proof. repeat split; vm_compute; reflexivity. Qed.

Print Assumptions C101_wrong_os.
Print Assumptions C101_answer_means_detected.
Print Assumptions C102_words.
Print Assumptions C102_fedora_version.
Print Assumptions C102_rhel_version.
Print Assumptions C102_codename.
Print Assumptions C102_codename_first_word.
Print Assumptions C102_codename_words_refuted.
Print Assumptions C102_gentoo_version.
Print Assumptions C102_opensuse.
Print Assumptions C103_documented_error_partial.
Print Assumptions C103_absent_file_partial.
Print Assumptions C103_documented_error_refuted.
Print Assumptions C104_single_match.
Print Assumptions C104_default_list.
Print Assumptions C104_override.
Print Assumptions C104_name_remembered.
Print Assumptions C104_stale_refuted.
Print Assumptions C104_failure_refuted.
Print Assumptions C104_override_detector_refuted.
Print Assumptions C102_windows.
Print Assumptions C102_arch.
Print Assumptions C102_cygwin.
Print Assumptions C102_uname.
Print Assumptions C102_gentoo.
Print Assumptions C104_last_match.
Print Assumptions C104_added.
Print Assumptions C104_added_loses_refuted.
Print Assumptions C104_added_keeps_memory.
Print Assumptions C104_by_name.
Print Assumptions C103_fedora_first_word.
Print Assumptions C104_empty_asked_again.
Print Assumptions C104_name_without_version_refuted.
Print Assumptions C104_registered.
