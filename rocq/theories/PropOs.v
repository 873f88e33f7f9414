(** C42-C45, C71, C72: OS plugins, detection, override and versions. *)
From Verif Require Import Base Dict PyVal Paths Config Installers OsSupport.

(** ** Specification *)
(** [o] is derived from [p], directly or not: its list of names mentions the name of [p]
    after its own. *)
Definition derives {W} (o p : os_plugin W) : Prop := In (os_name p) (os_parents o).
(** [o] is detected on machine [w]. *)
Definition detected {W} (plugins : list (os_plugin W)) (w : W) (o : os_plugin W) : Prop :=
  In o plugins /\ os_is o w = Ok true.
(** Detection does not raise. *)
Definition detectable {W} (plugins : list (os_plugin W)) (w : W) : Prop :=
  forall o, In o plugins -> exists b, os_is o w = Ok b.
(** [a] stands before [b] in [l]. *)
Definition before {A} (l : list A) (a b : A) : Prop := exists l1 l2 l3, l = l1 ++ a :: l2 ++ b :: l3.

(** ** Detection *)
Section Detection.
  Context {W : Type}.
  Implicit Types (o p r m : os_plugin W) (plugins : list (os_plugin W)) (w : W).

  Lemma name_inj plugins o p : NoDup (map os_name plugins) -> In o plugins -> In p plugins ->
    os_name o = os_name p -> o = p.
  Proof.
    induction plugins as [|q l IH]; intros ND Ho Hp E; [destruct Ho|].
    cbn in ND. inversion ND as [|? ? Hn ND' Eq]; subst.
    destruct Ho as [->|Ho], Hp as [->|Hp]; auto.
    - exfalso; apply Hn. rewrite E. apply in_map; exact Hp.
    - exfalso; apply Hn. rewrite <- E. apply in_map; exact Ho.
  Qed.

  (** Invariant of the loop: what is selected once [m], which derives from every other
      detected os, has been seen. *)
  Lemma loop_keeps m l w :
    (forall o, In o l -> exists b, os_is o w = Ok b) ->
    (forall o, In o l -> os_is o w = Ok true -> In (os_name o) (os_all_names m)) ->
    detect_loop (Some m) l w = Ok (Some m).
  Proof.
    induction l as [|o l IH]; intros Hd Hm; [reflexivity|]. cbn [detect_loop].
    assert (Hd' : forall o, In o l -> exists b, os_is o w = Ok b) by (intros; apply Hd; right; assumption).
    assert (Hm' : forall o, In o l -> os_is o w = Ok true -> In (os_name o) (os_all_names m))
      by (intros; apply Hm; [right|]; assumption).
    destruct (Hd o (or_introl eq_refl)) as (b & Eb). rewrite Eb. cbn [bind]. destruct b.
    - rewrite (proj2 (mem_In _ _) (Hm o (or_introl eq_refl) Eb)). apply IH; assumption.
    - apply IH; assumption.
  Qed.

  Lemma loop_finds m l w res0 :
    (forall o, In o l -> exists b, os_is o w = Ok b) ->
    In m l -> os_is m w = Ok true ->
    (forall o, In o l -> os_is o w = Ok true -> o <> m -> derives m o /\ ~ derives o m /\ os_name o <> os_name m) ->
    (forall o, In o l -> o = m \/ o <> m) ->
    match res0 with
    | Some r => derives m r /\ ~ derives r m /\ os_name r <> os_name m
    | None => True
    end ->
    detect_loop res0 l w = Ok (Some m).
  Proof.
    revert res0; induction l as [|o l IH]; intros res0 Hd Hi Him Hder Hdec Hr; [destruct Hi|].
    cbn [detect_loop].
    assert (Hd' : forall o, In o l -> exists b, os_is o w = Ok b) by (intros; apply Hd; right; assumption).
    assert (Hder' : forall o, In o l -> os_is o w = Ok true -> o <> m ->
        derives m o /\ ~ derives o m /\ os_name o <> os_name m) by (intros; apply Hder; [right|..]; assumption).
    assert (Hdec' : forall o, In o l -> o = m \/ o <> m) by (intros; apply Hdec; right; assumption).
    destruct (Hd o (or_introl eq_refl)) as (b & Eb). rewrite Eb. cbn [bind].
    destruct (Hdec o (or_introl eq_refl)) as [E|N].
    - rewrite E in *. assert (b = true) by congruence; subst b.
      assert (K : forall x, In x l -> os_is x w = Ok true -> In (os_name x) (os_all_names m)).
      { intros x Hx Hxt. destruct (Hdec' x Hx) as [->|Nx]; [left; reflexivity|].
        right. apply (Hder' x Hx Hxt Nx). }
      destruct res0 as [r|]; [|apply loop_keeps; assumption].
      destruct Hr as (H1 & H2 & H3).
      assert (E1 : mem (os_name m) (os_all_names r) = false).
      { apply mem_not_In. intros [Hx|Hx]; [congruence|]. apply H2; exact Hx. }
      assert (E2 : mem (os_name r) (os_all_names m) = true).
      { apply mem_In. right; exact H1. }
      rewrite E1, E2. apply loop_keeps; assumption.
    - assert (Hi' : In m l) by (destruct Hi as [->|Hi]; [contradiction|exact Hi]).
      destruct b; [|apply IH; assumption].
      pose proof (Hder o (or_introl eq_refl) Eb N) as Ho.
      destruct res0 as [r|]; [|apply IH; assumption].
      destruct (mem (os_name o) (os_all_names r)); [apply IH; assumption|].
      destruct (mem (os_name r) (os_all_names o)); apply IH; assumption.
  Qed.

  Lemma loop_none l w : (forall o, In o l -> os_is o w = Ok false) -> detect_loop None l w = Ok None.
  Proof.
    induction l as [|o l IH]; intros H; [reflexivity|]. cbn [detect_loop].
    rewrite (H o (or_introl eq_refl)). cbn [bind]. apply IH. intros; apply H; right; assumption.
  Qed.

  (** With a transitive and acyclic derivation relation nothing more specific than the
      result is detected. *)
  Lemma loop_maximal plugins w :
    (forall a b, In a plugins -> In b plugins -> derives a b -> ~ derives b a) ->
    (forall a b c, In a plugins -> In b plugins -> In c plugins -> derives a b -> derives b c -> derives a c) ->
    forall l seen res0 r,
    (forall o, In o seen -> In o plugins) -> (forall o, In o l -> In o plugins) ->
    (forall x, res0 = Some x -> In x seen /\ os_is x w = Ok true) ->
    (forall x o, res0 = Some x -> In o seen -> os_is o w = Ok true -> ~ derives o x) ->
    (res0 = None -> forall o, In o seen -> os_is o w <> Ok true) ->
    NoDup (map os_name plugins) ->
    detect_loop res0 l w = Ok (Some r) ->
    (In r seen \/ In r l) /\ os_is r w = Ok true /\
    forall o, In o seen \/ In o l -> os_is o w = Ok true -> ~ derives o r.
  Proof.
    intros Hanti Htrans. induction l as [|o l IH]; intros seen res0 r Hs Hl H1 H2 H3 ND; cbn [detect_loop].
    - intros E; injection E as ->. destruct (H1 r eq_refl). split; [left; assumption|]. split; [assumption|].
      intros o [Ho|[]] Ht. exact (H2 r o eq_refl Ho Ht).
    - assert (Hl' : forall x, In x l -> In x plugins) by (intros; apply Hl; right; assumption).
      assert (Ho : In o plugins) by (apply Hl; left; reflexivity).
      assert (Hs' : forall x, In x (o :: seen) -> In x plugins) by (intros x [<-|Hx]; [exact Ho|apply Hs; exact Hx]).
      assert (R : forall (P : os_plugin W -> Prop), (forall x, In x (o :: seen) \/ In x l -> P x) ->
                  forall x, In x seen \/ In x (o :: l) -> P x).
      { intros P HP x [Hx|[<-|Hx]]; apply HP; [left; right|left; left|right]; auto. }
      assert (R' : forall x, In x (o :: seen) \/ In x l -> In x seen \/ In x (o :: l)).
      { intros x [[<-|Hx]|Hx]; [right; left|left|right; right]; auto. }
      assert (Irr : forall x, In x plugins -> ~ derives x x).
      { intros x Hx D. exact (Hanti x x Hx Hx D D). }
      destruct (os_is o w) as [b|e] eqn:Eb; [|discriminate]. cbn [bind]. intros E.
      assert (G : forall res1, detect_loop res1 l w = Ok (Some r) ->
                  (forall x, res1 = Some x -> In x (o :: seen) /\ os_is x w = Ok true) ->
                  (forall x y, res1 = Some x -> In y (o :: seen) -> os_is y w = Ok true -> ~ derives y x) ->
                  (res1 = None -> forall y, In y (o :: seen) -> os_is y w <> Ok true) ->
                  (In r seen \/ In r (o :: l)) /\ os_is r w = Ok true /\
                  forall y, In y seen \/ In y (o :: l) -> os_is y w = Ok true -> ~ derives y r).
      { intros res1 E1 G1 G2 G3. destruct (IH (o :: seen) res1 r Hs' Hl' G1 G2 G3 ND E1) as (A & B & C).
        split; [apply R'; exact A|]. split; [exact B|]. apply (R (fun y => os_is y w = Ok true -> ~ derives y r)); exact C. }
      destruct b.
      + destruct res0 as [x|].
        * destruct (H1 x eq_refl) as [Hx Hxt].
          destruct (mem (os_name o) (os_all_names x)) eqn:M1; [|destruct (mem (os_name x) (os_all_names o)) eqn:M2].
          -- apply (G _ E).
             ++ intros y Ey; injection Ey as <-. split; [right; exact Hx|exact Hxt].
             ++ intros y z Ey; injection Ey as <-. intros [<-|Hz] Hzt; [|apply (H2 x z eq_refl Hz Hzt)].
                apply mem_In in M1 as [Em|Em].
                ** rewrite (name_inj plugins x o ND (Hs x Hx) Ho Em). apply Irr; exact Ho.
                ** apply Hanti; [apply Hs; exact Hx|exact Ho|exact Em].
             ++ discriminate.
          -- apply mem_In in M2. apply mem_not_In in M1.
             assert (D : derives o x).
             { destruct M2 as [Em|Em]; [|exact Em]. exfalso; apply M1. left. congruence. }
             apply (G _ E).
             ++ intros y Ey; injection Ey as <-. split; [left; reflexivity|exact Eb].
             ++ intros y z Ey; injection Ey as <-. intros [<-|Hz] Hzt; [apply Irr; exact Ho|].
                intros Dz. apply (H2 x z eq_refl Hz Hzt).
                apply (Htrans z o x); auto.
             ++ discriminate.
          -- apply (G _ E).
             ++ intros y Ey; injection Ey as <-. split; [right; exact Hx|exact Hxt].
             ++ intros y z Ey; injection Ey as <-. intros [<-|Hz] Hzt; [|apply (H2 x z eq_refl Hz Hzt)].
                apply mem_not_In in M2. intros D; apply M2; right; exact D.
             ++ discriminate.
        * apply (G _ E).
          -- intros y Ey; injection Ey as <-. split; [left; reflexivity|exact Eb].
          -- intros y z Ey; injection Ey as <-. intros [<-|Hz] Hzt; [apply Irr; exact Ho|].
             exfalso; exact (H3 eq_refl z Hz Hzt).
          -- discriminate.
      + apply (G _ E).
        * intros x Ex. destruct (H1 x Ex). split; [right|]; assumption.
        * intros x y Ex [<-|Hy] Hyt; [congruence|]. exact (H2 x y Ex Hy Hyt).
        * intros E0 y [<-|Hy]; [congruence|]. exact (H3 E0 y Hy).
  Qed.
End Detection.

(** ** C42 *)
(** If one detected os derives from all other detected ones (and none of them from it),
    that one becomes the current os; the plugins have distinct names (C40). *)
Theorem C42_most_specific {W} (s : os_support W) w m :
  NoDup (map os_name (s_plugins s)) -> detectable (s_plugins s) w ->
  detected (s_plugins s) w m ->
  (forall o, detected (s_plugins s) w o -> o <> m -> derives m o /\ ~ derives o m) ->
  detect_os s w = (Ok tt, {| s_plugins := s_plugins s; s_os := Some (Plugin m) |}).
Proof.
  intros ND Hd [Hm Hmt] Hder. unfold detect_os.
  rewrite (loop_finds m (s_plugins s) w None); [reflexivity|exact Hd|exact Hm|exact Hmt| | |exact I].
  - intros o Ho Hot N. destruct (Hder o (conj Ho Hot) N). split; [assumption|]. split; [assumption|].
    intros E; apply N. apply (name_inj (s_plugins s)); assumption.
  - intros o Ho. destruct (eqb_spec (os_name o) (os_name m)) as [E|N].
    + left. apply (name_inj (s_plugins s)); assumption.
    + right. congruence.
Qed.

(** ... whatever the order of the plugins. *)
Theorem C42_order_irrelevant {W} (s s' : os_support W) w m :
  Permutation (s_plugins s) (s_plugins s') ->
  NoDup (map os_name (s_plugins s)) -> detectable (s_plugins s) w ->
  detected (s_plugins s) w m ->
  (forall o, detected (s_plugins s) w o -> o <> m -> derives m o /\ ~ derives o m) ->
  s_os (snd (detect_os s w)) = Some (Plugin m) /\ s_os (snd (detect_os s' w)) = Some (Plugin m).
Proof.
  intros Pm ND Hd Hm Hder. split.
  - rewrite (C42_most_specific s w m); auto.
  - rewrite (C42_most_specific s' w m); [reflexivity| | | |].
    + eapply Permutation_NoDup; [apply Permutation_map; exact Pm|exact ND].
    + intros o Ho. apply Hd. apply Permutation_in with (2 := Ho). apply Permutation_sym; exact Pm.
    + destruct Hm as [Hm Ht]. split; [|exact Ht]. apply Permutation_in with (2 := Hm). exact Pm.
    + intros o [Ho Ht]. apply Hder. split; [|exact Ht].
      apply Permutation_in with (2 := Ho). apply Permutation_sym; exact Pm.
Qed.

(** Without a single most specific os the result still depends on the order, but never is
    an os of which a detected os is a derivative. *)
Theorem C42_nothing_more_specific {W} (s s' : os_support W) w r :
  NoDup (map os_name (s_plugins s)) ->
  (forall a b, In a (s_plugins s) -> In b (s_plugins s) -> derives a b -> ~ derives b a) ->
  (forall a b c, In a (s_plugins s) -> In b (s_plugins s) -> In c (s_plugins s) ->
     derives a b -> derives b c -> derives a c) ->
  detect_os s w = (Ok tt, s') -> s_os s' = Some r ->
  exists o, r = Plugin o /\ detected (s_plugins s) w o /\
    forall p, detected (s_plugins s) w p -> ~ derives p o.
Proof.
  intros ND Ha Ht. unfold detect_os.
  destruct (detect_loop None (s_plugins s) w) as [[o|]|e] eqn:E; [|discriminate|discriminate].
  intros H; injection H as <-. cbn. intros H; injection H as <-.
  destruct (loop_maximal (s_plugins s) w Ha Ht (s_plugins s) [] None o) as (A & B & C);
    [intros ? []|auto|intros x E0; discriminate E0|intros x y E0; discriminate E0|intros _ ? []|exact ND|exact E|].
  - exists o. split; [reflexivity|]. split; [split; [destruct A as [[]|A]; exact A|exact B]|].
    intros p [Hp Hpt]. apply C; [right; exact Hp|exact Hpt].
Qed.

(** If nothing is detected, an error is raised and the current os stays. *)
Theorem C42_none_detected {W} (s : os_support W) w :
  (forall o, In o (s_plugins s) -> os_is o w = Ok false) -> detect_os s w = (Err UnsupportedOSError, s).
Proof. intros H. unfold detect_os. rewrite loop_none by exact H. reflexivity. Qed.

(** A failing detection never changes the current os. *)
Theorem C42_failure_keeps {W} (s s' : os_support W) w e : detect_os s w = (Err e, s') -> s' = s.
Proof.
  unfold detect_os. destruct (detect_loop None (s_plugins s) w) as [[o|]|e']; intros H; congruence.
Qed.

(** Test data: oses detected iff their name is in the list that is the machine. *)
Definition ex_os (n : string) (parents : list text) (known : list text) : os_plugin (list text) :=
  {| os_name := u n; os_parents := parents; os_is := fun w => Ok (mem (u n) w);
     os_version := fun w => if mem (u n) w then Ok (u "one") else Err UnsupportedOSVersionError;
     os_known := known; os_tuples := fun _ => []; os_core := fun _ _ => []; os_options_description := os_options_base;
     os_default := None |}.
Definition ex_debian := ex_os "debian" [] [u "one"; u "two"].
Definition ex_ubuntu := ex_os "ubuntu" [u "debian"] [u "one"].
Definition ex_xubuntu := ex_os "xubuntu" [u "ubuntu"; u "debian"] [].
Definition ex_osx := ex_os "osx" [] [u "nine"].

Example C42_nonvacuous :
  let l := [ex_ubuntu; ex_osx; ex_debian; ex_xubuntu] in
  let w := [u "debian"; u "ubuntu"; u "xubuntu"] in
  NoDup (map os_name l) /\ detectable l w /\ detected l w ex_xubuntu /\
  (forall o, detected l w o -> o <> ex_xubuntu -> derives ex_xubuntu o /\ ~ derives o ex_xubuntu).
Proof.
  cbn zeta. split; [|split; [|split]].
  - repeat constructor; cbn; intros H; repeat (destruct H as [H|H]; [discriminate H|]); exact H.
  - intros o H. repeat (destruct H as [<-|H]; [eexists; reflexivity|]). destruct H.
  - split; [cbn; tauto|reflexivity].
  - intros o [H Ht] N.
    destruct H as [<-|[<-|[<-|[<-|[]]]]]; [| |  |contradiction].
    + split; [left; reflexivity|]. intros [E|[]]; discriminate E.
    + discriminate Ht.
    + split; [right; left; reflexivity|]. intros [].
Qed.

(** ** C43 *)
(** A history of override calls, each with the machine it was made on. *)
Fixpoint overrides {W} (s : os_support W) (calls : list (option (text * option text) * W)) : os_support W :=
  match calls with
  | [] => s
  | (t, w) :: rest => overrides (snd (override_os s t w)) rest
  end.

(** The call names a loaded os and one of its known versions or, without version, is made
    where the version can be detected; [v] is the version meant. *)
Definition acceptable {W} (plugins : list (os_plugin W)) (call : option (text * option text) * W) (name v : text) : Prop :=
  exists version o, fst call = Some (name, version) /\ In o plugins /\ os_name o = name /\
    match version with
    | Some x => x = v /\ In v (os_known o)
    | None => os_version o (snd call) = Ok v
    end.

Lemma lookup_os_In {W} (l : list (os_plugin W)) n o : lookup_os l n = Some o -> In o l /\ os_name o = n.
Proof.
  unfold lookup_os. intros H. apply find_some in H as [Hi He]. apply (proj1 (eqb_eq _ _)) in He. split; [exact Hi|symmetry; exact He].
Qed.

Lemma lookup_os_complete {W} (l : list (os_plugin W)) o : NoDup (map os_name l) -> In o l ->
  lookup_os l (os_name o) = Some o.
Proof.
  intros ND Hi. destruct (lookup_os l (os_name o)) as [p|] eqn:E.
  - destruct (lookup_os_In _ _ _ E) as [Hp En]. f_equal. apply (name_inj l); assumption.
  - exfalso. apply find_none with (x := o) in E; [|exact Hi]. rewrite eqb_refl in E; discriminate.
Qed.

Lemma override_plugins {W} (s : os_support W) t w : s_plugins (snd (override_os s t w)) = s_plugins s.
Proof.
  unfold override_os. destruct t as [[n v]|]; [|reflexivity].
  destruct (lookup_os (s_plugins s) n); [|reflexivity]. destruct (make_override o v w); reflexivity.
Qed.

(** An acceptable override succeeds, and what the current os then is and answers on every
    machine, now or later, is the given name and version. *)
Theorem C43_override_accepted {W} (s : os_support W) t w name v :
  NoDup (map os_name (s_plugins s)) -> acceptable (s_plugins s) (t, w) name v ->
  fst (override_os s t w) = Ok tt /\
  let s' := snd (override_os s t w) in
  forall w', exists x, current_os s' w' = (Ok x, s') /\ obj_tuple x w' = Ok (name, v) /\ obj_is x w' = Ok true.
Proof.
  intros ND (version & o & E & Hi & Hn & Hv). cbn [fst snd] in *. subst t.
  unfold override_os. rewrite <- Hn. rewrite (lookup_os_complete _ _ ND Hi).
  assert (Em : make_override o version w = Ok (OSOverride o v)).
  { unfold make_override. destruct version as [x|].
    - destruct Hv as [-> Hk]. apply mem_In in Hk. rewrite Hk. reflexivity.
    - rewrite Hv. reflexivity. }
  rewrite Em. split; [reflexivity|]. cbn zeta. intros w'. exists (OSOverride o v).
  split; [reflexivity|]. split; reflexivity.
Qed.

(** Any other override is rejected or does nothing, and leaves everything as it was. *)
Theorem C43_override_rejected {W} (s : os_support W) t w :
  (forall name v, ~ acceptable (s_plugins s) (t, w) name v) ->
  snd (override_os s t w) = s /\ (t <> None -> exists e, fst (override_os s t w) = Err e).
Proof.
  intros H. unfold override_os. destruct t as [[n version]|]; [|split; [reflexivity|congruence]].
  destruct (lookup_os (s_plugins s) n) as [o|] eqn:El; [|split; [reflexivity|intros _; eexists; reflexivity]].
  destruct (lookup_os_In _ _ _ El) as [Hi Hn].
  destruct (make_override o version w) as [x|e] eqn:Em; [|split; [reflexivity|intros _; eexists; reflexivity]].
  exfalso. unfold make_override in Em. destruct version as [v|].
  - destruct (mem v (os_known o)) eqn:Ev; [|discriminate]. apply mem_In in Ev.
    apply (H n v). exists (Some v), o. cbn. auto.
  - destruct (os_version o w) as [v|e] eqn:Ev; [|discriminate].
    apply (H n v). exists None, o. cbn. auto.
Qed.

(** Which error. *)
Theorem C43_unknown_os {W} (s : os_support W) name version w :
  ~ In name (map os_name (s_plugins s)) ->
  override_os s (Some (name, version)) w = (Err UnsupportedOSError, s).
Proof.
  intros H. unfold override_os. destruct (lookup_os (s_plugins s) name) as [o|] eqn:E; [|reflexivity].
  exfalso. destruct (lookup_os_In _ _ _ E) as [Hi <-]. apply H. apply in_map; exact Hi.
Qed.

Theorem C43_unknown_version {W} (s : os_support W) o v w :
  NoDup (map os_name (s_plugins s)) -> In o (s_plugins s) -> ~ In v (os_known o) ->
  override_os s (Some (os_name o, Some v)) w = (Err UnsupportedOSVersionError, s).
Proof.
  intros ND Hi Hv. unfold override_os. rewrite (lookup_os_complete _ _ ND Hi). unfold make_override.
  apply mem_not_In in Hv. rewrite Hv. reflexivity.
Qed.

(** A whole history: after any number of override calls the current os is that of the last
    acceptable one, or what it was before if there was none. *)
Theorem C43_history {W} (s : os_support W) calls :
  NoDup (map os_name (s_plugins s)) ->
  let s' := overrides s calls in
  (s' = s /\ forall c name v, In c calls -> ~ acceptable (s_plugins s) c name v) \/
  (exists a c b name v, calls = a ++ c :: b /\ acceptable (s_plugins s) c name v /\
     (forall c' n' v', In c' b -> ~ acceptable (s_plugins s) c' n' v') /\
     forall w', exists x, current_os s' w' = (Ok x, s') /\ obj_tuple x w' = Ok (name, v)).
Proof.
  revert s; induction calls as [|[t w] calls IH]; intros s ND; cbn [overrides].
  - left. split; [reflexivity|intros ? ? ? []].
  - assert (Hp := override_plugins s t w).
    assert (ND' : NoDup (map os_name (s_plugins (snd (override_os s t w))))) by (rewrite Hp; exact ND).
    specialize (IH _ ND'). cbn zeta in IH. rewrite Hp in IH.
    destruct IH as [[E Hn]|(a & c & b & name & v & E & Hc & Hb & Hx)].
    + assert (D : (exists name v, acceptable (s_plugins s) (t, w) name v) \/
                  forall name v, ~ acceptable (s_plugins s) (t, w) name v).
      { destruct t as [[n version]|].
        2:{ right; intros ? ? (? & ? & E0 & _); discriminate. }
        destruct (lookup_os (s_plugins s) n) as [o|] eqn:El.
        2:{ right; intros nm v (ver & o & E0 & Hi & Hnm & _). cbn in E0. injection E0 as -> ->.
            rewrite <- Hnm, (lookup_os_complete _ _ ND Hi) in El. discriminate. }
        destruct (lookup_os_In _ _ _ El) as [Hi Hnm].
        assert (Uniq : forall nm v, acceptable (s_plugins s) (Some (n, version), w) nm v ->
                   match version with Some x => x = v /\ In v (os_known o) | None => os_version o w = Ok v end).
        { intros nm v (ver & o' & E0 & Hi' & Hnm' & Hv). cbn in E0. injection E0 as -> ->.
          rewrite <- (name_inj (s_plugins s) o' o ND Hi' Hi) by congruence. exact Hv. }
        destruct version as [v|].
        - destruct (mem v (os_known o)) eqn:Ev.
          + apply mem_In in Ev. left. exists n, v, (Some v), o. cbn. auto.
          + apply mem_not_In in Ev. right. intros nm v' Ha. destruct (Uniq _ _ Ha) as [<- Hk]. contradiction.
        - destruct (os_version o w) as [v|e] eqn:Ev.
          + left. exists n, v, None, o. cbn. auto.
          + right. intros nm v' Ha. specialize (Uniq _ _ Ha). congruence. }
      destruct D as [(name & v & Ha)|Hno].
      * right. exists [], (t, w), calls, name, v. split; [reflexivity|]. split; [exact Ha|]. split.
        { intros c' n' v' Hc'. apply Hn; exact Hc'. }
        rewrite E. destruct (C43_override_accepted s t w name v ND Ha) as [_ Hx].
        intros w'. destruct (Hx w') as (x & H1 & H2 & _). exists x; split; assumption.
      * left. destruct (C43_override_rejected s t w Hno) as [E0 _]. rewrite E0 in E. rewrite E0. split; [exact E|].
        intros c name v [<-|Hc]; [apply Hno|apply Hn; exact Hc].
    + right. exists ((t, w) :: a), c, b, name, v. split; [rewrite E; reflexivity|]. auto.
Qed.

Example C43_nonvacuous :
  let s := {| s_plugins := [ex_ubuntu; ex_debian]; s_os := None |} in
  let s1 := overrides s [(Some (u "debian", Some (u "two")), []); (Some (u "ubuntu", Some (u "two")), []);
                         (Some (u "mint", None), []); (Some (u "ubuntu", None), [u "debian"])] in
  acceptable (s_plugins s) (Some (u "debian", Some (u "two")), []) (u "debian") (u "two") /\
  obj_tuple (match s_os s1 with Some x => x | None => Plugin ex_osx end) [] = Ok (u "debian", u "two") /\
  fst (override_os s (Some (u "mint", None)) []) = Err UnsupportedOSError /\
  fst (override_os s (Some (u "ubuntu", Some (u "two"))) []) = Err UnsupportedOSVersionError /\
  fst (override_os s (Some (u "ubuntu", None)) [u "debian"]) = Err UnsupportedOSVersionError.
Proof.
  cbn zeta. split; [|repeat split].
  exists (Some (u "two")), ex_debian. cbn. tauto.
Qed.

(** ** C44 *)
Lemma all_distinct_NoDup l : all_distinct l = true <-> NoDup l.
Proof.
  induction l as [|x l IH]; cbn [all_distinct]; [split; [constructor|reflexivity]|].
  rewrite andb_true_iff, negb_true_iff, IH. split.
  - intros [H1 H2]. constructor; [apply mem_not_In; exact H1|exact H2].
  - intros H; inversion H; subst. split; [apply mem_not_In; assumption|assumption].
Qed.

Lemma index_app a l1 l2 : ~ In a l1 -> index_of a (l1 ++ a :: l2) = List.length l1.
Proof.
  induction l1 as [|x l1 IH]; intros H; cbn [index_of app List.length].
  - rewrite eqb_refl; reflexivity.
  - destruct (eqb_spec a x) as [->|N]; [exfalso; apply H; left; reflexivity|].
    rewrite IH; [reflexivity|]. intros Hi; apply H; right; exact Hi.
Qed.

Lemma index_nth a l : In a l -> index_of a l < List.length l /\ nth_error l (index_of a l) = Some a.
Proof.
  induction l as [|x l IH]; intros H; [destruct H|]. cbn [index_of List.length].
  destruct (eqb_spec a x) as [->|N]; cbn [nth_error].
  - split; [lia|reflexivity].
  - destruct H as [->|H]; [congruence|]. destruct (IH H). split; [lia|assumption].
Qed.

Lemma less_before l a b : NoDup l -> In a l -> In b l ->
  (index_of a l < index_of b l <-> before l a b).
Proof.
  intros ND Ha Hb. split.
  - revert a b ND Ha Hb. induction l as [|x l IH]; intros a b ND Ha Hb H; [destruct Ha|].
    cbn [index_of] in H. inversion ND as [|? ? Hx ND']; subst.
    destruct (eqb_spec a x) as [->|Na], (eqb_spec b x) as [->|Nb]; try lia.
    + destruct Hb as [->|Hb]; [congruence|]. apply in_split in Hb as (l2 & l3 & ->).
      exists [], l2, l3. reflexivity.
    + destruct Ha as [->|Ha]; [congruence|]. destruct Hb as [->|Hb]; [congruence|].
      destruct (IH a b ND' Ha Hb) as (l1 & l2 & l3 & ->); [lia|].
      exists (x :: l1), l2, l3. reflexivity.
  - intros (l1 & l2 & l3 & ->).
    assert (Ha' : ~ In a l1).
    { intros Hi. apply NoDup_remove_2 in ND. apply ND. apply in_or_app; left; exact Hi. }
    rewrite (index_app a l1 _ Ha').
    assert (Hb' : ~ In b (l1 ++ a :: l2)).
    { replace (l1 ++ a :: l2 ++ b :: l3) with ((l1 ++ a :: l2) ++ b :: l3) in ND
        by (rewrite <- app_assoc; reflexivity).
      apply NoDup_remove_2 in ND. intros Hi. apply ND. apply in_or_app; left; exact Hi. }
    replace (l1 ++ a :: l2 ++ b :: l3) with ((l1 ++ a :: l2) ++ b :: l3)
      by (rewrite <- app_assoc; reflexivity).
    rewrite (index_app b _ _ Hb'). rewrite app_length. cbn. lia.
Qed.

(** An order is made exactly from the lists without duplicates. *)
Theorem C44_order_exists versions :
  (exists less, version_order_from_list versions = Ok less) <-> NoDup versions.
Proof.
  unfold version_order_from_list. rewrite <- all_distinct_NoDup.
  destruct (all_distinct versions); split; intros H; try reflexivity; try discriminate; eauto.
  destruct H; discriminate.
Qed.

(** It compares positions in the list: oldest first. *)
Theorem C44_order_is_list_order versions less a b :
  version_order_from_list versions = Ok less -> In a versions -> In b versions ->
  (before versions a b -> less a b = Ok true) /\ (~ before versions a b -> less a b = Ok false).
Proof.
  unfold version_order_from_list. destruct (all_distinct versions) eqn:E; [|discriminate].
  intros H; injection H as <-. apply all_distinct_NoDup in E. intros Ha Hb.
  unfold version_less. rewrite (proj2 (mem_In _ _) Ha), (proj2 (mem_In _ _) Hb). cbn [negb].
  rewrite <- (less_before versions a b E Ha Hb). split; intros H; f_equal.
  - apply Nat.ltb_lt; exact H.
  - apply Nat.ltb_ge. lia.
Qed.

Theorem C44_total_order versions less :
  version_order_from_list versions = Ok less ->
  (forall a, In a versions -> less a a = Ok false) /\
  (forall a b c, less a b = Ok true -> less b c = Ok true -> less a c = Ok true) /\
  (forall a b, In a versions -> In b versions -> a = b \/ less a b = Ok true \/ less b a = Ok true) /\
  (forall a b, less a b = Ok true -> less b a = Ok false).
Proof.
  unfold version_order_from_list. destruct (all_distinct versions) eqn:E; [|discriminate].
  intros H; injection H as <-.
  assert (L : forall a b r, version_less versions a b = Ok r ->
                In a versions /\ In b versions /\ r = (index_of a versions <? index_of b versions)).
  { intros a b r. unfold version_less. destruct (mem a versions) eqn:Ea; [|discriminate].
    destruct (mem b versions) eqn:Eb; [|discriminate]. cbn. intros H; injection H as <-.
    split; [apply mem_In; exact Ea|]. split; [apply mem_In; exact Eb|reflexivity]. }
  assert (K : forall a b, In a versions -> In b versions ->
                version_less versions a b = Ok (index_of a versions <? index_of b versions)).
  { intros a b Ha Hb. unfold version_less. rewrite (proj2 (mem_In _ _) Ha), (proj2 (mem_In _ _) Hb). reflexivity. }
  split; [|split; [|split]].
  - intros a Ha. rewrite K by assumption. rewrite Nat.ltb_irrefl. reflexivity.
  - intros a b c H1 H2. destruct (L _ _ _ H1) as (Ha & Hb & E1), (L _ _ _ H2) as (_ & Hc & E2).
    rewrite K by assumption. f_equal. symmetry in E1, E2. apply Nat.ltb_lt in E1, E2. apply Nat.ltb_lt. lia.
  - intros a b Ha Hb. rewrite !K by assumption.
    destruct (Nat.lt_trichotomy (index_of a versions) (index_of b versions)) as [H|[H|H]].
    + right; left. f_equal. apply Nat.ltb_lt; exact H.
    + left. destruct (index_nth a versions Ha) as [_ N1], (index_nth b versions Hb) as [_ N2]. congruence.
    + right; right. f_equal. apply Nat.ltb_lt; exact H.
  - intros a b H1. destruct (L _ _ _ H1) as (Ha & Hb & E1). rewrite K by assumption. f_equal.
    symmetry in E1. apply Nat.ltb_lt in E1. apply Nat.ltb_ge. lia.
Qed.

Theorem C44_unknown_raises versions less a b :
  version_order_from_list versions = Ok less -> ~ (In a versions /\ In b versions) ->
  less a b = Err UnsupportedOSVersionError.
Proof.
  unfold version_order_from_list. destruct (all_distinct versions); [|discriminate].
  intros H; injection H as <-. intros N. unfold version_less.
  destruct (mem a versions) eqn:Ea; [|reflexivity]. destruct (mem b versions) eqn:Eb; [|reflexivity].
  exfalso; apply N. split; apply mem_In; assumption.
Qed.

(** The orders of all bundled OS plugins exist. *)
Theorem C44_bundled b : In b builtin_oses -> exists less, version_order_from_list (b_versions b) = Ok less.
Proof.
  intros H. repeat (destruct H as [<-|H]; [eexists; vm_compute; reflexivity|]). destruct H.
Qed.

Example C44_nonvacuous : exists less,
  version_order_from_list ubuntu_versions = Ok less /\
  less (u "precise") (u "trusty") = Ok true /\ less (u "trusty") (u "precise") = Ok false /\
  less (u "precise") (u "xenial") = Err UnsupportedOSVersionError /\
  before ubuntu_versions (u "precise") (u "trusty").
Proof.
  eexists. repeat split.
  exists (firstn 4 ubuntu_versions), (firstn 3 (skipn 5 ubuntu_versions)), (skipn 9 ubuntu_versions). reflexivity.
Qed.

(** The release history the orders stand for: the numbers of the Debian releases, the years and
    months of the Ubuntu ones, and the minor versions of OS X 10 that detection knows. *)
Definition debian_history : list (text * nat) :=
  [(u "etch", 4); (u "lenny", 5); (u "squeeze", 6); (u "wheezy", 7); (u "jessie", 8)].
Definition ubuntu_history : list (text * nat) :=
  [(u "lucid", 1004); (u "maverick", 1010); (u "natty", 1104); (u "oneiric", 1110); (u "precise", 1204);
   (u "quantal", 1210); (u "raring", 1304); (u "saucy", 1310); (u "trusty", 1404); (u "utopic", 1410)].

Lemma history_order (vs : list text) (h : list (text * nat)) :
  forallb (fun p => forallb (fun q => match version_less vs (fst p) (fst q) with
                                      | Ok x => Bool.eqb x (Nat.ltb (snd p) (snd q)) | Err _ => false end) h) h = true ->
  forall v n v' n', In (v, n) h -> In (v', n') h -> version_less vs v v' = Ok (Nat.ltb n n').
Proof.
  intros H v n v' n' H1 H2; rewrite forallb_forall in H; specialize (H _ H1); rewrite forallb_forall in H.
  specialize (H _ H2); cbn [fst snd] in H; destruct (version_less vs v v') as [x|]; [|discriminate].
  apply Bool.eqb_prop in H; congruence.
Qed.

Theorem C44_release_order b h : In (b, h) [(debian, debian_history); (ubuntu, ubuntu_history); (xubuntu, ubuntu_history)] ->
  map fst h = b_versions b /\
  exists less, version_order_from_list (b_versions b) = Ok less /\
    forall v n v' n', In (v, n) h -> In (v', n') h -> less v v' = Ok (Nat.ltb n n').
Proof.
  intros H.
  repeat (destruct H as [H|H]; [injection H as <- <-|]); try destruct H;
    (split; [reflexivity|]); eexists; (split; [reflexivity|]);
    apply history_order; vm_compute; reflexivity.
Qed.

Theorem C44_osx_order : exists less, version_order_from_list (b_versions osx) = Ok less /\
  (forall minor c, osx_codename 10 minor = Ok c -> In c (b_versions osx)) /\
  forall m m' c c', osx_codename 10 m = Ok c -> osx_codename 10 m' = Ok c' -> less c c' = Ok (Z.ltb m m').
Proof.
  assert (K : forall m c, osx_codename 10 m = Ok c -> In (m, c) osx_codename_map).
  { intros m c; unfold osx_codename; cbn [Z.eqb Pos.eqb negb]; destruct (get m osx_codename_map) as [c0|] eqn:E; [|discriminate].
    intros H; injection H as ->; apply get_In in E; exact E. }
  eexists; split; [reflexivity|split].
  - intros m c H; apply K in H; change (In c (map snd osx_codename_map)); apply in_map_iff; exists (m, c); split; [reflexivity|exact H].
  - intros m m' c c' H1 H2; apply K in H1; apply K in H2.
    repeat (destruct H1 as [H1|H1]; [injection H1 as <- <-;
      repeat (destruct H2 as [H2|H2]; [injection H2 as <- <-; reflexivity|]); destruct H2|]); destruct H1.
Qed.

Example C44_history_nonvacuous : In (u "wheezy", 7) debian_history /\ osx_codename 10 8 = Ok (u "mountain lion").
Proof. split; [cbn; tauto|reflexivity]. Qed.

(** The mapping of default installers: every operating system with a plugin, and no other; the
    plugin loaded last counts; a plugin without default installer is listed with none. *)
Theorem C44_default_installers {W} (l : list (os_plugin W)) os :
  ((exists p, In p l /\ os_name p = os) <-> In os (keys (get_default_installer_names l))) /\
  (forall l1 p l2, l = l1 ++ p :: l2 -> os_name p = os -> (forall q, In q l2 -> os_name q <> os) ->
     get os (get_default_installer_names l) = Some (os_default p)).
Proof.
  assert (G : forall (l : list (os_plugin W)) (d : dict text (option text)),
    (forall k, In k (keys (fold_left (fun d o => set (os_name o) (os_default o) d) l d)) <->
               In k (keys d) \/ exists p, In p l /\ os_name p = k)).
  { clear; induction l as [|p l IH]; intros d k; cbn [fold_left].
    - split; [intros H; left; exact H|intros [H|(p & [] & _)]; exact H].
    - rewrite IH, in_keys_set; split.
      + intros [[->|H]|(q & Hq & Eq)]; [right; exists p; split; [left; reflexivity|reflexivity]|left; exact H|
          right; exists q; split; [right; exact Hq|exact Eq]].
      + intros [H|(q & [->|Hq] & Eq)]; [left; right; exact H|left; left; symmetry; exact Eq|right; exists q; split; assumption]. }
  split.
  - unfold get_default_installer_names; rewrite G; split; [intros (p & Hp); right; exists p; exact Hp|].
    intros [H|H]; [destruct H|exact H].
  - intros l1 p l2 -> Ep Hno; unfold get_default_installer_names; rewrite fold_left_app; cbn [fold_left].
    assert (K : forall d v, get os d = Some v ->
      get os (fold_left (fun d o => set (os_name o) (os_default o) d) l2 d) = Some v).
    { clear Ep; revert Hno; induction l2 as [|q l2 IH]; intros Hno d v Hd; cbn [fold_left]; [exact Hd|].
      apply IH; [intros q' Hq'; apply Hno; right; exact Hq'|].
      rewrite get_set_other; [exact Hd|intros E; apply (Hno q (or_introl eq_refl)); symmetry; exact E || exact E]. }
    apply K; rewrite <- Ep; apply get_set_same.
Qed.

(** ** C45 *)
Lemma tuples_names l v : map fst (tuples_loop l v) = map fst l.
Proof. revert v; induction l as [|[n m] l IH]; intros v; cbn; [reflexivity|]. rewrite IH; reflexivity. Qed.

(** The tuples of an os on a version: one for each name, most specific first, the first
    with the given version. *)
Theorem C45_names_and_first b p v : plugin_of b = Some p ->
  map fst (os_tuples p v) = os_all_names p /\
  exists rest, os_tuples p v = (os_name p, v) :: rest.
Proof.
  unfold plugin_of. destruct (b_names b) as [|[n m] l] eqn:E; cbn [map]; [discriminate|].
  intros H; injection H as <-. unfold os_all_names. cbn. split.
  - f_equal. apply tuples_names.
  - eauto.
Qed.

(** Each further version is the one its os maps the version before to, and missing if
    there is none: nothing is invented after a gap. *)
Theorem C45_versions_follow_mapping b p v i n1 v1 n2 v2 : plugin_of b = Some p ->
  nth_error (os_tuples p v) i = Some (n1, v1) -> nth_error (os_tuples p v) (S i) = Some (n2, v2) ->
  (v1 = None -> v2 = None) /\
  (forall x, v1 = Some x -> exists m, nth_error (b_names b) i = Some (n1, m) /\ v2 = apply_mapping m x).
Proof.
  unfold plugin_of. destruct (map fst (b_names b)); [discriminate|]. intros H; injection H as <-. cbn [os_tuples].
  revert v i. induction (b_names b) as [|[n m] l' IH]; intros v i H1 H2; [destruct i; discriminate|].
  destruct i as [|i].
  - cbn in H1, H2. injection H1 as <- <-. destruct l' as [|[n' m'] l']; [discriminate|].
    cbn in H2. injection H2 as <- <-. split.
    + intros ->; reflexivity.
    + intros x ->. exists m. split; reflexivity.
  - cbn in H1. change (nth_error (tuples_loop l' (match v with Some v0 => apply_mapping m v0 | None => None end)) (S i)
                        = Some (n2, v2)) in H2.
    exact (IH _ _ H1 H2).
Qed.

(** The bundled oses: a Xubuntu release is the Ubuntu release of the same name, and no
    version of Debian is assumed for either. *)
Theorem C45_bundled v :
  (exists p, plugin_of debian = Some p /\ os_tuples p (Some v) = [(u "debian", Some v)]) /\
  (exists p, plugin_of ubuntu = Some p /\ os_tuples p (Some v) = [(u "ubuntu", Some v); (u "debian", None)]) /\
  (exists p, plugin_of xubuntu = Some p /\
     os_tuples p (Some v) = [(u "xubuntu", Some v); (u "ubuntu", Some v); (u "debian", None)]) /\
  (exists p, plugin_of osx = Some p /\ os_tuples p (Some v) = [(u "osx", Some v)]).
Proof. repeat split; eexists; split; reflexivity. Qed.

(** Deriving a plugin puts its name in front of the names of the os it is derived from,
    and leaves the tuples of those as they are, given the mapped version. *)
Theorem C45_derived b name m versions d p v : plugin_of b = Some p ->
  exists q, plugin_of (prepend_name b name m versions d) = Some q /\
    os_name q = name /\ derives q p /\ os_parents q = os_all_names p /\
    os_tuples q (Some v) = (name, Some v) :: os_tuples p (apply_mapping m v).
Proof.
  unfold plugin_of, prepend_name, derives. cbn [b_names map fst]. destruct (b_names b) as [|[n m'] l]; [discriminate|].
  cbn [map fst]. intros H; injection H as <-. eexists; split; [reflexivity|]. cbn. auto.
Qed.

(** ** C71: detected versions are known versions *)
Theorem C71_osx_version_known m v : builtin_version osx m = Ok v -> In v (b_versions osx).
Proof.
  unfold builtin_version. cbn [b_use_codename b_detector osx d_get_codename osx_detect].
  destruct (m_sw_vers m) as [[[|c t]|]|]; try discriminate.
  destruct (m_strict_version m (c :: t)) as [[major minor]|]; [|discriminate].
  unfold osx_codename. destruct (major =? 10)%Z; cbn [negb bind]; [|discriminate].
  unfold osx_codename_map.
  repeat (rewrite get_cons; match goal with |- context [eqb minor ?k] => destruct (eqb_spec minor k) end;
    [cbn; intros H; injection H as <-; cbn; tauto|]).
  rewrite get_nil. discriminate.
Qed.

(** OS X releases by minor version number, and their names as used by rules. *)
Definition osx_releases : list (Z * text) :=
  [ (4, u "tiger"); (5, u "leopard"); (6, u "snow"); (7, u "lion");
    (8, u "mountain lion"); (9, u "mavericks"); (10, u "yosemite") ]%Z.

(** The detected version is the name of the release 10.x that sw_vers prints; nothing else is
    detected. *)
Theorem C71_osx_version m v : builtin_version osx m = Ok v <->
  exists s minor, m_sw_vers m = Some (Some s) /\ s <> [] /\ m_strict_version m s = Some (10%Z, minor) /\
    In (minor, v) osx_releases.
Proof.
  assert (G : forall minor, get minor osx_codename_map = Some v <-> In (minor, v) osx_releases).
  { intros minor. change osx_codename_map with osx_releases. split; [apply get_In|]. intros H.
    repeat (destruct H as [H|H]; [injection H as <- <-; reflexivity|]). destruct H. }
  unfold builtin_version. cbn [b_use_codename b_detector osx d_get_codename osx_detect].
  destruct (m_sw_vers m) as [[[|c t]|]|]; try (split; [discriminate|intros (s & mi & E & Hs & _); congruence]).
  destruct (m_strict_version m (c :: t)) as [[major minor]|] eqn:E;
    [|split; [discriminate|intros (s & mi & Es & _ & Ev & _); congruence]].
  unfold osx_codename. destruct (Z.eqb_spec major 10) as [->|Hm]; cbn [negb bind].
  - destruct (get minor osx_codename_map) as [v'|] eqn:Eg; cbn [bind].
    + split.
      * intros H. injection H as ->. exists (c :: t), minor. split; [reflexivity|]. split; [discriminate|]. split; [exact E|].
        apply G. exact Eg.
      * intros (s & mi & Es & _ & Ev & Hin). assert (mi = minor) by congruence. subst mi. apply G in Hin. congruence.
    + split; [discriminate|]. intros (s & mi & Es & _ & Ev & Hin). assert (mi = minor) by congruence. subst mi.
      apply G in Hin. congruence.
  - split; [discriminate|]. intros (s & mi & Es & _ & Ev & _). congruence.
Qed.

Example C71_osx_nonvacuous :
  builtin_version osx {| m_lsb := None; m_sw_vers := Some (Some (u "10.9.5")); m_strict_version := fun _ => Some (10, 9)%Z |}
  = Ok (u "mavericks") /\ In (9%Z, u "mavericks") osx_releases.
Proof. split; [vm_compute; reflexivity|]. unfold osx_releases, In. tauto. Qed.

(** Versions of OS X are ordered like the release numbers. *)
Theorem C71_osx_order n1 v1 n2 v2 : In (n1, v1) osx_releases -> In (n2, v2) osx_releases ->
  version_less (b_versions osx) v1 v2 = Ok (n1 <? n2)%Z.
Proof.
  intros H1 H2. repeat (destruct H1 as [H1|H1];
    [injection H1 as <- <-; repeat (destruct H2 as [H2|H2]; [injection H2 as <- <-; vm_compute; reflexivity|]); destruct H2|]).
  destruct H1.
Qed.

(** For the other bundled oses the version is whatever the distribution says: on a release
    newer than the plugin, detection yields a version that the same plugin rejects as an
    override and can not compare with any other. *)
Theorem C71_lsb_version_refuted :
  exists m p, plugin_of ubuntu = Some p /\ os_is p m = Ok true /\
  exists v, os_version p m = Ok v /\ ~ In v (os_known p) /\
    (forall w, override_os {| s_plugins := [p]; s_os := None |} (Some (os_name p, Some v)) w
       = (Err UnsupportedOSVersionError, {| s_plugins := [p]; s_os := None |})) /\
    (forall x, version_less (os_known p) v x = Err UnsupportedOSVersionError).
Proof.
  exists {| m_lsb := Some (u "Ubuntu", u "16.04", u "xenial"); m_sw_vers := None; m_strict_version := fun _ => None |}.
  eexists. split; [reflexivity|]. split; [reflexivity|]. exists (u "xenial").
  split; [reflexivity|]. split; [|split].
  - intros H. repeat (destruct H as [H|H]; [discriminate H|]). exact H.
  - intros w. reflexivity.
  - intros x. reflexivity.
Qed.

(** What is detected is what the distribution says. *)
Theorem C71_lsb_version_partial b m v : In b [debian; ubuntu; xubuntu] ->
  builtin_version b m = Ok v <->
  exists d ver, m_lsb m = Some (d, ver, v) /\ d_is (b_detector b) m = Ok true.
Proof.
  intros H. assert (E : exists s, b_detector b = lsb_detect s /\ b_use_codename b = true).
  { repeat (destruct H as [<-|H]; [eexists; split; reflexivity|]). destruct H. }
  destruct E as (s & E1 & E2). unfold builtin_version. rewrite E1, E2. cbn.
  destruct (m_lsb m) as [[[d ver] c]|]; [|split; [discriminate|intros (? & ? & ? & _); discriminate]].
  destruct (eqb_spec d s) as [->|N].
  - split; [intros Hv; injection Hv as ->; eauto|intros (? & ? & E & _); congruence].
  - split; [discriminate|intros (? & ? & ? & Hf)]; congruence.
Qed.

(** ** C72: precedence of registered detectors *)
(** The detector for an os is the one registered last for its name. *)
Theorem C72_newest_detector {D} (l : list (text * D)) name d : get_detector (add_detector l name d) name = Ok d.
Proof. unfold get_detector, add_detector. cbn. rewrite eqb_refl. reflexivity. Qed.

Theorem C72_other_detectors {D} (l : list (text * D)) name d name' : name' <> name ->
  get_detector (add_detector l name d) name' = get_detector l name'.
Proof.
  intros N. unfold get_detector, add_detector. cbn. destruct (eqb_spec name name'); [congruence|reflexivity].
Qed.

(** But detection itself prefers the one registered first: a newly registered detector is
    overridden by an older one for the same name that also matches. *)
Theorem C72_detection_refuted name old new m v c vn cn :
  d_is old m = Ok true -> d_get_version old m = Ok v -> d_get_codename old m = Ok c ->
  d_is new m = Ok true -> d_get_version new m = Ok vn -> d_get_codename new m = Ok cn ->
  osdetect_detect (add_detector (add_detector [] name old) name new) m = Ok (name, (v, c)).
Proof.
  intros E1 E2 E3 E4 E5 E6. unfold osdetect_detect, add_detector. cbn [osdetect_loop].
  rewrite E4. cbn [bind]. rewrite E5. cbn [bind]. rewrite E6. cbn [bind].
  rewrite E1. cbn [bind]. rewrite E2. cbn [bind]. rewrite E3. reflexivity.
Qed.

(** In general the result is that of the last matching detector of the list, i.e. the one
    registered first. *)
Theorem C72_first_registered_wins_partial l name d m v c later :
  d_is d m = Ok true -> d_get_version d m = Ok v -> d_get_codename d m = Ok c ->
  (forall n' d', In (n', d') l -> d_is d' m = Ok false) ->
  (forall n' d', In (n', d') later -> exists b v' c', d_is d' m = Ok b /\ d_get_version d' m = Ok v' /\ d_get_codename d' m = Ok c') ->
  osdetect_detect (later ++ (name, d) :: l) m = Ok (name, (v, c)).
Proof.
  intros E1 E2 E3 Hl Hlater. unfold osdetect_detect.
  assert (A : forall found, osdetect_loop l found m = Ok found).
  { clear -Hl. induction l as [|[n' d'] l IH]; intros found; cbn [osdetect_loop]; [reflexivity|].
    rewrite (Hl n' d' (or_introl eq_refl)). cbn [bind]. apply IH. intros; apply (Hl n'0 d'0); right; assumption. }
  assert (B : forall found, osdetect_loop (later ++ (name, d) :: l) found m = Ok (Some (name, (v, c), d))).
  { clear -A E1 E2 E3 Hlater. induction later as [|[n' d'] later IH]; intros found; cbn [osdetect_loop app].
    - rewrite E1. cbn [bind]. rewrite E2. cbn [bind]. rewrite E3. cbn [bind]. apply A.
    - assert (H' : forall n'0 d'0, In (n'0, d'0) later -> exists b v' c', d_is d'0 m = Ok b /\
                d_get_version d'0 m = Ok v' /\ d_get_codename d'0 m = Ok c')
        by (intros; apply (Hlater n'0 d'0); right; assumption).
      destruct (Hlater n' d' (or_introl eq_refl)) as (b & v' & c' & F1 & F2 & F3).
      rewrite F1. cbn [bind]. destruct b; [|apply IH; exact H'].
      rewrite F2. cbn [bind]. rewrite F3. cbn [bind]. apply IH; exact H'. }
  rewrite B. reflexivity.
Qed.

(** ** C73: at most one bundled os is detected, except where sw_vers exists on Linux *)
Definition bundled_plugins : list (os_plugin machine) :=
  flat_map (fun b => match plugin_of b with Some p => [p] | None => [] end) builtin_oses.

Theorem C73_unique_bundled_os m p q :
  m_lsb m = None \/ m_sw_vers m = None ->
  detected bundled_plugins m p -> detected bundled_plugins m q -> p = q.
Proof.
  intros Hm [Hp Hpt] [Hq Hqt]. unfold bundled_plugins in Hp, Hq. cbn in Hp, Hq.
  destruct Hp as [<-|[<-|[<-|[<-|[]]]]]; destruct Hq as [<-|[<-|[<-|[<-|[]]]]]; try reflexivity; exfalso;
  cbn in Hpt, Hqt; destruct (m_lsb m) as [[[n ?] ?]|], (m_sw_vers m); destruct Hm; try discriminate;
  injection Hpt as Hpt; injection Hqt as Hqt; apply (proj1 (eqb_eq _ _)) in Hpt; apply (proj1 (eqb_eq _ _)) in Hqt; subst n; discriminate.
Qed.

(** So for every order in which the plugins are discovered, the same one is selected. *)
Theorem C73_any_order m plugins p :
  m_lsb m = None \/ m_sw_vers m = None ->
  Permutation bundled_plugins plugins -> detected bundled_plugins m p ->
  detect_os {| s_plugins := plugins; s_os := None |} m =
  (Ok tt, {| s_plugins := plugins; s_os := Some (Plugin p) |}).
Proof.
  intros Hm Pm Hp.
  apply (C42_most_specific {| s_plugins := plugins; s_os := None |} m p); cbn [s_plugins].
  - eapply Permutation_NoDup; [apply Permutation_map; exact Pm|].
    repeat constructor; cbn; intros H; repeat (destruct H as [H|H]; [discriminate H|]); exact H.
  - intros o Ho. apply Permutation_sym in Pm. apply (Permutation_in _ Pm) in Ho.
    unfold bundled_plugins in Ho. cbn in Ho.
    repeat (destruct Ho as [<-|Ho]; [eexists; reflexivity|]). destruct Ho.
  - destruct Hp as [Hp Ht]. split; [apply (Permutation_in _ Pm); exact Hp|exact Ht].
  - intros o [Ho Ht] N. exfalso; apply N. apply Permutation_sym in Pm. apply (Permutation_in _ Pm) in Ho.
    apply (C73_unique_bundled_os m); [exact Hm|split; assumption|exact Hp].
Qed.

(** Where both are there, the order decides. *)
Theorem C73_order_refuted : exists m p q l,
  Permutation bundled_plugins (p :: q :: l) /\ p <> q /\
  s_os (snd (detect_os {| s_plugins := p :: q :: l; s_os := None |} m)) = Some (Plugin p) /\
  s_os (snd (detect_os {| s_plugins := q :: p :: l; s_os := None |} m)) = Some (Plugin q).
Proof.
  exists {| m_lsb := Some (u "debian", u "7", u "wheezy"); m_sw_vers := Some None; m_strict_version := fun _ => None |}.
  destruct (plugin_of debian) as [d|] eqn:Ed; [|discriminate].
  destruct (plugin_of ubuntu) as [ub|] eqn:Eu; [|discriminate].
  destruct (plugin_of xubuntu) as [x|] eqn:Ex; [|discriminate].
  destruct (plugin_of osx) as [o|] eqn:Eo; [|discriminate].
  exists d, o, [ub; x].
  assert (E : bundled_plugins = [d; ub; x; o]).
  { unfold bundled_plugins. cbn [flat_map builtin_oses]. rewrite Ed, Eu, Ex, Eo. reflexivity. }
  split; [|split; [|split]].
  - rewrite E. constructor. apply Permutation_sym. apply (Permutation_cons_append [ub; x] o).
  - injection Ed as <-. injection Eo as <-. intros H. apply (f_equal os_name) in H. discriminate H.
  - injection Ed as <-. injection Eo as <-. injection Eu as <-. injection Ex as <-. reflexivity.
  - injection Ed as <-. injection Eo as <-. injection Eu as <-. injection Ex as <-. reflexivity.
Qed.

Example C73_nonvacuous : exists p,
  plugin_of ubuntu = Some p /\
  detected bundled_plugins
    {| m_lsb := Some (u "Ubuntu", u "14.04", u "trusty"); m_sw_vers := None; m_strict_version := fun _ => None |} p.
Proof. eexists; split; [reflexivity|]. split; [cbn; tauto|reflexivity]. Qed.

Print Assumptions C42_most_specific.
Print Assumptions C42_order_irrelevant.
Print Assumptions C42_nothing_more_specific.
Print Assumptions C42_none_detected.
Print Assumptions C42_failure_keeps.
Print Assumptions C43_override_accepted.
Print Assumptions C43_override_rejected.
Print Assumptions C43_unknown_os.
Print Assumptions C43_unknown_version.
Print Assumptions C43_history.
Print Assumptions C44_order_exists.
Print Assumptions C44_order_is_list_order.
Print Assumptions C44_total_order.
Print Assumptions C44_unknown_raises.
Print Assumptions C44_bundled.
Print Assumptions C45_names_and_first.
Print Assumptions C45_versions_follow_mapping.
Print Assumptions C45_bundled.
Print Assumptions C45_derived.
Print Assumptions C71_osx_version_known.
Print Assumptions C71_osx_version.
Print Assumptions C71_osx_order.
Print Assumptions C71_lsb_version_refuted.
Print Assumptions C71_lsb_version_partial.
Print Assumptions C72_newest_detector.
Print Assumptions C72_other_detectors.
Print Assumptions C72_detection_refuted.
Print Assumptions C72_first_registered_wins_partial.
Print Assumptions C73_unique_bundled_os.
Print Assumptions C73_any_order.
Print Assumptions C73_order_refuted.
Print Assumptions C44_release_order.
Print Assumptions C44_osx_order.
Print Assumptions C44_default_installers.
