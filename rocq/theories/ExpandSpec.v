(** Independent specification of the shorthands of rules files (C13-C15). *)
From Verif Require Import Base Dict PyVal.

Notation S s := (KStr (u s)).

(** Null is the empty list, a string the list of that string; other values stand
    for themselves. *)
Inductive listed : pyval -> pyval -> Prop :=
| listed_none : listed VNone (VList [])
| listed_str s : listed (VStr s) (VList [VStr s])
| listed_other v : v <> VNone -> (forall s, v <> VStr s) -> listed v v.

(** Null, a string or a list. *)
Definition scalar (v : pyval) : Prop :=
  v = VNone \/ (exists s, v = VStr s) \/ exists l, v = VList l.

(** Options of an installer rule, in order; an empty [depends] is left out. *)
Inductive options_mean : pydict -> pydict -> Prop :=
| om_nil : options_mean [] []
| om_packages x y d d' :
    listed x y -> options_mean d d' ->
    options_mean ((S "packages", x) :: d) ((S "packages", y) :: d')
| om_no_depends x d d' :
    listed x (VList []) -> options_mean d d' ->
    options_mean ((S "depends", x) :: d) d'
| om_depends x y d d' :
    listed x y -> y <> VList [] -> options_mean d d' ->
    options_mean ((S "depends", x) :: d) ((S "depends", y) :: d')
| om_other k x d d' :
    k <> S "packages" -> k <> S "depends" -> options_mean d d' ->
    options_mean ((k, x) :: d) ((k, x) :: d').

(** What an installer specific definition means. *)
Inductive rule_means : pyval -> pyval -> Prop :=
| rm_scalar v l : scalar v -> listed v l -> rule_means v (VDict [(S "packages", l)])
| rm_dict d d' : options_mean d d' -> rule_means (VDict d) (VDict d').

(** The value below a version gives installer [i] the definition [x]. *)
Inductive installer_means : pyval -> pkey -> pyval -> Prop :=
| im_scalar v : scalar v -> installer_means v (S "default_installer") v
| im_dict d i x : In (i, x) d -> installer_means (VDict d) i x.

(** The value below os [os] gives version [ver] the value [x]. *)
Inductive version_means (os : pkey) : pyval -> pkey -> pyval -> Prop :=
| vm_scalar v : scalar v -> version_means os v (S "any_version") v
| vm_dict d ver x :
    os <> S "any_os" \/ In (S "any_version") (map fst d) ->
    In (ver, x) d -> version_means os (VDict d) ver x
| vm_any_os d :
    os = S "any_os" -> ~ In (S "any_version") (map fst d) ->
    version_means os (VDict d) (S "any_version") (VDict d).

(** The file has key / os / version, with value [x]. *)
Definition file_has_key (v : pyval) (key : pkey) : Prop :=
  exists d x, v = VDict d /\ In (key, x) d.
Definition file_has_os (v : pyval) (key os : pkey) (x : pyval) : Prop :=
  exists d od, v = VDict d /\ In (key, VDict od) d /\ In (os, x) od.
Definition file_version (v : pyval) (key os ver : pkey) (x : pyval) : Prop :=
  exists y, file_has_os v key os y /\ version_means os y ver x.
Definition file_installer (v : pyval) (key os ver i : pkey) (x : pyval) : Prop :=
  exists y, file_version v key os ver y /\ installer_means y i x.

(** Plain nested-dict reading of an expanded file. *)
Definition plain_version (v : pyval) (key os ver : pkey) (x : pyval) : Prop :=
  exists d od vd, v = VDict d /\ In (key, VDict od) d /\ In (os, VDict vd) od /\ In (ver, x) vd.
Definition plain_installer (v : pyval) (key os ver i : pkey) (x : pyval) : Prop :=
  exists id, plain_version v key os ver (VDict id) /\ In (i, x) id.

(** Structurally valid input. *)
Definition definition_shape (v : pyval) : Prop := scalar v \/ exists d, v = VDict d.
Definition installers_shape (v : pyval) : Prop :=
  scalar v \/ exists d, v = VDict d /\ forall k x, In (k, x) d -> definition_shape x.
Definition versions_shape (os : pkey) (v : pyval) : Prop :=
  scalar v \/
  exists d, v = VDict d /\
    (os <> S "any_os" -> forall k x, In (k, x) d -> installers_shape x) /\
    (os = S "any_os" -> In (S "any_version") (map fst d) ->
       exists x, d = [(S "any_version", x)] /\ installers_shape x) /\
    (os = S "any_os" -> ~ In (S "any_version") (map fst d) -> installers_shape v).
Definition oses_shape (v : pyval) : Prop :=
  exists d, v = VDict d /\ forall k x, In (k, x) d -> versions_shape k x.
Definition file_shape (v : pyval) : Prop :=
  v = VNone \/ exists d, v = VDict d /\ forall k x, In (k, x) d -> oses_shape x.
