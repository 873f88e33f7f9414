(** Specification of configuration values, independent of the functions in Config.v. *)
From Verif Require Import Base Dict PyVal Sources Util Paths Config.

(** Which values a type admits.  [None] stands for "unset". *)
Definition key_has_type (kt : ktype) (k : pkey) : Prop :=
  match kt with
  | KtAny => True
  | KtString | KtPath => k = KNone \/ exists s, k = KStr s
  end.

Fixpoint has_type (t : ctype) (v : pyval) : Prop :=
  match t with
  | TAny => True
  | TString | TPath => v = VNone \/ exists s, v = VStr s
  | TBoolean => v = VNone \/ exists b, v = VBool b
  | TList e => v = VNone \/ exists l, v = VList l /\ Forall (has_type e) l
  | TDict k e =>
    v = VNone \/
    exists d, v = VDict d /\ Forall (fun p => key_has_type k (fst p) /\ has_type e (snd p)) d
  | TMerging k e =>
    exists d, v = VDict d /\ Forall (fun p => key_has_type k (fst p) /\ has_type e (snd p)) d
  end.

(** The value of an option in a configuration: the option "group/sub" is found under "sub"
    in the dictionary "group". *)
Definition option_at (name : text) (c : pydict) (v : pyval) : Prop :=
  (~ In slash name /\ get (KStr name) c = Some v) \/
  (exists g s gd, name = g ++ slash :: s /\ ~ In slash s /\
                  get (KStr g) c = Some (VDict gd) /\ get (KStr s) gd = Some v).

(** A configuration as described: every described option and group is there. *)
Definition complete (d : desc) (c : pydict) : Prop :=
  forall name it, get name (d_items d) = Some it -> exists v, option_at name c v.

(** Every described option has a value of its type. *)
Definition well_typed (d : desc) (c : pydict) : Prop :=
  forall name it, get name (d_items d) = Some it ->
    exists v, option_at name c v /\ has_type (i_type it) v.

(** The layers' values of one option combined: for a merging dictionary each key is taken
    from the first layer that has it; for any other type it is the first value that is not
    unset. *)
Definition combined (t : ctype) (layers : list pyval) (v : pyval) : Prop :=
  match t with
  | TMerging _ _ =>
    exists d ds, v = VDict d /\ map VDict ds = layers /\
      forall k, get k d = fold_right (fun e r => orelse (get k e) r) None ds
  | _ =>
    (exists l1 l2, layers = l1 ++ v :: l2 /\ v <> VNone /\ Forall (eq VNone) l1) \/
    (v = VNone /\ Forall (eq VNone) layers)
  end.

(** Consistent descriptions: names. *)
Record names_ok (d : desc) : Prop := {
  ok_items : wf (d_items d);
  ok_groups : wf (d_groups d);
  ok_group : forall g gd, get g (d_groups d) = Some gd -> wf gd /\ gd <> [];
  ok_name : forall name it, get name (d_items d) = Some it -> i_name it = name;
  (** options of a group *)
  ok_sub : forall g s it, ~ In slash s ->
    (get (g ++ slash :: s) (d_items d) = Some it <->
     exists gd, get g (d_groups d) = Some gd /\ get s gd = Some it);
  ok_subname : forall g gd s it, get g (d_groups d) = Some gd -> get s gd = Some it -> ~ In slash s;
  (** no name is both an option and a group *)
  ok_disjoint : forall g, In g (keys (d_groups d)) -> ~ In g (keys (d_items d))
}.

(** Consistent descriptions: options exposed on the command line and their flags. *)
Record args_ok (d : desc) : Prop := {
  ok_arg : forall name it, get name (d_items d) = Some it -> i_command_line it = true ->
    exists a, i_argument it = Some a /\ get a (d_arguments d) = Some it;
  ok_arg_item : forall a it, get a (d_arguments d) = Some it ->
    get (i_name it) (d_items d) = Some it /\ i_argument it = Some a /\ i_command_line it = true
}.

(** The value a configuration file's contents give to an option, [None] if there is none. *)
Definition file_gives (name : text) (data : pydict) (v : pyval) : Prop :=
  option_at name data v \/ ((forall w, ~ option_at name data w) /\ v = VNone).

(** YAML values a type accepts: [null] (unset) anywhere, otherwise the type's structure. *)
Fixpoint yaml_ok (t : ctype) (v : pyval) : Prop :=
  match t with
  | TAny => True
  | TString | TPath => v = VNone \/ exists s, v = VStr s
  | TBoolean => v = VNone \/ exists b, v = VBool b
  | TList e => v = VNone \/ exists l, v = VList l /\ Forall (yaml_ok e) l
  | TDict k e | TMerging k e =>
    v = VNone \/
    exists d, v = VDict d /\ Forall (fun p => key_has_type k (fst p) /\ yaml_ok e (snd p)) d
  end.

(** The groups of a description are mappings in the contents of a file, or missing. *)
Definition groups_are_mappings (d : desc) (data : pydict) : Prop :=
  forall g, In g (keys (d_groups d)) ->
    get (KStr g) data = None \/ exists gd, get (KStr g) data = Some (VDict gd).
