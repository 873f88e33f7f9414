(** Independent specification of well-formed rules dicts (C10-C12). *)
From Verif Require Import Base Dict PyVal RulesDict.

Section VerifySpec.
  (** Which code points >= 128 count as alphanumeric (Unicode database). *)
  Variable uni_word : N -> bool.

  (** Letters, digits, underscore. *)
  Definition word_char (c : N) : Prop :=
    (48 <= c <= 57)%N \/ (65 <= c <= 90)%N \/ (97 <= c <= 122)%N \/ c = 95%N \/
    ((128 <= c)%N /\ uni_word c = true).

  (** Alphanumeric, dot, typographic apostrophe, plus, dash. *)
  Definition documented_char (c : N) : Prop :=
    word_char c \/ c = 46%N \/ c = 8217%N \/ c = 43%N \/ c = 45%N.

  (** A legal identifier as documented. *)
  Definition legal_identifier (s : text) : Prop :=
    s = u "mountain lion" \/ (s <> [] /\ Forall documented_char s).

  (** A legal identifier, possibly followed by one newline. *)
  Definition accepted_identifier (s : text) : Prop :=
    legal_identifier s \/
    exists s0, s0 <> [] /\ Forall documented_char s0 /\ s = s0 ++ [10%N].

  Definition reserved : list text :=
    [u "any_os"; u "any_version"; u "default_installer"; u "unset_installers"; u "any_key"].

  (** The shape of a rules file, relative to a notion of identifier. *)
  Variable ident : text -> Prop.

  (** An identifier that is no keyword, or one of the allowed keywords. *)
  Definition name_ok (allowed : list text) (k : pkey) : Prop :=
    exists s, k = KStr s /\ ident s /\ (In s reserved -> In s allowed).

  Definition rule_ok (v : pyval) : Prop :=
    exists d, v = VDict d /\
      forall k x, In (k, x) d ->
        (exists s, k = KStr s) /\
        (k = KStr (u "packages") -> exists l, x = VList l) /\
        (k = KStr (u "depends") -> exists l, x = VList l /\
           forall e, In e l -> exists s, e = VStr s /\ ident s /\ ~ In s reserved).

  (** [dflt]: whether the keyword default_installer may be used. *)
  Definition installer_dict_ok (dflt : bool) (v : pyval) : Prop :=
    exists d, v = VDict d /\
      forall k x, In (k, x) d ->
        name_ok [u "default_installer"] k /\
        (k = KStr (u "default_installer") -> dflt = true) /\ rule_ok x.

  Definition version_dict_ok (dflt : bool) (v : pyval) : Prop :=
    exists d, v = VDict d /\
      forall k x, In (k, x) d -> name_ok [u "any_version"] k /\ installer_dict_ok dflt x.

  Definition os_dict_ok (dflt : bool) (v : pyval) : Prop :=
    exists d, v = VDict d /\
      forall k x, In (k, x) d -> name_ok [u "any_os"] k /\
        exists dflt', version_dict_ok dflt' x /\
                      (dflt' = true <-> dflt = true /\ k <> KStr (u "any_os")).

  Definition rules_file_ok (v : pyval) : Prop :=
    exists d, v = VDict d /\
      forall k x, In (k, x) d -> name_ok [] k /\ os_dict_ok true x.
End VerifySpec.
