(** C88: the console of a command follows its command line and environment. *)
From Verif Require Import Base Dict PyVal RulesDict Verify Sources Util Paths Config XylemConfig Commands CommandLine
  PropCommandLine PropOptions Output PropOutput Globals.

(** The messages of a command are shown as its options and the environment ask for: debug messages exactly with
    --debug or XYLEM_DEBUG, verbose ones exactly with --verbose, colours exactly without --no-color, and the debugger
    exactly with --pdb or XYLEM_PDB; whatever other options there are, in whatever order. *)
Theorem C88_command_line fresh d own after ns environ : clean d own ->
  parse_command_line fresh (main_options d) (command_options d own) [] after = Ok ns ->
  let c := command_console environ ns in
  (c_debug c = true <-> In (u "debug", None) after \/ exists v, In (u "XYLEM_DEBUG", v) environ) /\
  (c_pdb c = true <-> In (u "pdb", None) after \/ exists v, In (u "XYLEM_PDB", v) environ) /\
  (c_verbose c = true <-> In (u "verbose", None) after) /\
  (~ In (u "no-color", None) after -> colours c true) /\
  (In (u "no-color", None) after -> colours c false) /\
  c_out c = [] /\ c_err c = [].
Proof.
  intros Hc E c.
  assert (Hfl : forall f dest, In {| o_flag := f; o_dest := dest; o_action := StoreTrue |} global_options -> (ns_flag ns dest = true <-> In (f, None) after)).
  { intros f dest Hin; apply (flag_iff fresh d own after ns f dest Hc E); unfold command_options; apply in_or_app; right; apply in_or_app; right; exact Hin. }
  pose proof (Hfl (u "debug") (u "debug") ltac:(vm_compute; tauto)) as Hd; pose proof (Hfl (u "pdb") (u "pdb") ltac:(vm_compute; tauto)) as Hp.
  pose proof (Hfl (u "verbose") (u "verbose") ltac:(vm_compute; tauto)) as Hv; pose proof (Hfl (u "no-color") (u "no_color") ltac:(vm_compute; tauto)) as Hn.
  assert (Hh : forall k, has k environ = true <-> exists v, In (k, v) environ).
  { intros k; rewrite has_keys; unfold keys; rewrite in_map_iff; split.
    - intros ((k' & v) & <- & H); exists v; exact H.
    - intros (v & H); exists (k, v); split; [reflexivity|exact H]. }
  subst c; unfold command_console, handle_global_arguments, fresh_console, global_flags_of, colours.
  cbn [c_debug c_pdb c_verbose c_ansi c_out c_err g_debug g_pdb g_verbose g_no_color g_env_debug g_env_pdb].
  rewrite !orb_true_iff, Hd, Hp, !Hh; split; [reflexivity|]; split; [reflexivity|]; split.
  { rewrite <- Hv; destruct (ns_flag ns (u "verbose")); split; congruence. }
  destruct (ns_flag ns (u "no_color")); split; try (split; [|split; reflexivity]); intros H; try reflexivity.
  - contradiction H; apply Hn; reflexivity.
  - apply Hn in H; discriminate.
Qed.

Example C88_command_line_nonvacuous :
  let after := [(u "os", Some (u "ubuntu:precise")); (u "no-color", None); (u "verbose", None)] in
  clean xd install_options /\
  exists ns, parse_command_line true (main_options xd) (command_options xd install_options) [] after = Ok ns /\
    let c := command_console [(u "XYLEM_PDB", [])] ns in
    c_debug c = false /\ c_pdb c = true /\ c_verbose c = true /\ colours c false.
Proof.
  split; [exact (proj1 bundled_clean)|].
  assert (H : match parse_command_line true (main_options xd) (command_options xd install_options) []
     [(u "os", Some (u "ubuntu:precise")); (u "no-color", None); (u "verbose", None)] with
     | Ok ns => ns_flag ns (u "debug") = false /\ ns_flag ns (u "pdb") = false /\ ns_flag ns (u "verbose") = true /\ ns_flag ns (u "no_color") = true
     | Err _ => False end) by (vm_compute; repeat split; reflexivity).
  destruct (parse_command_line true (main_options xd) (command_options xd install_options) []
     [(u "os", Some (u "ubuntu:precise")); (u "no-color", None); (u "verbose", None)]) as [ns|]; [|contradiction].
  destruct H as (H1 & H2 & H3 & H4); exists ns; split; [reflexivity|]; cbv zeta; unfold command_console, handle_global_arguments, fresh_console, global_flags_of, colours.
  cbn [c_debug c_pdb c_verbose c_ansi g_debug g_pdb g_verbose g_no_color g_env_debug g_env_pdb]; rewrite H1, H2, H3, H4.
  split; [reflexivity|]; split; [reflexivity|]; split; [reflexivity|vm_compute; reflexivity].
Qed.

Print Assumptions C88_command_line.
