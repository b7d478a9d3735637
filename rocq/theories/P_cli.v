(** C86, C87: the command line. *)
From Verif Require Import M_base M_names M_thumb M_parse M_build M_run M_log M_wrapper M_driver S_build S_run S_log S_driver X_build X_driver M_cli S_cli L_cli L_cli2 X_cli.
Local Open Scope string_scope.
Local Open Scope list_scope.

(** C86: the options are exactly those that the command line spells, in any order and any of the spellings, each at most once; a word
    that asks for help or the version ends the run with success, every other command line ends it with code 2 before anything
    is done; the wrapper and an unsupported toolchain do not depend on the options. *)
Theorem C86_command_line_read_exactly :
  forall utf8 exe argv a, cli utf8 (exe :: argv) = Parsed a <-> exists ss, line utf8 ss argv /\ once ss /\ says ss a.
Proof. exact cli_iff. Qed.
Print Assumptions C86_command_line_read_exactly.
Theorem C86_run_of_a_command_line :
  forall demangle w exe argv, w_argv w = exe :: argv ->
  (~ reads_options w -> forall a, launch demangle w = main demangle (with_args w a)) /\
  (reads_options w ->
   (forall ss a, line (w_utf8 w) ss argv -> once ss -> says ss a -> launch demangle w = main demangle (with_args w a)) /\
   (forall ss ws h rest, Forall2 (spelled (w_utf8 w)) ss ws -> once ss -> asks ss h -> argv = concat ws ++ h :: rest -> launch demangle w = ([], 0%Z)) /\
   ((forall ss, once ss -> ~ line (w_utf8 w) ss argv) ->
    (forall ss ws h rest, Forall2 (spelled (w_utf8 w)) ss ws -> once ss -> argv = concat ws ++ h :: rest -> ~ asks ss h) -> launch demangle w = ([], 2%Z))).
Proof. exact launched. Qed.
Print Assumptions C86_run_of_a_command_line.
Example C86_example : reads_options (with_argv ex_w (tool :: ex_argv)) /\ (line (fun _ => true) ex_settings ex_argv /\ once ex_settings /\ says ex_settings ex_read_args) /\
  exists t, launch idd (with_argv ex_w (tool :: ex_argv)) = (t, 0%Z) /\ printed t = [lit "24 MAX
Usage Function
16 main
8 leaf
"] /\ messages t = [].
Proof. split; [apply ex_reads|]. split; [exact ex_line | exact ex_filtered]. Qed.

(** C87: a start point given to `cargo call-stack` selects the graph.  It does not: the name of the subcommand is read as the start
    point.  Any start point of the user is refused; without one the run does the same as without cargo, apart from its log, unless
    the program has a function with the name of the subcommand. *)
Theorem C87_start_through_cargo_refuted :
  exists demangle w exe argv ss s, sane w /\ reads_options w /\ w_utf8 w (lit "call-stack") = true /\ line (w_utf8 w) ss argv /\ once ss /\ In (SStart s) ss /\
    (exists t, launch demangle (with_argv w (exe :: argv)) = (t, 0%Z) /\ printed t <> []) /\ launch demangle (with_argv w (via_cargo exe argv)) = ([], 2%Z).
Proof.
  exists idd, ex_w, tool, ex_argv, ex_settings, (lit "main"). split; [apply ex_sane|]. split; [exact (ex_reads [])|]. split; [reflexivity|]. split; [exact (proj1 ex_line)|]. split; [exact (proj1 (proj2 ex_line))|].
  split; [right; right; right; left; reflexivity|]. split; [destruct ex_filtered as [t [E [P _]]]; exists t; split; [exact E | rewrite P; discriminate] | exact ex_refused].
Qed.
Print Assumptions C87_start_through_cargo_refuted.
Theorem C87_start_refused :
  forall demangle w exe argv ss s, reads_options w -> w_utf8 w (lit "call-stack") = true -> w_argv w = via_cargo exe argv ->
  line (w_utf8 w) ss argv -> once ss -> In (SStart s) ss -> launch demangle w = ([], 2%Z).
Proof. exact cargo_refuses. Qed.
Print Assumptions C87_start_refused.
Theorem C87_no_start_partial :
  forall demangle w exe argv ss, sane w -> reads_options w -> w_utf8 w (lit "call-stack") = true ->
  line (w_utf8 w) ss argv -> once ss -> (forall s, ~ In (SStart s) ss) ->
  (forall a target file rlib ll p, says ss a -> analyses (with_args w a) target file rlib ll p -> ~ quiet_start demangle p (Some (lit "call-stack"))) ->
  let direct := launch demangle (with_argv w (exe :: argv)) in let cargo := launch demangle (with_argv w (via_cargo exe argv)) in
  effects (fst cargo) = effects (fst direct) /\ snd cargo = snd direct /\ (printed (fst cargo) <> [] -> In start_missing (messages (fst cargo))).
Proof. exact cargo_unfiltered. Qed.
Print Assumptions C87_no_start_partial.
Example C87_example : sane ex_w /\ reads_options ex_w /\ w_utf8 ex_w (lit "call-stack") = true /\ line (w_utf8 ex_w) [SBin (lit "my-app")] ex_argv2 /\ once [SBin (lit "my-app")] /\
  (forall a target file rlib ll p, says [SBin (lit "my-app")] a -> analyses (with_args ex_w a) target file rlib ll p -> ~ quiet_start idd p (Some (lit "call-stack"))) /\
  exists t, launch idd (with_argv ex_w (via_cargo tool ex_argv2)) = (t, 0%Z) /\ printed t = [ex_out] /\ messages t = [start_missing] /\
  exists t', launch idd (with_argv ex_w (tool :: ex_argv2)) = (t', 0%Z) /\ printed t' = [ex_out] /\ messages t' = [].
Proof.
  split; [apply ex_sane|]. split; [exact (ex_reads [])|]. split; [reflexivity|]. split; [exact (proj1 ex_line2)|]. split; [exact (proj2 ex_line2)|]. split; [|exact ex_unfiltered].
  intros a target file rlib ll p _. apply ex_no_sub.
Qed.
