(** C95: how a run ends after the build was started. *)
From Verif Require Import M_base M_names M_build M_run M_wrapper M_driver S_driver S_ends X_build X_driver L_ends X_ends.

(** C95: every run that starts the build ends in one of the ways of [ends]: the exit code, what stdout receives, which lines of cargo are copied to
    stderr and whether an error or a panic comes after them. *)
Theorem C95_every_run_ends_so :
  forall demangle w t c command, sane w -> main demangle w = (t, c) -> In (lit "cargo", command) (commands t) ->
  exists target file echo f out, In (lit "rustc", [lit "--print=cfg"; lit "--target"; target]) (commands t) /\ one_artifact (w_args w) file /\
    ends demangle w command target file echo f out c /\ printed t = out /\ last_words echo f (errors t).
Proof. exact run_ends. Qed.
Print Assumptions C95_every_run_ends_so.
Example C95_example : sane bare_w /\ exists t, main idd bare_w = (t, 101%Z) /\ printed t = [] /\ (exists command, In (lit "cargo", command) (commands t)) /\
  exists m, errors t = [lit "   Compiling app"; m].
Proof. exact bare_ends. Qed.
(** What is written to stderr and stdout and the exit code follow from the conditions: no two of the ways are possible at once. *)
Theorem C95_ending_is_determined :
  forall demangle w command target file echo f out c echo' f' out' c',
  ends demangle w command target file echo f out c -> ends demangle w command target file echo' f' out' c' -> echo = echo' /\ f = f' /\ out = out' /\ c = c'.
Proof. exact ends_fun. Qed.
Print Assumptions C95_ending_is_determined.
Example C95_example_ends : forall target file, ends idd bare_w [] target file [lit "   Compiling app"] Crash [] 101.
Proof. exact bare_class. Qed.
(** After a successful build the exit code is 0, with the output on stdout; or 1, with an error at the end of stderr; or 101 (a panic), with nothing on stdout. *)
Theorem C95_exit_codes :
  forall demangle w t c command text, sane w -> main demangle w = (t, c) -> In (lit "cargo", command) (commands t) ->
  w_cargo w command = Ret (text, Some 0%Z) ->
  (c = 0%Z /\ exists out, printed t = [out]) \/ (c = 1%Z /\ exists pre m, errors t = pre ++ [lit "error: " ++ m]) \/ (c = 101%Z /\ printed t = []).
Proof. exact codes. Qed.
Print Assumptions C95_exit_codes.
(** A build that fails with the code 101 cannot be told from a panic by the exit code; a build that is killed has the code of an error, but no error is
    written. *)
Example C95_example_codes : (sane failed_w /\ exists t, main idd failed_w = (t, 101%Z) /\ errors t = [lit "error: no"]) /\
  (sane killed_w /\ exists t, main idd killed_w = (t, 1%Z) /\ errors t = [lit "   Compiling app"]).
Proof. split; [exact failed_ends | exact killed_ends]. Qed.
