(** C93: what the tool says when it gives up before the build. *)
From Verif Require Import M_base M_wrapper M_driver S_driver S_early X_build X_driver L_early X_early.

(** C93: if something is in the way of the build, the tool does not start it, touches no file, prints nothing on stdout, exits with 1 and says on
    stderr, in the end, what the first obstacle is.  (The long text about the toolchain comes before; see C52.) *)
Theorem C93_obstacles_are_named :
  forall demangle w t c m, w_wrapper w = false -> main demangle w = (t, c) -> obstacle w m ->
  c = 1%Z /\ printed t = [] /\ messages t = [] /\ touched t = [] /\ (forall a, ~ In (lit "cargo", a) (commands t)) /\
  exists pre, errors t = pre ++ [lit "error: " ++ m] /\ (accepted w -> pre = []).
Proof. exact obstacle_says. Qed.
Print Assumptions C93_obstacles_are_named.
Example C93_example : w_wrapper none_w = false /\ obstacle none_w specify /\ main idd none_w = ([EErr (lit "error: " ++ specify)], 1%Z).
Proof. exact none_stops. Qed.
Example C93_example_both : w_wrapper both_w = false /\ obstacle both_w specify /\ main idd both_w = ([EErr (lit "error: " ++ specify)], 1%Z).
Proof. exact both_stops. Qed.
(** There is no other reason to exit with 1 without a build. *)
Theorem C93_no_other_obstacles :
  forall demangle w t, w_wrapper w = false -> main demangle w = (t, 1%Z) -> (forall a, ~ In (lit "cargo", a) (commands t)) -> exists m, obstacle w m.
Proof. exact no_build_obstacle. Qed.
Print Assumptions C93_no_other_obstacles.
Example C93_example_other : w_wrapper old_w = false /\ exists t, main idd old_w = (t, 1%Z) /\ forall a, ~ In (lit "cargo", a) (commands t).
Proof. exact old_stops. Qed.
