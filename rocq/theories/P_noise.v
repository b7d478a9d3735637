(** C91: only what is linked counts. *)
From Coq Require Import Permutation.
From Verif Require Import M_base M_stack M_graph M_names M_thumb M_ty M_parse M_render M_build M_run M_log M_wrapper M_driver S_graph S_render S_build S_run S_driver S_same S_samelog S_noise
  X_build X_driver L_same L_noise L_noise2 X_noise.

(** C91: definitions and declarations of functions that are not in the executable, comments, labels and instructions other than calls do not
    change the report, nor the log of the analysis. *)
Theorem C91_report_and_log :
  forall demangle o start p q, wf_prog p -> wf_prog q -> same_substance eq p q ->
  report_log demangle o start q = report_log demangle o start p /\ forall f, output demangle o start f q = output demangle o start f p.
Proof. exact sub_output. Qed.
Print Assumptions C91_report_and_log.
Example C91_example : wf_prog noisy_p /\ wf_prog quiet_p /\ same_substance eq noisy_p quiet_p /\ exists g cs, report idd o_id None noisy_p = Ret (g, cs) /\ gedges g = [(0, 1)].
Proof. exact quiet_substance. Qed.
(** The whole tool: if the modules are edited in what is not linked (and in globals, types, attributes, metadata, aliases and other items), and the
    linked functions are visited in the same order, the run does exactly the same.  This includes the log, the text on stdout, the error message
    and the exit code. *)
Theorem C91_runs_do_the_same :
  forall demangle l rd ds w, sane w -> (forall m, Permutation (ds m) m) -> noise_only l rd w ->
  (forall m m', NoDup (map fst m) -> NoDup (map fst m') -> view l m = view l m' -> view l (w_defines_order w m) = view l (ds m')) ->
  main demangle (edited rd ds (w_orders w) w) = main demangle w.
Proof. exact main_ed. Qed.
Print Assumptions C91_runs_do_the_same.
Example C91_example_run : sane ex_w /\ (forall m : list (str * define), Permutation (rev m) m) /\ noise_only mine noisy_read ex_w /\
  (forall m m', view mine m = view mine m' -> view mine (w_defines_order ex_w m) = view mine (rev m')) /\ ex_ll <> noisy_ll /\ exists t, main idd ex_w = (t, 0%Z) /\ printed t = [ex_out].
Proof. exact noisy_example. Qed.
(** Text that is not understood counts wherever it is: a function that is not linked can stop the run. *)
Theorem C91_unreadable_refuted :
  exists demangle w rd, sane w /\ (exists t, main demangle w = (t, 0%Z)) /\ exists t, main demangle (edited rd (w_defines_order w) (w_orders w) w) = (t, 1%Z).
Proof. eexists. eexists. eexists. exact odd_stops. Qed.
Print Assumptions C91_unreadable_refuted.

(** Under the conditions of C90 the order does not matter either: the two programs give reports that show the same (and logs with the same messages) ... *)
Theorem C90_edited_programs_show_the_same_partial :
  forall demangle o1 o2 start p q g1 c1, wf_prog p -> wf_prog q -> same_substance (@Permutation _) p q -> fair o1 -> fair o2 -> stable p -> one_void p -> sizes_u64 p ->
  report demangle o1 start p = Ret (g1, c1) ->
  exists g2 c2 f f', report demangle o2 start q = Ret (g2, c2) /\ same_nodes g1 g2 f f' /\ same_groups c1 c2 f /\
    (log_settled p -> Permutation (fst (report_log demangle o1 start p)) (fst (report_log demangle o2 start q))).
Proof. exact any_order_wf. Qed.
Print Assumptions C90_edited_programs_show_the_same_partial.
Example C90_example_edited : wf_prog noisy_p /\ wf_prog turned_p /\ same_substance (@Permutation _) noisy_p turned_p /\ fair o_id /\ fair o_rev /\ stable noisy_p /\ one_void noisy_p /\ sizes_u64 noisy_p /\
  exists g cs, report idd o_id None noisy_p = Ret (g, cs) /\ gedges g = [(0, 1)].
Proof. exact turned_substance. Qed.
(** ... and so do the runs. *)
Theorem C90_edited_runs_show_the_same_partial :
  forall demangle l rd ds os w, sane w -> (forall m, Permutation (ds m) m) -> fair os -> noise_only l rd w -> (forall k, w_fault w k = None) ->
  forall t, main demangle w = (t, 0%Z) -> exists target file rlib ll p, analyses w target file rlib ll p /\
  (stable p /\ one_void p /\ sizes_u64 p -> exists t' g1 c1 g2 c2 f f', main demangle (edited rd ds os w) = (t', 0%Z) /\ deeds t' = deeds t /\
     printed t = [text_in (a_format (w_args w)) demangle g1 c1] /\ printed t' = [text_in (a_format (w_args w)) demangle g2 c2] /\ same_nodes g1 g2 f f' /\ same_groups c1 c2 f /\
     (log_settled p -> Permutation (messages t) (messages t'))).
Proof. exact run_ed. Qed.
Print Assumptions C90_edited_runs_show_the_same_partial.
Example C90_example_edited_run : sane ex_w /\ (forall m : list (str * define), Permutation m m) /\ fair o_id /\ noise_only mine noisy_read ex_w /\ (forall k, w_fault ex_w k = None) /\
  (exists t, main idd ex_w = (t, 0%Z)) /\ load ex_w (lit "x86_64-unknown-linux-gnu") (lit "my-app") (lit "t/cb.rlib") (lit "t/compiler_builtins-3f.ll") = Ret ex_p /\ stable ex_p /\ one_void ex_p /\ sizes_u64 ex_p /\ log_settled ex_p.
Proof. exact noisy_orders. Qed.
