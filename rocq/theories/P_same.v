(** C90: runs on the same input show the same. *)
From Coq Require Import Permutation.
From Verif Require Import M_base M_stack M_graph M_names M_thumb M_ty M_parse M_render M_build M_run M_wrapper M_driver S_graph S_render S_build S_run S_driver S_log S_same S_samelog
  X_build X_driver L_same L_same2 X_same.

(** C90, partial (the conditions of C43: no memory routine is a symbol outside of the executable, one void function; usages below 2^64): the
    iteration orders of the hash maps do not decide whether a report is made.  They do not change what it shows: the same nodes, with their
    names, usages and maxima, as many edges between them and the same groups, in another numbering. *)
Theorem C90_reports_show_the_same_partial :
  forall demangle o1 o2 start p q g1 c1, wf_prog p -> same_prog p q -> fair o1 -> fair o2 -> stable p -> one_void p -> sizes_u64 p ->
  report demangle o1 start p = Ret (g1, c1) ->
  exists g2 c2 f f', report demangle o2 start q = Ret (g2, c2) /\ same_nodes g1 g2 f f' /\ same_groups c1 c2 f.
Proof. exact same_report. Qed.
Print Assumptions C90_reports_show_the_same_partial.
Example C90_example : wf_prog p3 /\ same_prog p3 p3' /\ fair o_id /\ fair o_rev /\ stable p3 /\ one_void p3 /\ sizes_u64 p3 /\
  exists g cs, report idd o_id None p3 = Ret (g, cs) /\ gedges g = [(0, 1); (0, 3); (1, 3); (0, 4); (4, 1); (4, 2)].
Proof. exact p3_same. Qed.
(** Hence the list has the same first line and the same lines; only lines of functions with the same usage can change places. *)
Theorem C90_lists_show_the_same :
  forall demangle g1 g2 f f', same_nodes g1 g2 f f' -> (forall nd, In nd (gnodes g1) -> one_line (demangle (nname nd))) ->
  exists mx r1 r2, read_top (top demangle g1) = Some (mx, r1) /\ read_top (top demangle g2) = Some (mx, r2) /\ Permutation r1 r2 /\ map fst r1 = map fst r2.
Proof. exact same_list. Qed.
Print Assumptions C90_lists_show_the_same.
Example C90_example_list : exists g1 g2 f f', same_nodes g1 g2 f f' /\ (forall nd, In nd (gnodes g1) -> one_line (nname nd)) /\ node_count g1 = 5 /\ gedges g1 <> gedges g2.
Proof. exact list_example. Qed.
(** The same for the whole tool: if one run ends well, another one on the same input with other iteration orders ends well.  It starts the same
    commands, touches the same files and passes on the same lines, and what it prints is the same graph.
    It announces the same, in some order, if the order of the definitions does not matter for the messages ([log_settled]). *)
Theorem C90_runs_show_the_same_partial :
  forall demangle ds os w, sane w -> (forall m, Permutation (ds m) m) -> fair os -> (forall k, w_fault w k = None) ->
  forall t, main demangle w = (t, 0%Z) -> exists target file rlib ll p, analyses w target file rlib ll p /\
  (stable p /\ one_void p /\ sizes_u64 p -> exists t' g1 c1 g2 c2 f f', main demangle (reordered ds os w) = (t', 0%Z) /\ deeds t' = deeds t /\
     printed t = [text_in (a_format (w_args w)) demangle g1 c1] /\ printed t' = [text_in (a_format (w_args w)) demangle g2 c2] /\ same_nodes g1 g2 f f' /\ same_groups c1 c2 f /\
     (log_settled p -> Permutation (messages t) (messages t'))).
Proof. exact same_run. Qed.
Print Assumptions C90_runs_show_the_same_partial.
Example C90_example_run : sane ex_w /\ (forall m : list (str * define), Permutation (rev (rev m)) m) /\ fair o_id /\ (forall k, w_fault ex_w k = None) /\ (exists t, main idd ex_w = (t, 0%Z)) /\
  load ex_w (lit "x86_64-unknown-linux-gnu") (lit "my-app") (lit "t/cb.rlib") (lit "t/compiler_builtins-3f.ll") = Ret ex_p /\ stable ex_p /\ one_void ex_p /\ sizes_u64 ex_p /\ log_settled ex_p.
Proof. exact ex_same. Qed.

(** The text itself is not reproducible ... *)
Theorem C90_same_text_refuted :
  exists demangle o1 o2 p q, wf_prog p /\ same_prog p q /\ fair o1 /\ fair o2 /\ stable p /\ one_void p /\ sizes_u64 p /\
  exists a b, output demangle o1 None Dot p = Ret a /\ output demangle o2 None Dot q = Ret b /\ a <> b.
Proof. eexists. eexists. eexists. eexists. eexists. exact p3_text. Qed.
Print Assumptions C90_same_text_refuted.
(** ... and without the condition on memory routines one run can make a report where another one panics. *)
Theorem C90_reports_show_the_same_refuted :
  exists p q, wf_prog p /\ same_prog p q /\ one_void p /\ sizes_u64 p /\ (exists g cs, report idd o_id None p = Ret (g, cs)) /\ exists msg, report idd o_id None q = Panic msg.
Proof. exact memcmp_reports. Qed.
Print Assumptions C90_reports_show_the_same_refuted.
