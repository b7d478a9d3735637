(** C98: the report below a start point. *)
From Verif Require Import M_base M_stack M_graph M_names M_render M_ty M_build M_run M_wrapper M_driver S_graph S_filter S_render S_build S_run S_driver S_same S_part L_part L_part2 X_build X_driver X_finite X_part.

(** C98: with `--start` the report is the part of the report of the whole program that the start point reaches: the same nodes with the same names, usages and
    maxima, all edges between them and the same groups. *)
Theorem C98_report_below_a_start_point :
  forall demangle o p g cs s k, wf_prog p -> fair o -> sizes_u64 p -> report demangle o None p = Ret (g, cs) -> denotes demangle p s k ->
  exists g' cs' ids v nd, report demangle o (Some s) p = Ret (g', cs') /\ restricted g v g' ids /\ nth_error (gnodes g) v = Some nd /\ shows demangle p k nd /\ groups_below ids cs cs'.
Proof. exact report_part. Qed.
Print Assumptions C98_report_below_a_start_point.
(** A start point that is not found changes nothing. *)
Theorem C98_no_start_changes_nothing :
  forall demangle o p s, wf_prog p -> fair o -> no_start demangle p (Some s) -> report demangle o (Some s) p = report demangle o None p.
Proof. exact report_whole. Qed.
Print Assumptions C98_no_start_changes_nothing.
Example C98_example : wf_prog p_circles /\ fair o_id /\ sizes_u64 p_circles /\ denotes idd p_circles (lit "odd") (KReal 2) /\ no_start idd p_circles (Some (lit "none")) /\
  exists g cs g' cs', report idd o_id None p_circles = Ret (g, cs) /\ report idd o_id (Some (lit "odd")) p_circles = Ret (g', cs') /\
  map nmax (gnodes g) = [Some (MLower 24); Some (MLower 8); Some (MLower 8)] /\ gedges g = [(0, 1); (0, 0); (1, 2); (2, 1)] /\ cs = [[1; 2]; [0]] /\
  map nmax (gnodes g') = [Some (MLower 8); Some (MLower 8)] /\ gedges g' = [(0, 1); (1, 0)] /\ cs' = [[0; 1]].
Proof. exact circles_part. Qed.
(** The same of the runs of the tool: if the run without a start point succeeds, so does every run with one; it does the same, and prints the part. *)
Theorem C98_runs_with_and_without_start :
  forall demangle w s, sane w -> (forall k, w_fault w k = None) -> forall t, main demangle (started None w) = (t, 0%Z) ->
  exists target file rlib ll p g cs, analyses w target file rlib ll p /\ printed t = [text_in (a_format (w_args w)) demangle g cs] /\
  (sizes_u64 p -> exists t' g' cs', main demangle (started (Some s) w) = (t', 0%Z) /\ deeds t' = deeds t /\ printed t' = [text_in (a_format (w_args w)) demangle g' cs'] /\
    (no_start demangle p (Some s) -> g' = g /\ cs' = cs) /\
    (forall k, denotes demangle p s k -> exists ids v nd, restricted g v g' ids /\ nth_error (gnodes g) v = Some nd /\ shows demangle p k nd /\ groups_below ids cs cs')).
Proof. exact run_part. Qed.
Print Assumptions C98_runs_with_and_without_start.
Example C98_run_example : sane ex_w /\ (forall k, w_fault ex_w k = None) /\
  exists t t', main idd (started None ex_w) = (t, 0%Z) /\ main idd (started (Some (lit "leaf")) ex_w) = (t', 0%Z) /\ printed t <> printed t' /\ deeds t = deeds t'.
Proof. exact started_runs. Qed.
