(** C106: what a run that logs nothing vouches for. *)
From Verif Require Import M_base M_stack M_graph M_names M_thumb M_ty M_parse M_build M_run M_log S_names S_graph S_sig S_build S_run S_log S_silent L_run L_run2 X_build X_log L_silent X_silent.

(** C106: if nothing is logged, the restrictions of the theorems about executions (C58) come down to five: there are no other ways in which calls are overlooked. *)
Theorem C106_silent_runs_lose_calls_in_five_ways :
  forall demangle o start p g cs, wf_prog p -> fair o -> report_log demangle o start p = ([], Ret (g, cs)) ->
  forall i, covered_fn p i <-> forall c, avoids p i c.
Proof. exact silent_covered. Qed.
Print Assumptions C106_silent_runs_lose_calls_in_five_ways.
(** C106: no execution by functions which avoid these uses more stack than the exact maximum of a silent run. *)
Theorem C106_silent_maximum_bounds_executions_partial :
  forall demangle o start p g cs, wf_prog p -> fair o -> report_log demangle o start p = ([], Ret (g, cs)) ->
  exists ks, length ks = node_count g /\
    (forall k i n nd, nth_error ks k = Some (KReal i) -> nth_error (gnodes g) k = Some nd -> nmax nd = Some (MExact n) -> below_2_64 g k ->
       forall l, runs p i l -> (forall x c, In x l -> avoids p x c) -> exists d, depth p l d /\ (d <= n)%N) /\
    (no_start demangle p start -> forall i, i < length (pg_defined p) -> nth_error ks i = Some (KReal i)) /\
    (forall s k, start = Some s -> denotes demangle p s k -> nth_error ks 0 = Some k) /\
    (forall k key nd, nth_error ks k = Some key -> nth_error (gnodes g) k = Some nd -> shows demangle p key nd).
Proof. exact silent_bounds. Qed.
Print Assumptions C106_silent_maximum_bounds_executions_partial.
Example C106_example : wf_prog p3 /\ fair o_id /\ (exists g cs, report_log idd o_id None p3 = ([], Ret (g, cs)) /\ reported g 0 (MExact 32)) /\
  (forall i c, avoids p3 i c) /\ runs p3 0 [0; 2] /\ depth p3 [0; 2] 32.
Proof.
  destruct p3_silent as [g [cs [E R]]]. split; [exact p3_wf|]. split; [exact o_id_fair|]. split; [exists g, cs; split; assumption|].
  split; [|exact p3_runs]. intros i. exact (proj1 (silent_covered idd o_id None p3 g cs p3_wf o_id_fair E i) (p3_covered i)).
Qed.
(** C106: in each of the five ways a silent run can print an exact maximum which is too small. *)
Theorem C106_each_way_refuted : forall c, exists p, overlooks idd o_id p c.
Proof. exact each_overlooked. Qed.
Print Assumptions C106_each_way_refuted.
