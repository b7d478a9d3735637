(** Properties C21 (end to end) and C58: the whole tool. *)
From Verif Require Import M_base M_stack M_graph M_names M_thumb M_ty M_parse M_build M_run S_names S_graph S_build S_run X_build L_run L_report L_run2.
Local Open Scope list_scope.

(** C58: a maximum that is reported as exact bounds the stack usage of every execution by calls of the kinds which the tool takes
    notice of ([noticed]), in any program... *)
Theorem C58_exact_maximum_bounds_noticed_calls :
  forall demangle o p b, wf_prog p -> fair o -> build demangle o p = Ret b ->
  forall start g cs, finish demangle start b = Ret (g, cs) ->
  exists ks, length ks = node_count g /\
    (forall k i n nd, nth_error ks k = Some (KReal i) -> nth_error (gnodes g) k = Some nd -> nmax nd = Some (MExact n) -> below_2_64 g k ->
       forall l, runs_noticed p i l -> exists d, depth p l d /\ (d <= n)%N) /\
    (no_start demangle p start -> forall i, i < length (pg_defined p) -> nth_error ks i = Some (KReal i)) /\
    (forall s k, start = Some s -> denotes demangle p s k -> nth_error ks 0 = Some k) /\
    (forall k key nd, nth_error ks k = Some key -> nth_error (gnodes g) k = Some nd -> shows demangle p key nd).
Proof. exact report_bounds. Qed.
Print Assumptions C58_exact_maximum_bounds_noticed_calls.
(** ... and of every execution by functions that do not use the constructs which the tool overlooks ([covered_fn]; each clause of it
    is needed, see C37, C40, C41, C56 and C57). *)
Theorem C58_exact_maximum_bounds_executions_partial :
  forall demangle o p b, wf_prog p -> fair o -> build demangle o p = Ret b ->
  forall start g cs, finish demangle start b = Ret (g, cs) ->
  exists ks, length ks = node_count g /\
    (forall k i n nd, nth_error ks k = Some (KReal i) -> nth_error (gnodes g) k = Some nd -> nmax nd = Some (MExact n) -> below_2_64 g k ->
       forall l, runs p i l -> (forall x, In x l -> covered_fn p x) -> exists d, depth p l d /\ (d <= n)%N) /\
    (no_start demangle p start -> forall i, i < length (pg_defined p) -> nth_error ks i = Some (KReal i)) /\
    (forall s k, start = Some s -> denotes demangle p s k -> nth_error ks 0 = Some k) /\
    (forall k key nd, nth_error ks k = Some key -> nth_error (gnodes g) k = Some nd -> shows demangle p key nd).
Proof. exact covered_bounds. Qed.
Print Assumptions C58_exact_maximum_bounds_executions_partial.
(** The chains of the report use less than 2^64 bytes if the usages of all functions together do. *)
Theorem C58_small_usages_fit :
  forall demangle o p b, wf_prog p -> fair o -> build demangle o p = Ret b ->
  forall start g cs, fits p -> finish demangle start b = Ret (g, cs) -> forall v, below_2_64 g v.
Proof. exact report_fits. Qed.
Print Assumptions C58_small_usages_fit.
Example C58_example : wf_prog p3 /\ covered p3 /\ fits p3 /\
  (exists g cs nd, report idd o_id None p3 = Ret (g, cs) /\ nth_error (gnodes g) 0 = Some nd /\ nmax nd = Some (MExact 32)) /\
  runs p3 0 [0; 2] /\ depth p3 [0; 2] 32.
Proof. split; [exact p3_wf|]. split; [exact p3_covered|]. split; [exact p3_fits|]. split; [exact p3_report | exact p3_runs]. Qed.

(** Functions that are not part of the execution may do what they like. *)
Example C58_other_functions_example : wf_prog p_odd /\ ~ covered p_odd /\
  (exists b g cs nd, build idd o_id p_odd = Ret b /\ finish idd None b = Ret (g, cs) /\ nth_error (gnodes g) 0 = Some nd /\ nmax nd = Some (MExact 24) /\ fits p_odd) /\
  runs p_odd 0 [0; 1] /\ runs_noticed p_odd 0 [0; 1] /\ (forall x, In x [0; 1] -> covered_fn p_odd x) /\ depth p_odd [0; 1] 24.
Proof. exact odd_example. Qed.

(** C21: once the graph is built, the report is finished exactly if each name in view that looks like a name with a hash is, without the
    hash, also the name of a function of the executable.  What is in view depends on the edges [E], which include those that
    the graph must have, and are among those that it may have (see C43). *)
Theorem C21_report_is_finished_exactly :
  forall demangle o p b, wf_prog p -> fair o -> build demangle o p = Ret b ->
  exists void (E : key -> key -> Prop), void_type p void /\ (forall k l, edge p (fun _ => False) void k l -> E k l) /\ (forall k l, E k l -> edge p (created p) void k l) /\
  forall start, ((exists g cs, report demangle o start p = Ret (g, cs)) <->
    forall k nd, is_node p k -> in_view demangle p E start k -> node_of p void k nd -> known_name demangle p nd).
Proof. exact report_exact. Qed.
Print Assumptions C21_report_is_finished_exactly.
(** In terms of the program alone. *)
Theorem C21_report_is_finished_if_names_are_known :
  forall demangle o start p b, wf_prog p -> fair o -> build demangle o p = Ret b ->
  names_known demangle p start -> exists g cs, report demangle o start p = Ret (g, cs).
Proof. exact report_finishes. Qed.
Print Assumptions C21_report_is_finished_if_names_are_known.
Theorem C21_report_is_finished_only_if_names_are_known :
  forall demangle o start p b, wf_prog p -> fair o -> one_void p -> start = None \/ stable p -> build demangle o p = Ret b ->
  ((exists g cs, report demangle o start p = Ret (g, cs)) <-> names_known demangle p start).
Proof. exact report_iff. Qed.
Print Assumptions C21_report_is_finished_only_if_names_are_known.
Example C21_exact_example : wf_prog p3 /\ one_void p3 /\ names_known idd p3 None /\ ~ names_known idd p_hasher None.
Proof. exact names_example. Qed.
Example C21_start_example : wf_prog p_hasher /\ one_void p_hasher /\ stable p_hasher /\ denotes idd p_hasher (lit "feed") (KReal 1) /\ denotes hashed p_hasher (lit "eat") (KReal 1) /\
  names_known idd p_hasher (Some (lit "feed")) /\ ~ names_known idd p_hasher None.
Proof. exact start_example. Qed.
(** The full statement is false: the type of a function that takes a reference to a struct `m::hasher_state1`... *)
Theorem C21_function_pointer_type_panics_refuted :
  exists p b, wf_prog p /\ build idd o_id p = Ret b /\ pg_undefined p = [] /\ exists msg, report idd o_id None p = Panic msg.
Proof. exact label_panics. Qed.
Print Assumptions C21_function_pointer_type_panics_refuted.
(** ... and the name of a function of a shared library. *)
Theorem C21_extern_symbol_panics_refuted :
  exists p b, wf_prog p /\ build idd o_id p = Ret b /\ exists msg, report idd o_id None p = Panic msg.
Proof. exact extern_panics. Qed.
Print Assumptions C21_extern_symbol_panics_refuted.
Example C21_example : exists g cs nd, report idd o_id None p3 = Ret (g, cs) /\ nth_error (gnodes g) 0 = Some nd /\ nmax nd = Some (MExact 32).
Proof. exact p3_report. Qed.
