(** Properties C37-C45 and C54, C56, C57, C59: the construction of the call graph. *)
From Coq Require Import Permutation.
From Verif Require Import M_base M_stack M_graph M_analysis M_filter M_names M_thumb M_ty M_parse M_build S_names S_graph S_sig S_build S_run L_ir2 L_build5 L_build7 L_build8 X_build L_run L_run2.
Local Open Scope string_scope.
Local Open Scope list_scope.

(** C38: the graph is exactly the specified one: its nodes are the functions of the executable, the called symbols outside of it,
    the function pointer types that are called and the unknown callees; its edges are the calls. *)
Theorem C38_graph_is_the_specified_one :
  forall demangle o p b, wf_prog p -> fair o -> build demangle o p = Ret b -> exists ks void, graph_of p ks void (b_g b).
Proof. exact c38_spec. Qed.
Print Assumptions C38_graph_is_the_specified_one.
Theorem C38_edges_come_only_from_calls :
  forall demangle o p b, wf_prog p -> fair o -> build demangle o p = Ret b ->
  forall i j, i < length (pg_defined p) -> j < length (pg_defined p) -> In (i, j) (gedges (b_g b)) -> reason p i j.
Proof. exact c38_reason. Qed.
Print Assumptions C38_edges_come_only_from_calls.

Example C38_example : wf_prog p1 /\ fair o_id /\ fair o_rev /\
  exists b, build idd o_id p1 = Ret b /\ gedges (b_g b) = [(0, 1); (0, 3); (0, 2); (0, 4); (1, 4); (2, 5); (0, 6); (6, 1); (6, 2)].
Proof. split; [exact p1_wf|]. split; [exact o_id_fair|]. split; [exact o_rev_fair | exact p1_build]. Qed.

(** C37, partial: `memcmp` must be the name by which the graph knows it (see the refutation). *)
Theorem C37_direct_calls_become_edges_partial :
  forall demangle o p b, wf_prog p -> fair o -> build demangle o p = Ret b ->
  forall i f j, body p i (DirectCall f) -> ~ intrinsic f -> live p f j -> (f = memcmp -> chosen p j f) -> In (i, j) (gedges (b_g b)).
Proof. exact c37_edge. Qed.
Print Assumptions C37_direct_calls_become_edges_partial.
Theorem C37_calls_of_undefined_symbols :
  forall demangle o p b, wf_prog p -> fair o -> build demangle o p = Ret b ->
  forall i f, body p i (DirectCall f) -> ~ intrinsic f -> (forall j, ~ live p f j) -> f <> memcmp ->
  In f (pg_undefined p) /\ exists v, In (i, v) (gedges (b_g b)) /\ nth_error (gnodes (b_g b)) v = Some (mkNode f LUnknown None false).
Proof. exact c37_extern. Qed.
Print Assumptions C37_calls_of_undefined_symbols.
Example C37_example : body p1 0 (DirectCall (lit "foo_alias")) /\ ~ intrinsic (lit "foo_alias") /\ live p1 (lit "foo_alias") 1 /\ lit "foo_alias" <> memcmp /\
  body p1 2 (DirectCall (lit "extern_fn")) /\ (forall j, ~ live p1 (lit "extern_fn") j).
Proof.
  split; [body_tac|]. split; [intros [r H]; discriminate H|]. split; [live_tac|]. split; [discriminate|]. split.
  - eexists. eexists. split; [cbn; right; right; left; reflexivity | split; [live_tac | cbn; tauto]].
  - intros j L. apply live_find in L. destruct j as [|[|[|[|[|j]]]]]; try (vm_compute in L; discriminate L). cbn in L. destruct j; exact L.
Qed.
(** The full statement is false: a call of `memcmp` is dropped if `memcmp` is an alias of the name under which the function is known. *)
Theorem C37_every_direct_call_refuted :
  exists p i j b, wf_prog p /\ body p i (DirectCall memcmp) /\ live p memcmp j /\ build idd o_id p = Ret b /\ ~ In (i, j) (gedges (b_g b)).
Proof. exact memcmp_dropped. Qed.
Print Assumptions C37_every_direct_call_refuted.

(** C39, partial: in programs without calls of bitcast functions. *)
Theorem C39_no_repeated_edges_partial :
  forall demangle o p b, wf_prog p -> fair o -> build demangle o p = Ret b ->
  (forall i f, ~ body p i (BitcastCall f)) -> NoDup (gedges (b_g b)).
Proof. exact c39_once. Qed.
Print Assumptions C39_no_repeated_edges_partial.
Theorem C39_no_repeated_edges_refuted : exists p b, wf_prog p /\ build idd o_id p = Ret b /\ ~ NoDup (gedges (b_g b)).
Proof. exact casts_twice. Qed.
Print Assumptions C39_no_repeated_edges_refuted.
Example C39_example : wf_prog p2 /\ (forall i f, ~ body p2 i (BitcastCall f)) /\
  exists b, build idd o_id p2 = Ret b /\ gedges (b_g b) = [(0, 1); (1, 2)] /\ map nlocal (gnodes (b_g b)) = [LExact 8; LExact 0; LExact 0].
Proof.
  split; [apply wf_progb_sound; vm_compute; reflexivity|]. split; [|exact p2_build].
  intros i f B. apply body_in in B. destruct B as [n [d [I K]]]. cbn in I. each I; injection I as <- <-; cbn in K; each K; discriminate K.
Qed.

(** C40, partial: the callee is defined in the IR, or its type is not that of a formatting function. *)
Theorem C40_indirect_calls_reach_candidates_partial :
  forall demangle o p b, wf_prog p -> fair o -> build demangle o p = Ret b ->
  forall i s' s j, body p i (IndirectCall s') -> sig_matches s s' -> typed p j s ->
  (typed_by_def p j s \/ forall r, s <> fmt_sig (TAlias r)) ->
  exists d nd, In (i, d) (gedges (b_g b)) /\ In (d, j) (gedges (b_g b)) /\ nth_error (gnodes (b_g b)) d = Some nd /\ ndashed nd = true.
Proof. exact c40_path. Qed.
Print Assumptions C40_indirect_calls_reach_candidates_partial.
Theorem C40_indirect_calls_reach_candidates_refuted :
  exists p i s j b, wf_prog p /\ body p i (IndirectCall s) /\ typed p j s /\ build idd o_id p = Ret b /\
    ~ (exists d, In (i, d) (gedges (b_g b)) /\ In (d, j) (gedges (b_g b))).
Proof. exact fmt_lost. Qed.
Print Assumptions C40_indirect_calls_reach_candidates_refuted.
Example C40_example : body p1 0 (IndirectCall bin) /\ sig_matches bin bin /\ typed_by_def p1 2 bin.
Proof.
  split; [body_tac|]. split; [apply sig_loose_iff; reflexivity|]. eexists. exists (lit "bar"). eexists. split; [eexists; split; reflexivity|].
  split; [apply first_here; eexists; cbn; right; right; left; reflexivity|]. split; [cbn; right; right; left; reflexivity | reflexivity].
Qed.

(** C41, partial: for calls through a pointer of a type that some function of the program has. *)
Theorem C41_unknown_callees_make_lower_bounds_partial :
  forall demangle o p b, wf_prog p -> fair o -> build demangle o p = Ret b ->
  forall i s u g' cs m, untyped p -> calls_sig p i s -> reach (b_g b) u i ->
  max_stack true (b_g b) = Ret (g', cs) -> reported g' u m -> ~ exact m.
Proof. exact c41_inexact. Qed.
Print Assumptions C41_unknown_callees_make_lower_bounds_partial.
Theorem C41_unknown_callees_make_lower_bounds_refuted :
  exists p i s b g cs m, wf_prog p /\ untyped p /\ body p i (IndirectCall s) /\ build idd o_id p = Ret b /\
    max_stack true (b_g b) = Ret (g, cs) /\ reported g i m /\ exact m.
Proof. exact pointer_reported_exact. Qed.
Print Assumptions C41_unknown_callees_make_lower_bounds_refuted.
Example C41_example : wf_prog p_untyped /\ untyped p_untyped /\ calls_sig p_untyped 0 bin /\
  exists b g cs, build idd o_id p_untyped = Ret b /\ max_stack true (b_g b) = Ret (g, cs) /\ reported g 0 (MLower 24).
Proof. exact untyped_example. Qed.

(** C42: one node per address, under the chosen name and with its usage; the other nodes are not functions of the executable. *)
Theorem C42_one_node_per_function :
  forall demangle o p b, wf_prog p -> fair o -> build demangle o p = Ret b ->
  (forall i, i < length (pg_defined p) -> exists n l,
     nth_error (gnodes (b_g b)) i = Some (mkNode n l None false) /\ chosen p i n /\ usage p i l /\ sget (b_indices b) n = Some i) /\
  (forall i nd, nth_error (gnodes (b_g b)) i = Some nd -> length (pg_defined p) <= i ->
     (created p (nname nd) /\ nlocal nd = LUnknown) \/ (nname nd = lit "?" /\ nlocal nd = LUnknown) \/ (ndashed nd = true /\ nlocal nd = LExact 0)) /\
  (forall n i, sget (b_indices b) n = Some i -> exists nd, nth_error (gnodes (b_g b)) i = Some nd /\ nname nd = n).
Proof. exact c42_nodes. Qed.
Print Assumptions C42_one_node_per_function.
(** [wf_prog] is needed: with two functions of the same name (static functions of different crates) a call leads to the last one only. *)
Theorem C42_homonyms_refuted :
  exists p i f j b, NoDup (map fst (pg_defined p)) /\ body p i (DirectCall f) /\ live p f j /\ build idd o_id p = Ret b /\ ~ In (i, j) (gedges (b_g b)).
Proof. exact homonyms_lost. Qed.
Print Assumptions C42_homonyms_refuted.
Example C42_example : wf_prog p1 /\ length (pg_defined p1) = 5 /\ chosen p1 1 (lit "foo_alias") /\ live p1 (lit "foo") 1.
Proof. split; [exact p1_wf|]. split; [reflexivity|]. split; [apply chosen_find; vm_compute; reflexivity | live_tac]. Qed.

(** C43, partial: no memory routine is a symbol outside of the executable, and the type that stands for `fmt::Void` is unique. *)
Theorem C43_graph_does_not_depend_on_orders_partial :
  forall d1 d2 o1 o2 p q b1 b2, wf_prog p -> same_prog p q -> fair o1 -> fair o2 -> stable p -> one_void p ->
  build d1 o1 p = Ret b1 -> build d2 o2 q = Ret b2 -> same_graph (length (pg_defined p)) (b_g b1) (b_g b2).
Proof. exact c43_same. Qed.
Print Assumptions C43_graph_does_not_depend_on_orders_partial.
Theorem C43_maxima_do_not_depend_on_orders_partial :
  forall d1 d2 o1 o2 p q b1 b2 g1 g2 c1 c2 i m1 m2,
  wf_prog p -> same_prog p q -> fair o1 -> fair o2 -> stable p -> one_void p -> sizes_u64 p ->
  build d1 o1 p = Ret b1 -> build d2 o2 q = Ret b2 ->
  max_stack true (b_g b1) = Ret (g1, c1) -> max_stack true (b_g b2) = Ret (g2, c2) ->
  i < length (pg_defined p) -> reported g1 i m1 -> reported g2 i m2 -> m1 = m2.
Proof. exact reports_agree. Qed.
Print Assumptions C43_maxima_do_not_depend_on_orders_partial.
Theorem C43_graph_does_not_depend_on_orders_refuted :
  exists p q b1 b2, wf_prog p /\ same_prog p q /\ one_void p /\ build idd o_id p = Ret b1 /\ build idd o_id q = Ret b2 /\ ~ same_graph 0 (b_g b1) (b_g b2).
Proof. exact order_matters. Qed.
Print Assumptions C43_graph_does_not_depend_on_orders_refuted.
Example C43_example : wf_prog p3 /\ same_prog p3 p3' /\ pg_defines p3 <> pg_defines p3' /\ stable p3 /\ one_void p3 /\ sizes_u64 p3 /\
  exists b1 b2, build idd o_id p3 = Ret b1 /\ build idd o_rev p3' = Ret b2 /\ gedges (b_g b1) <> gedges (b_g b2).
Proof. exact orders_example. Qed.

(** C44: calls and jumps in the machine code. *)
Theorem C44_branches_become_edges :
  forall demangle o p b, wf_prog p -> fair o -> build demangle o p = Ret b ->
  forall i addr size a off, analysed p i addr size a ->
  (In off (bls a) -> exists j, at_address p j (bl_target addr off) /\ In (i, j) (gedges (b_g b))) /\
  (In off (bs a) -> leaves addr size (b_target addr off) -> exists j, at_address p j (b_target addr off) /\ In (i, j) (gedges (b_g b))).
Proof. exact c44_bl. Qed.
Print Assumptions C44_branches_become_edges.
(** ... and no others: by C38, an edge has a [reason], and a branch is one only if it is a BL or leaves the function. *)
Theorem C44_every_function_is_analysed :
  forall demangle o p b, wf_prog p -> build demangle o p = Ret b ->
  forall i, is_thumb (pg_target p) = true -> pg_text p <> None -> i < length (pg_defined p) ->
  exists addr size a, analysed p i addr size a /\
    (forall off, In off (bls a) -> exists j, at_address p j (bl_target addr off)) /\
    (forall off, In off (bs a) -> leaves addr size (b_target addr off) -> exists j, at_address p j (b_target addr off)).
Proof. exact checked_code. Qed.
Print Assumptions C44_every_function_is_analysed.
Example C44_example : exists a, analysed p2 0 4096 10 a /\ bls a = [10%Z] /\ bs a = [6%Z] /\ ~ leaves 4096 10 (b_target 4096 6).
Proof. exact p2_main. Qed.

(** C45, partial: the last case of the first list is a disagreement that is kept silently. *)
Theorem C45_stack_size_rule_partial :
  forall demangle o p b, wf_prog p -> fair o -> build demangle o p = Ret b ->
  forall i n addr size a, chosen p i n -> analysed p i addr size a ->
  exists l, nth_error (gnodes (b_g b)) i = Some (mkNode n l None false) /\
  (forall m, In (n, m) (pg_sizes p) ->
     match stack a with
     | Some k => (k = m /\ l = LExact m) \/ (k <> m /\ has_asm p i /\ l = LExact k) \/ (k <> m /\ m = 0%N /\ outlined_name n /\ l = LExact k) \/
                 (k <> m /\ m <> 0%N /\ outlined_name n /\ ~ has_asm p i /\ l = LExact m)
     | None => l = LExact m
     end) /\
  (~ sized p n -> match stack a with Some k => l = LExact k | None => l = if modifies_sp a then LUnknown else LExact 0 end).
Proof. exact c45_rule. Qed.
Print Assumptions C45_stack_size_rule_partial.
Theorem C45_disagreement_stops_the_tool_refuted :
  exists p i n addr size a m k b, wf_prog p /\ chosen p i n /\ analysed p i addr size a /\ In (n, m) (pg_sizes p) /\ stack a = Some k /\ m <> k /\
    ~ has_asm p i /\ m <> 0%N /\ build idd o_id p = Ret b.
Proof. exact outlined_kept. Qed.
Print Assumptions C45_disagreement_stops_the_tool_refuted.
Example C45_example : chosen p2 0 (lit "main") /\ (exists a, analysed p2 0 4096 10 a /\ bls a = [10%Z] /\ bs a = [6%Z] /\ ~ leaves 4096 10 (b_target 4096 6)) /\
  In (lit "main", 8%N) (pg_sizes p2) /\ ~ sized p2 (lit "bar").
Proof.
  split; [apply chosen_find; vm_compute; reflexivity|]. split; [exact p2_main|]. split; [cbn; tauto|]. intros K. apply sized_dec in K. vm_compute in K. discriminate K.
Qed.

(** C54: the last definition of a name is used, and the last stack size. *)
Theorem C54_last_definition_wins :
  forall items, NoDup (map fst (collect_defines items)) /\
  (forall n d, In (n, d) (collect_defines items) <->
     n = d_name d /\ exists a b, items = a ++ IDefine d :: b /\ forall d', In (IDefine d') b -> d_name d' <> n).
Proof. exact c54_defines. Qed.
Print Assumptions C54_last_definition_wins.
Theorem C54_last_stack_size_wins :
  forall objects, NoDup (map fst (collect_sizes objects)) /\
  (forall n k, In (n, k) (collect_sizes objects) <-> exists a b, concat objects = a ++ (n, k) :: b /\ forall k', ~ In (n, k') b).
Proof. exact c54_sizes. Qed.
Print Assumptions C54_last_stack_size_wins.
Example C54_example : collect_sizes [[(lit "f", 8%N); (lit "g", 16%N)]; [(lit "f", 24%N)]] = [(lit "f", 24%N); (lit "g", 16%N)].
Proof. reflexivity. Qed.

(** C56, partial: calls of a bitcast function by the name under which the graph knows it. *)
Theorem C56_bitcast_calls_become_edges_partial :
  forall demangle o p b, wf_prog p -> fair o -> build demangle o p = Ret b ->
  forall i f j, body p i (BitcastCall (Some f)) -> chosen p j f -> In (i, j) (gedges (b_g b)).
Proof. exact c56_cast. Qed.
Print Assumptions C56_bitcast_calls_become_edges_partial.
Theorem C56_bitcast_calls_by_alias_refuted :
  exists p i f j b, wf_prog p /\ body p i (BitcastCall (Some f)) /\ live p f j /\ build idd o_id p = Ret b /\ ~ In (i, j) (gedges (b_g b)).
Proof. exact cast_alias_lost. Qed.
Print Assumptions C56_bitcast_calls_by_alias_refuted.
Example C56_example : body p1 0 (BitcastCall (Some (lit "bar"))) /\ chosen p1 2 (lit "bar").
Proof. split; [body_tac | apply chosen_find; vm_compute; reflexivity]. Qed.

(** C57, partial: only for the names that the tool looks for, and if the graph knows the function by that name. *)
Theorem C57_memory_intrinsics_become_edges_partial :
  forall demangle o p b, wf_prog p -> fair o -> build demangle o p = Ret b ->
  forall i f n j, is_thumb (pg_target p) = false -> body p i (DirectCall f) -> lowers f n -> chosen p j n -> In (i, j) (gedges (b_g b)).
Proof. exact c57_mem. Qed.
Print Assumptions C57_memory_intrinsics_become_edges_partial.
Theorem C57_memmove_refuted :
  exists p i r j b, wf_prog p /\ body p i (DirectCall (lit "llvm.memmove." ++ r)) /\ chosen p j (lit "memmove") /\ is_thumb (pg_target p) = false /\
    build idd o_id p = Ret b /\ gedges (b_g b) = [].
Proof. exact memmove_lost. Qed.
Print Assumptions C57_memmove_refuted.
Example C57_example : body p1 0 (DirectCall (lit "llvm.memcpy.p0.p0.i64")) /\ lowers (lit "llvm.memcpy.p0.p0.i64") (lit "memcpy") /\ chosen p1 3 (lit "memcpy").
Proof. split; [body_tac|]. split; [apply (lo_memcpy (lit "p0.p0.i64")); cbn; tauto | apply chosen_find; vm_compute; reflexivity]. Qed.

(** C59: what the tool does not understand stops it. *)
Theorem C59_unknown_statements_stop_the_tool :
  forall demangle o p b, wf_prog p -> build demangle o p = Ret b ->
  forall i st, body p i st ->
  match st with
  | BitcastCall n => n <> None
  | DirectCall f => (~ intrinsic f -> (exists j, live p f j) \/ In f (pg_undefined p) \/ f = memcmp) /\
                    (is_thumb (pg_target p) = false -> intrinsic f -> lowered f \/ no_call f)
  | _ => True
  end.
Proof. exact checked_body. Qed.
Print Assumptions C59_unknown_statements_stop_the_tool.
Example C59_example : body p1 0 (DirectCall (lit "llvm.dbg.value")) /\ intrinsic (lit "llvm.dbg.value") /\
  (exists msg, build idd o_id p_bug = Panic msg) /\ body p_bug 0 (DirectCall (lit "llvm.fancy.op")).
Proof.
  split; [body_tac|]. split; [exists (lit "dbg.value"); reflexivity|]. split; [eexists; vm_compute; reflexivity | body_tac].
Qed.
