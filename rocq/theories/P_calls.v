(** Properties C37-C41, C43, C56 and C57: the edges of the call graph, one by one. *)
From Coq Require Import Permutation.
From Verif Require Import M_base M_stack M_graph M_analysis M_filter M_names M_thumb M_ty M_parse M_build S_names S_graph S_sig S_build S_run L_ir2 L_build5 L_build7 L_build8 X_build L_run L_run2 S_calls L_calls4 L_calls5 L_calls6 S_exact L_exact.
Local Open Scope string_scope.
Local Open Scope list_scope.

(** C38: every edge, and how often it is there: once for each call under a cast, and once if something else leads there. *)
Theorem C38_edges_counted :
  forall demangle o p b, wf_prog p -> fair o -> build demangle o p = Ret b ->
  exists tr ks void, trace p (pg_defines p) tr /\ graph_of p ks void (b_g b) /\ counted_edges p tr ks void (b_g b) /\
    (forall n u, sget (b_indices b) n = Some u <-> (exists j, chosen p j n /\ nth_error ks u = Some (KReal j)) \/ nth_error ks u = Some (KSym n)).
Proof. exact build_counted. Qed.
Print Assumptions C38_edges_counted.
(** The edges between functions of the executable, exactly. *)
Theorem C38_edges_between_functions_exact :
  forall demangle o p b tr, wf_prog p -> fair o -> build demangle o p = Ret b -> trace p (pg_defines p) tr ->
  forall i j, i < length (pg_defined p) -> j < length (pg_defined p) ->
  (In (i, j) (gedges (b_g b)) <-> calls p tr i (KReal j) \/ exists f, chosen p j f /\ body p i (BitcastCall (Some f))).
Proof. exact functions_exact. Qed.
Print Assumptions C38_edges_between_functions_exact.
(** C37, C56 and C57: the edges from a function to a function or symbol that the graph knows by the name [n], exactly; and how often. *)
Theorem C37_edges_by_name_exact :
  forall demangle o p b tr, wf_prog p -> fair o -> build demangle o p = Ret b -> trace p (pg_defines p) tr ->
  forall i n l u, i < length (pg_defined p) -> sget (b_indices b) n = Some u -> cast_target p n l ->
  (In (i, u) (gedges (b_g b)) <-> calls p tr i l \/ body p i (BitcastCall (Some n))).
Proof. exact edge_exact. Qed.
Print Assumptions C37_edges_by_name_exact.
Theorem C56_how_often :
  forall demangle o p b tr, wf_prog p -> fair o -> build demangle o p = Ret b -> trace p (pg_defines p) tr ->
  forall i n l u, i < length (pg_defined p) -> sget (b_indices b) n = Some u -> cast_target p n l ->
  exists c, times (i, u) (gedges (b_g b)) = times_cast i n tr + c /\ c <= 1 /\ (c = 1 <-> calls p tr i l).
Proof. exact how_often. Qed.
Print Assumptions C56_how_often.
Example C56_how_often_example : wf_prog p_casts /\ trace p_casts (pg_defines p_casts) t_casts /\ chosen p_casts 1 (lit "foo") /\ times_cast 0 (lit "foo") t_casts = 2 /\
  exists b, build idd o_id p_casts = Ret b /\ sget (b_indices b) (lit "foo") = Some 1 /\ times (0, 1) (gedges (b_g b)) = 2.
Proof.
  split; [apply wf_progb_sound; vm_compute; reflexivity|]. split; [exact t_casts_trace|]. split; [apply chosen_find; vm_compute; reflexivity|]. split; [vm_compute; reflexivity|].
  eexists. split; [vm_compute; reflexivity|]. split; vm_compute; reflexivity.
Qed.

(** C39: when no edge is there twice. *)
Theorem C39_repeated_edges_exact :
  forall demangle o p b tr, wf_prog p -> fair o -> build demangle o p = Ret b -> trace p (pg_defines p) tr ->
  (NoDup (gedges (b_g b)) <-> NoDup (casts tr) /\ forall i f l, In (i, f) (casts tr) -> cast_target p f l -> ~ calls p tr i l).
Proof. exact repeated_exact. Qed.
Print Assumptions C39_repeated_edges_exact.
Example C39_repeated_example : wf_prog p_casts /\ trace p_casts (pg_defines p_casts) t_casts /\ ~ NoDup (casts t_casts) /\
  trace (p_order [f_both; f_user]) (pg_defines (p_order [f_both; f_user])) t_fg /\ NoDup (casts t_fg).
Proof.
  split; [apply wf_progb_sound; vm_compute; reflexivity|]. split; [exact t_casts_trace|]. split; [|split; [exact t_fg_trace | constructor]].
  intros N. inversion N as [|? ? N1 _]. apply N1. left. reflexivity.
Qed.

(** C43: the same calls give the same graph, each edge as often, whatever the order of the definitions. *)
Theorem C43_same_calls_same_graph :
  forall d1 d2 o1 o2 p q b1 b2 t1 t2, wf_prog p -> same_prog p q -> fair o1 -> fair o2 -> one_void p ->
  build d1 o1 p = Ret b1 -> build d2 o2 q = Ret b2 -> trace p (pg_defines p) t1 -> trace q (pg_defines q) t2 ->
  (forall i l, calls p t1 i l <-> calls q t2 i l) -> same_counted (length (pg_defined p)) (b_g b1) (b_g b2).
Proof. exact same_calls_same_graph. Qed.
Print Assumptions C43_same_calls_same_graph.
Theorem C43_same_calls_same_maxima :
  forall d1 d2 o1 o2 p q b1 b2 t1 t2 g1 g2 c1 c2 i m1 m2, wf_prog p -> same_prog p q -> fair o1 -> fair o2 -> one_void p -> sizes_u64 p ->
  build d1 o1 p = Ret b1 -> build d2 o2 q = Ret b2 -> trace p (pg_defines p) t1 -> trace q (pg_defines q) t2 ->
  (forall i l, calls p t1 i l <-> calls q t2 i l) -> max_stack true (b_g b1) = Ret (g1, c1) -> max_stack true (b_g b2) = Ret (g2, c2) ->
  i < length (pg_defined p) -> reported g1 i m1 -> reported g2 i m2 -> m1 = m2.
Proof. exact calls_reports. Qed.
Print Assumptions C43_same_calls_same_maxima.
(** ... as it is for programs in which no memory routine is a symbol outside of the executable. *)
Theorem C43_edges_as_often_partial :
  forall d1 d2 o1 o2 p q b1 b2, wf_prog p -> same_prog p q -> fair o1 -> fair o2 -> stable p -> one_void p ->
  build d1 o1 p = Ret b1 -> build d2 o2 q = Ret b2 -> same_counted (length (pg_defined p)) (b_g b1) (b_g b2).
Proof. exact stable_same_graph. Qed.
Print Assumptions C43_edges_as_often_partial.
Example C43_same_calls_example : let p := p_order [f_both; f_user] in let q := p_order [f_user; f_both] in
  wf_prog p /\ same_prog p q /\ one_void p /\ ~ stable p /\ trace p (pg_defines p) t_fg /\ trace q (pg_defines q) t_gf /\ (forall i l, calls p t_fg i l <-> calls q t_gf i l) /\
  exists b1 b2, build idd o_id p = Ret b1 /\ build idd o_id q = Ret b2 /\ gedges (b_g b1) <> gedges (b_g b2).
Proof. exact both_example. Qed.

(** C40: the functions that a function is shown to call through pointers, exactly. *)
Theorem C40_calls_through_pointers_exact :
  forall demangle o p b, wf_prog p -> fair o -> build demangle o p = Ret b ->
  exists void, void_type p void /\ forall i j, i < length (pg_defined p) -> j < length (pg_defined p) ->
  ((exists d nd, In (i, d) (gedges (b_g b)) /\ In (d, j) (gedges (b_g b)) /\ nth_error (gnodes (b_g b)) d = Some nd /\ ndashed nd = true) <-> through p void i j).
Proof. exact c40_exact. Qed.
Print Assumptions C40_calls_through_pointers_exact.
Example C40_exact_example : wf_prog p1 /\ (exists b, build idd o_id p1 = Ret b) /\ calls_sig p1 0 bin /\ typed p1 2 bin.
Proof.
  assert (Ty : typed p1 2 bin).
  { left. eexists. exists (lit "bar"). eexists. split; [eexists; split; reflexivity|]. split; [apply first_here; eexists; cbn; right; right; left; reflexivity|]. split; [cbn; right; right; left; reflexivity | reflexivity]. }
  split; [exact p1_wf|]. split; [eexists; vm_compute; reflexivity|]. split; [|exact Ty].
  split; [exists 2; exact Ty|]. exists bin. split; [body_tac | apply sig_loose_iff; reflexivity].
Qed.

(** C41: when a maximum is exact: all that the program leads to is accounted for.  Symbols outside of the executable, code that calls
    through registers, and pointers of a called type while some function has no type, are not. *)
Theorem C41_exact_maxima_of_a_program :
  forall demangle o p b tr, wf_prog p -> fair o -> build demangle o p = Ret b -> trace p (pg_defines p) tr ->
  forall g cs, max_stack true (b_g b) = Ret (g, cs) ->
  exists void, void_type p void /\ forall i m, i < length (pg_defined p) -> reported g i m ->
  (exact m <-> forall k, S_run.leads (arrow p tr void) (KReal i) k -> accounted p tr void k).
Proof. exact exact_program. Qed.
Print Assumptions C41_exact_maxima_of_a_program.
Example C41_exact_maxima_example : let q := p_order [f_both; f_user] in
  (wf_prog p_casts /\ trace p_casts (pg_defines p_casts) t_casts /\ exists b g cs, build idd o_id p_casts = Ret b /\ max_stack true (b_g b) = Ret (g, cs) /\ reported g 0 (MExact 24)) /\
  (wf_prog q /\ trace q (pg_defines q) t_fg /\ exists b g cs, build idd o_id q = Ret b /\ max_stack true (b_g b) = Ret (g, cs) /\ reported g 1 (MLower 24)).
Proof.
  split; (split; [apply wf_progb_sound; vm_compute; reflexivity|]); (split; [exact t_casts_trace || exact t_fg_trace|]); eexists; eexists; eexists; (split; [vm_compute; reflexivity|]); (split; [vm_compute; reflexivity|]);
    eexists; split; reflexivity.
Qed.
