(** C90: the log of runs on the same input. *)
From Coq Require Import Permutation.
From Verif Require Import M_base M_stack M_graph M_names M_thumb M_ty M_parse M_build M_run M_log S_graph S_build S_run S_log S_samelog X_build X_log L_samelog X_samelog.

(** C90, partial (one void function; inline assembly in one definition of each function; no symbol outside of the executable that is called both
    by name and under a cast): two reports on the same program, with other iteration orders, come with the same messages, in some order. *)
Theorem C90_same_messages_partial :
  forall demangle o1 o2 start p q m1 m2 r1 r2, wf_prog p -> same_prog p q -> fair o1 -> fair o2 -> one_void p -> log_settled p ->
  report_log demangle o1 start p = (m1, Ret r1) -> report_log demangle o2 start q = (m2, Ret r2) -> Permutation m1 m2.
Proof. exact report_log_same. Qed.
Print Assumptions C90_same_messages_partial.
Example C90_example_messages : wf_prog l_p /\ same_prog l_p l_q /\ fair o_id /\ fair o_rev /\ one_void l_p /\ log_settled l_p /\
  exists m1 m2 r1 r2, report_log idd o_id None l_p = (m1, Ret r1) /\ report_log idd o_rev None l_q = (m2, Ret r2) /\ m1 <> m2 /\ length m1 = 8.
Proof. exact l_logs. Qed.
(** Without the second condition, one run warns about a symbol where another one is silent ... *)
Theorem C90_same_messages_refuted :
  exists p q, wf_prog p /\ same_prog p q /\ one_void p /\
  exists r1 r2, report_log idd o_id None p = ([], Ret r1) /\ report_log idd o_id None q = ([no_information (lit "ext")], Ret r2).
Proof. exact both_logs. Qed.
Print Assumptions C90_same_messages_refuted.
(** ... and without the first one they quote different assembly. *)
Theorem C90_same_assembly_refuted :
  exists p q, wf_prog p /\ same_prog p q /\ one_void p /\ (forall i f, ~ body p i (BitcastCall f)) /\
  exists r1 r2, report_log idd o_id None p = ([asm_note (lit "nop") (lit "one")], Ret r1) /\ report_log idd o_id None q = ([asm_note (lit "wfi") (lit "one")], Ret r2).
Proof. exact twice_logs. Qed.
Print Assumptions C90_same_assembly_refuted.
