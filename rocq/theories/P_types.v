(** C40 and C58: functions with several types, functions whose code is not read, programs without machine code, inline assembly. *)
From Verif Require Import M_base M_stack M_graph M_names M_thumb M_ty M_parse M_render M_build M_run M_log S_graph S_sig S_build S_run S_types S_log L_run X_build X_machine X_types.

(** C40: a function with two names, whose definitions have different types, is found by one of its types only. *)
Theorem C40_second_type_refuted :
  exists p i s j, wf_prog p /\ body p i (IndirectCall s) /\ bears p j s /\ sig_matches s s /\
  exists b, build idd o_id p = Ret b /\ ~ (exists d, In (i, d) (gedges (b_g b)) /\ In (d, j) (gedges (b_g b))).
Proof. do 4 eexists. exact apart_lost. Qed.
Print Assumptions C40_second_type_refuted.
(** C58: the exact maximum is then too small for an execution, although nothing else is overlooked. *)
Theorem C58_second_type_refuted :
  exists demangle o p, wf_prog p /\ fits p /\ (exists g cs, report demangle o None p = Ret (g, cs) /\ reported g 0 (MExact 12)) /\ runs p 0 [0; 1] /\ depth p [0; 1] 108 /\ covered_except p OneType.
Proof. do 3 eexists. exact apart_runs. Qed.
Print Assumptions C58_second_type_refuted.
(** C58: the exact maximum is also too small if a function has a stack size but no LLVM IR, and machine code is not read: what it calls is not known. *)
Theorem C58_unread_code_refuted :
  exists demangle o p, wf_prog p /\ fits p /\ (exists g cs, report demangle o None p = Ret (g, cs) /\ reported g 0 (MExact 24)) /\ runs p 0 [0; 1; 2] /\ depth p [0; 1; 2] 124 /\ covered_except p CodeRead.
Proof. do 3 eexists. exact foreign_runs. Qed.
Print Assumptions C58_unread_code_refuted.
(** C58: without a section .text, which is logged as an error, the memory intrinsics of a thumb program are overlooked, and the exact maximum can be too small. *)
Theorem C58_without_text_refuted :
  exists demangle o p, wf_prog p /\ fits p /\ (exists g cs, report_log demangle o None p = ([(M_log.Error, lit ".text section not found")], Ret (g, cs)) /\ reported g 0 (MExact 8)) /\
  runs p 0 [0; 1] /\ depth p [0; 1] 108 /\ covered_except p HasText.
Proof. do 3 eexists. exact textless_runs. Qed.
Print Assumptions C58_without_text_refuted.
(** C58: nor are calls that inline assembly makes through registers taken into account; what is logged is about the stack that the assembly uses itself. *)
Theorem C58_assembly_calls_refuted :
  exists demangle o p code n, wf_prog p /\ fits p /\ (exists g cs, report_log demangle o None p = ([asm_note code n], Ret (g, cs)) /\ reported g 0 (MExact 8)) /\
  runs p 0 [0; 1] /\ depth p [0; 1] 16 /\ covered_except p AsmQuiet.
Proof. do 5 eexists. exact calling_runs. Qed.
Print Assumptions C58_assembly_calls_refuted.
(** C58: where machine code is read, this does not happen. *)
Theorem C58_machine_code_is_read :
  forall demangle o p b i, wf_prog p -> build demangle o p = Ret b -> is_thumb (pg_target p) = true -> pg_text p <> None -> ~ unread p i.
Proof. exact code_read. Qed.
Print Assumptions C58_machine_code_is_read.
(** The hypotheses hold of the program of C64, where `bar` has no LLVM IR. *)
Example machine_code_case : exists b, build idd o_id m_p = Ret b /\ wf_prog m_p /\ is_thumb (pg_target m_p) = true /\ pg_text m_p <> None.
Proof. destruct m_run as [b [g [cs [nd [E _]]]]]. exists b. split; [exact E|]. split; [exact m_wf|]. split; [reflexivity | discriminate]. Qed.
