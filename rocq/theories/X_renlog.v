(** Example of the logs of programs that differ in the names of their functions. *)
From Verif Require Import M_base M_stack M_graph M_filter M_names M_thumb M_ty M_parse M_build M_run M_log S_names S_build S_log S_rename S_renlog X_build X_rename.
Local Open Scope string_scope.
Local Open Scope list_scope.

(** Two functions with the same name up to the hash, one of them without a size and with inline assembly. *)
Definition t_1 := "lib::run::h00000000000000b1".
Definition t_2 := "lib::run::h00000000000000b2".
Definition p_noisy : prog := mkProg OtherTarget
  [fdef q_main (fsig [] None) [DirectCall (lit t_1); DirectCall (lit t_2); DirectCall (lit "llvm.ctlz.i32")]; fdef t_1 (fsig [] None) [Asm (lit "nop")]; fdef t_2 (fsig [] None) []] []
  [(lit q_main, 8%N); (lit t_2, 24%N)] [at_ 4096 [q_main]; at_ 4112 [t_1]; at_ 4128 [t_2]] [] [] None.
(** The order of the two hashes changes. *)
Definition r_noisy : str -> str := by_list [(lit t_1, lit "lib::run::h00000000000000c2"); (lit t_2, lit "lib::run::h00000000000000c1")].
Lemma noisy_example : distinct (names_of p_noisy) r_noisy /\ keeps idd p_noisy r_noisy /\ same_start idd p_noisy r_noisy (Some (lit "lib::run")) (Some (lit "lib::run")) /\
  fst (report_log idd o_id (Some (lit "lib::run")) p_noisy) =
    [no_usage (lit t_1); lowering_note (lit "llvm.ctlz.i32"); asm_note (lit "nop") (lit t_1);
     start_multiple (lit "lib::run") (debug_list [lit t_1; lit t_2]); start_missing] /\
  fst (report_log idd o_id (Some (lit "lib::run")) (renamed r_noisy p_noisy)) =
    [no_usage (lit "lib::run::h00000000000000c2"); lowering_note (lit "llvm.ctlz.i32"); asm_note (lit "nop") (lit "lib::run::h00000000000000c2");
     start_multiple (lit "lib::run") (debug_list [lit "lib::run::h00000000000000c1"; lit "lib::run::h00000000000000c2"]); start_missing].
Proof.
  split; [apply distinct_by; vm_compute; reflexivity|]. split; [apply keeps_by; vm_compute; reflexivity|]. split; [apply start_by; vm_compute; reflexivity|]. split; vm_compute; reflexivity.
Qed.
