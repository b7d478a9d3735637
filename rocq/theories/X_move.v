(** Examples: a world with a Thumb executable, and a program that debug builds accept at one place only. *)
From Verif Require Import M_base M_stack M_graph M_analysis M_thumb M_ty M_parse M_build M_run M_wrapper M_driver M_cli M_debug S_driver S_build S_move L_debug5 X_build X_driver X_machine.
From Coq Require Import Lia ZArith.
Local Open Scope N_scope.
Local Open Scope string_scope.
Local Open Scope list_scope.

(** `sub sp, #16; bl leaf; bx lr`, `sub sp, #8; bx lr` and `push {lr}; bx lr`; the addresses of the symbols are odd. *)
Definition th_text : str := map ascii_of_N [132; 176; 0; 240; 1; 248; 112; 71; 130; 176; 112; 71; 0; 181; 112; 71].
Definition th_config : option str := Some (lit "thumbv7m-none-eabi").
Definition th_w : world := let w := ex_world ex_args th_config good None ex_stderr (Some 0%Z) in
  mkWorld (w_wrapper w) (w_argv w) (w_rustc w) (w_hash w) (w_host w) (w_meta w) (w_override w) (w_args w) (w_project w) (w_root w) (w_cfg w) (w_exe w) (w_set_times w)
    (w_exists w) (w_walk w) (w_cargo w) (w_utf8 w) (w_path w) (w_dir w) (w_read w) (w_object w) (w_archive w)
    (fun _ => Ret (mkElf [(4097, mkSym [lit "main"] 8); (4105, mkSym [lit "leaf"] 4); (4109, mkSym [lit "memcpy"] 4)] []))
    (fun _ => Ret [(4096, lit "$t"); (536870912, lit "_stack_start"); (4104, lit "$t.1")]) (fun _ => Some (4096, th_text)) (w_defines_order w) (w_orders w) (w_fault w).
Lemma th_run : exists t, main idd th_w = (t, 0%Z) /\ printed t = [ex_out].
Proof. eexists. split; [vm_compute; reflexivity | vm_compute; reflexivity]. Qed.
Lemma th_roomy : roomy 134217728 th_w.
Proof.
  split; cbn [th_w w_executable w_symtab w_text].
  - intros file s a y E H. injection E as <-. cbn [el_defined] in H. destruct H as [H|[H|[H|[]]]]; injection H as <- _; reflexivity.
  - intros file s a n E H _. injection E as <-. destruct H as [H|[H|[H|[]]]]; injection H as <- _; reflexivity.
  - intros file a text E. injection E as <- <-. vm_compute. reflexivity.
Qed.
Lemma m_room : room 4096 m_p.
Proof.
  split; cbn [m_p pg_defined pg_tags pg_text].
  - intros a s H. destruct H as [H|[H|[H|[]]]]; injection H as <- _; reflexivity.
  - intros a t H. destruct H as [H|[]]; injection H as <- _; reflexivity.
  - intros a text H. injection H as <- <-. vm_compute. reflexivity.
Qed.
(** [high_p] of C88 at a low address. *)
Definition low_p : prog := mkProg Thumbv7m [] [] [] [(4096, mkSym [lit "f"] 4); (4100, mkSym [lit "g"] 2)] [] [(4096, TThumb)] (Some (4096, map ascii_of_N [0; 224; 0; 191; 112; 71])).
Lemma low_moves : wf_prog low_p /\ room (hi - 4096) low_p /\ (exists g cs, report_d idd o_id None low_p = Ret (g, cs)) /\
  report_d idd o_id None (moved (hi - 4096) low_p) = Panic "attempt to add with overflow".
Proof.
  split; [apply wf_progb_sound; vm_compute; reflexivity|]. split.
  - split; cbn [low_p pg_defined pg_tags pg_text].
    + intros a s H. destruct H as [H|[H|[]]]; injection H as <- _; reflexivity.
    + intros a t H. destruct H as [H|[]]; injection H as <- _; reflexivity.
    + intros a text H. injection H as <- <-. vm_compute. reflexivity.
  - split; [eexists; eexists; vm_compute; reflexivity | vm_compute; reflexivity].
Qed.
