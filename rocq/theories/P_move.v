(** C89: the result does not depend on the addresses for which the program is linked. *)
From Verif Require Import M_base M_stack M_graph M_names M_thumb M_ty M_parse M_render M_write M_build M_run M_log M_wrapper M_driver M_cli M_debug S_graph S_build S_driver S_move
  M_analysis X_build X_driver X_machine L_move X_move.
Local Open Scope N_scope.

(** C89: if every function, mapping symbol and the machine code of a program are moved by the same distance, and the code is still below the
    end of the address space, then the graph, the log and the report are the same. *)
Theorem C89_graph_does_not_depend_on_the_place :
  forall demangle o d p, (is_thumb (pg_target p) = true -> room d p) -> build demangle o (moved d p) = build demangle o p.
Proof. exact build_up. Qed.
Print Assumptions C89_graph_does_not_depend_on_the_place.
Theorem C89_report_and_log_do_not_depend_on_the_place :
  forall demangle o start d p, (is_thumb (pg_target p) = true -> room d p) ->
  report_log demangle o start (moved d p) = report_log demangle o start p /\ report demangle o start (moved d p) = report demangle o start p.
Proof. intros demangle o start d p R. exact (conj (report_log_up demangle o start d p R) (report_up demangle o start d p R)). Qed.
Print Assumptions C89_report_and_log_do_not_depend_on_the_place.
Example C89_example : (is_thumb (pg_target m_p) = true -> room 4096 m_p) /\ is_thumb (pg_target m_p) = true /\ exists b, build idd o_id m_p = Ret b /\ gedges (b_g b) = [(0, 1); (1, 2)]%nat.
Proof. split; [intros _; exact m_room|]. split; [reflexivity|]. destruct m_run as [b [_ [_ [_ [E [_ [_ [_ G]]]]]]]]. exists b. exact (conj E G). Qed.

(** The same for the whole tool: relinking the executable further up by an even distance changes neither the messages, nor the files touched,
    nor the commands, nor the output, nor the exit code. *)
Theorem C89_run_does_not_depend_on_the_place :
  forall demangle d w, N.even d = true -> (forall config, w_project w = Ret config -> is_thumb (classify_target (target_of w config)) = true -> roomy d w) ->
  main demangle (relinked d w) = main demangle w.
Proof. exact main_up. Qed.
Print Assumptions C89_run_does_not_depend_on_the_place.
Theorem C89_process_does_not_depend_on_the_place :
  forall demangle d w, N.even d = true -> roomy d w -> launch demangle (relinked d w) = launch demangle w.
Proof. exact launch_up. Qed.
Print Assumptions C89_process_does_not_depend_on_the_place.
Example C89_example_run : N.even 134217728 = true /\ roomy 134217728 th_w /\ is_thumb (classify_target (target_of th_w th_config)) = true /\
  exists t, main idd th_w = (t, 0%Z) /\ printed t = [ex_out].
Proof. exact (conj eq_refl (conj th_roomy (conj eq_refl th_run))). Qed.

(** A debug build of the tool can stop at the new place: its branches may cross the middle of the address space there. *)
Theorem C89_debug_build_refuted :
  exists demangle o d p, wf_prog p /\ room d p /\ (exists g cs, report_d demangle o None p = Ret (g, cs)) /\
  report_d demangle o None (moved d p) = Panic "attempt to add with overflow".
Proof. eexists. eexists. eexists. eexists. exact low_moves. Qed.
Print Assumptions C89_debug_build_refuted.
