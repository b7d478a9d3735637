(** Further examples for C107. *)
From Verif Require Import M_base M_stack M_graph M_names M_thumb M_ty M_parse M_render M_build M_run M_log M_wrapper M_driver.
From Verif Require Import L_log S_names S_graph S_render S_sig S_build S_run S_log S_driver S_thumb S_machine S_direct S_silent S_silent2 X_build L_direct X_machine X_machine2 X_direct X_silent3.
Local Open Scope N_scope.
Local Open Scope list_scope.

Lemma m_direct : sane m_w /\ (exists t, main idd m_w = (t, 0%Z) /\ printed t = [m_out]) /\ a_format (w_args m_w) = Dot /\
  load m_w (lit "thumbv7m-none-eabi") (lit "my-app") (lit "t/cb.rlib") (lit "t/compiler_builtins-3f.ll") = Ret m_p /\
  (forall g cycles nd, report idd o_id None m_p = Ret (g, cycles) -> In nd (gnodes g) -> no_backslash (nname nd)) /\
  fits m_p /\ layout m_p m_lay /\ (forall i, ~ registers m_lay i /\ dependable m_p m_lay i) /\
  executes m_p m_lay 0 [mkFrame 1 2 8; mkFrame 0 2 8].
Proof.
  split; [exact m_sane|]. split; [exact m_main_run|]. split; [reflexivity|]. split; [exact m_load|]. split; [exact m_names|]. split; [exact m_fits|].
  split; [exact m_layout|]. split; [|exact (proj1 m_exec)]. intros i. split; [exact (d_registers i)|]. destruct (m_trusted i) as [T1 T2 _]. constructor; [exact T1 | exact T2 | intros R; elim (d_registers i R)].
Qed.
Lemma registers_exceed : exists p lay g cs n fs, wf_prog p /\ fits p /\ layout p lay /\ (forall i, seen p lay i /\ promised p lay i) /\
  report idd o_id None p = Ret (g, cs) /\ reported g 0 (MExact n) /\ executes p lay 0 fs /\ n < in_use fs.
Proof.
  destruct k_memcmp_slips as [W [F [La [[g [cs [n [fs [R [M [X L]]]]]]] H]]]]. exists k_memcmp, k_lay, g, cs, n, fs. split; [exact W|]. split; [exact F|]. split; [exact La|].
  split; [intros i; destruct (H i) as [H1 [H2 _]]; split; assumption|]. split; [rewrite <- report_erase, R; reflexivity|]. split; [exact M|]. split; assumption.
Qed.
