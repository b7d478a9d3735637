(** Two runs that log nothing (C106). *)
From Verif Require Import M_base M_stack M_graph M_names M_thumb M_ty M_parse M_render M_build M_run M_log M_wrapper M_driver.
From Verif Require Import S_names S_graph S_render S_sig S_build S_run S_log S_driver S_thumb S_machine S_silent S_silent2 L_run L_driver1 L_driver2 L_driver5 L_silent L_silent2 X_build X_driver X_machine X_machine2.

Lemma ex_quiet : wf_prog ex_p /\ exists g cs, report_log idd o_rev None ex_p = ([], Ret (g, cs)).
Proof. split; [apply wf_progb_sound; vm_compute; reflexivity|]. do 2 eexists. vm_compute. reflexivity. Qed.
Lemma m_quiet : wf_prog m_p /\ exists g cs, report_log idd o_id None m_p = ([], Ret (g, cs)).
Proof. split; [apply wf_progb_sound; vm_compute; reflexivity|]. do 2 eexists. vm_compute. reflexivity. Qed.
Lemma ex_silent_run : sane ex_w /\ (exists t, main idd ex_w = (t, 0%Z) /\ printed t = [ex_out] /\ messages t = []) /\ a_format (w_args ex_w) = Dot /\
  load ex_w (lit "x86_64-unknown-linux-gnu") (lit "my-app") (lit "t/cb.rlib") (lit "t/compiler_builtins-3f.ll") = Ret ex_p /\
  (forall g cycles nd, report idd o_rev None ex_p = Ret (g, cycles) -> In nd (gnodes g) -> no_backslash (nname nd)) /\
  (forall i c, avoids ex_p i c) /\ fits ex_p /\ runs ex_p 0 [0; 1] /\ depth ex_p [0; 1] 24.
Proof.
  split; [apply ex_sane|]. split; [eexists; split; [|split]; vm_compute; reflexivity|]. split; [reflexivity|]. split; [exact ex_load|]. split; [exact ex_names|]. split; [|split; [exact ex_fits | exact ex_runs]].
  intros i. destruct ex_quiet as [W [g [cs E]]]. exact (proj1 (silent_covered idd o_rev None ex_p g cs W o_rev_fair E i) (ex_covered i)).
Qed.
Lemma m_silent_run : sane m_w /\ (exists t, main idd m_w = (t, 0%Z) /\ printed t = [m_out] /\ messages t = []) /\ a_format (w_args m_w) = Dot /\
  load m_w (lit "thumbv7m-none-eabi") (lit "my-app") (lit "t/cb.rlib") (lit "t/compiler_builtins-3f.ll") = Ret m_p /\
  (forall g cycles nd, report idd o_id None m_p = Ret (g, cycles) -> In nd (gnodes g) -> no_backslash (nname nd)) /\
  fits m_p /\ layout m_p m_lay /\ wf_prog m_p /\ (exists g cs, report_log idd o_id None m_p = ([], Ret (g, cs))) /\ (forall i, steady m_p m_lay i) /\
  executes m_p m_lay 0 [mkFrame 1 2 8; mkFrame 0 2 8].
Proof.
  split; [exact m_sane|]. split; [eexists; split; [|split]; vm_compute; reflexivity|]. split; [reflexivity|]. split; [exact m_load|]. split; [exact m_names|]. split; [exact m_fits|].
  split; [exact m_layout|]. destruct m_quiet as [W [g [cs E]]]. split; [exact W|]. split; [exists g, cs; exact E|]. split; [|exact (proj1 m_exec)].
  intros i. destruct (m_trusted i) as [T1 T2 T3]. pose proof (proj1 (silent_covered idd o_id None m_p g cs W o_id_fair E i) T3) as Av.
  split; [exact T1|]. split; [exact T2|]. intros _. split; [exact (Av OfMemcmp)|]. split; [exact (Av OfFormatting) | exact (Av OfSecondType)].
Qed.
