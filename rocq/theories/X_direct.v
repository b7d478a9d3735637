(** A program that calls `memcmp`, which is shown under another name, by a branch to its address (C107). *)
From Verif Require Import M_base M_stack M_graph M_analysis M_filter M_names M_thumb M_ty M_parse M_build M_run S_names S_sig S_thumb L_base L_ir2 L_driver3 L_filter2 S_graph S_build S_run S_machine S_direct X_build X_below X_fold X_types L_build1 L_build3 L_build4 L_build6 L_build7 L_build8 L_run L_run2 L_machine X_machine.
Local Open Scope N_scope.
Local Open Scope list_scope.

(** The code is that of [m_p]: `memcmp`, also `bcmp`, is its foo. *)
Definition d_p : prog := mkProg Thumbv7m
  [fdef "main" (fsig [] None) [Label; DirectCall memcmp; Other]; fdef "memcmp" (fsig [TInt 32] None) [Label; DirectCall (lit "bar"); Other]] [(lit "bar", Some (fsig [] None))]
  [(lit "main", 8); (lit "bcmp", 8)]
  [(4096, mkSym [lit "main"] 8); (4104, mkSym [memcmp; lit "bcmp"] 12); (4116, mkSym [lit "bar"] 2)] []
  [(4096, TThumb)] (Some (4096, encode m_main ++ encode m_foo ++ encode m_bar)).
Lemma d_wf : wf_prog d_p.
Proof. apply wf_progb_sound. vm_compute. reflexivity. Qed.
Lemma d_run : exists b g cs nd, build idd o_id d_p = Ret b /\ finish idd None b = Ret (g, cs) /\ nth_error (gnodes g) 0 = Some nd /\ nmax nd = Some (MExact 16).
Proof. eexists. eexists. eexists. eexists. split; [vm_compute; reflexivity|]. split; [vm_compute; reflexivity|]. split; reflexivity. Qed.
Lemma d_layout : layout d_p m_lay.
Proof.
  constructor.
  - reflexivity.
  - intros a s [H|[H|[H|[]]]]; injection H as <- <-; reflexivity.
  - intros [|[|[|i]]] addr s H; [..|destruct i; discriminate H]; injection H as <- <-; do 3 eexists; (split; [reflexivity|]); (split; [reflexivity|]);
      (split; [apply code_size_iff; vm_compute; reflexivity|]); (split; [apply slice_iff; vm_compute; reflexivity|]); apply m_ok; try reflexivity; vm_compute; discriminate.
Qed.
Lemma d_frames i pos u : frame_at d_p m_lay i pos u -> frame_at m_p m_lay i pos u.
Proof. induction 1 as [|pos u x pos' u' F IH I G L U]; [constructor | exact (fa_step m_p m_lay i pos u x pos' u' IH I G L U)]. Qed.
Lemma d_promised i : promised d_p m_lay i.
Proof.
  intros m R pos u F. assert (L : llvm_size d_p i (Some m)) by (inversion R; assumption). destruct L as [n [C I]]. pose proof (live_lt d_p _ _ (chosen_live d_p _ _ C)) as Li. cbn in Li.
  cbn in I. each I; injection I as <- <-; apply (m_frames i pos u Li), d_frames, F.
Qed.
Lemma d_registers i : ~ registers m_lay i.
Proof. intros [pos [x [I R]]]. destruct i as [|[|[|i]]]; cbn [m_lay] in I; vm_compute in I; each I; injection I as <- <-; vm_compute in R; discriminate R. Qed.
Lemma d_dependable i : dependable d_p m_lay i.
Proof. constructor; [exact (m_seen i) | exact (d_promised i) | intros R; elim (d_registers i R)]. Qed.
Lemma d_uncovered : ~ covered_fn d_p 0.
Proof.
  intros C. assert (B : body d_p 0 (DirectCall memcmp)) by (rewrite bodies_ok; vm_compute; tauto). assert (L : live d_p memcmp 1) by live_tac.
  pose proof (cv_memcmp _ _ C B 1%nat L) as K. assert (K' : chosen d_p 1 (lit "bcmp")) by (apply chosen_find; vm_compute; reflexivity). pose proof (chosen_fun d_p _ _ _ K K') as X. discriminate X.
Qed.
Lemma d_exec : executes d_p m_lay 0 [mkFrame 1 2 8; mkFrame 0 2 8].
Proof.
  apply ex_step with [mkFrame 1 0 0; mkFrame 0 2 8].
  - apply ex_step with [mkFrame 0 2 8].
    + apply ex_step with [mkFrame 0 0 0]; [constructor; cbn; lia|]. apply ma_step with (I16 0xb580); [left; reflexivity | exact (go_next _ 0 (I16 0xb580)) | reflexivity | vm_compute; discriminate].
    + eapply (ma_call d_p m_lay 0 4096 2 8 (I32 0xf000 0xf801) 2%Z 1); [right; left; reflexivity | vm_compute; reflexivity | reflexivity | eexists; vm_compute; reflexivity].
  - apply ma_step with (I16 0xb510); [left; reflexivity | exact (go_next _ 0 (I16 0xb510)) | reflexivity | vm_compute; discriminate].
Qed.
