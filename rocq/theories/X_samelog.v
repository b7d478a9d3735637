(** Examples for logs that differ in the order only. *)
From Coq Require Import Permutation.
From Verif Require Import M_base M_stack M_graph M_names M_thumb M_ty M_parse M_build M_run M_log S_names S_graph S_build S_run S_log S_samelog
  L_base L_build1 L_build2 L_build3 L_build4 L_build7 X_build L_build8 L_build9 L_run L_run2 X_log.
Local Open Scope string_scope.
Local Open Scope list_scope.

(** The program [l_p] with another order of its definitions. *)
Definition l_q : prog := mkProg OtherTarget (rev (pg_defines l_p)) [] (pg_sizes l_p) (pg_defined l_p) (pg_undefined l_p) [] None.
Lemma l_same : same_prog l_p l_q.
Proof. constructor; try reflexivity. apply perm_swap. Qed.
Lemma l_settled : log_settled l_p.
Proof.
  constructor.
  - intros i n n' d d' c c' I I' _ _ A A'. cbn in I, I'. each I; each I'; injection I as <- <-; injection I' as <- <-; try reflexivity; exfalso; cbn in A, A'; first [each A; discriminate A | each A'; discriminate A'].
  - intros i j f B B'. apply body_in in B, B'. destruct B as [m [d [I J]]], B' as [m' [d' [I' J']]]. cbn in I, I'. exfalso.
    each I; injection I as <- <-; cbn in J; each J; try discriminate J; injection J as <-; each I'; injection I' as <- <-; cbn in J'; each J'; discriminate J'.
Qed.
Lemma l_one_void : one_void l_p.
Proof. intros v w [V _]. exfalso. destruct V as [j [[ns [n [d [_ [_ [I E]]]]]] | [ns [n [_ [_ [_ []]]]]]]]. cbn in I. each I; injection I as <- <-; discriminate E. Qed.
Lemma l_logs : wf_prog l_p /\ same_prog l_p l_q /\ fair o_id /\ fair o_rev /\ one_void l_p /\ log_settled l_p /\
  exists m1 m2 r1 r2, report_log idd o_id None l_p = (m1, Ret r1) /\ report_log idd o_rev None l_q = (m2, Ret r2) /\ m1 <> m2 /\ length m1 = 8.
Proof.
  split; [exact l_wf|]. split; [exact l_same|]. split; [exact o_id_fair|]. split; [exact o_rev_fair|]. split; [exact l_one_void|]. split; [exact l_settled|].
  eexists. eexists. eexists. eexists. split; [vm_compute; reflexivity|]. split; [vm_compute; reflexivity|]. split; [discriminate | reflexivity].
Qed.

(** A symbol outside of the executable is called by name and under a cast: it is announced if the cast comes first. *)
Definition both (ds : list (str * define)) : prog := mkProg OtherTarget ds [] [(lit "main", 8%N); (lit "work", 8%N)] [at_ 4096 ["main"]; at_ 4112 ["work"]] [lit "ext"] [] None.
Definition by_name := fdef "main" (fsig [] None) [DirectCall (lit "ext")].
Definition by_cast := fdef "work" (fsig [] None) [BitcastCall (Some (lit "ext"))].
Lemma both_logs : exists p q, wf_prog p /\ same_prog p q /\ one_void p /\ exists r1 r2, report_log idd o_id None p = ([], Ret r1) /\ report_log idd o_id None q = ([no_information (lit "ext")], Ret r2).
Proof.
  exists (both [by_name; by_cast]), (both [by_cast; by_name]). split; [apply wf_progb_sound; vm_compute; reflexivity|]. split; [constructor; try reflexivity; apply perm_swap|].
  split; [intros v w [V _]; exfalso; destruct V as [j [[ns [n [d [_ [_ [I E]]]]]] | [ns [n [_ [_ [_ []]]]]]]]; cbn in I; each I; injection I as <- <-; discriminate E|].
  eexists. eexists. split; vm_compute; reflexivity.
Qed.
(** A function has two names, both defined with inline assembly: only the one that comes first is announced. *)
Definition twice (ds : list (str * define)) : prog := mkProg OtherTarget ds [] [(lit "one", 8%N)] [at_ 4096 ["one"; "two"]] [] [] None.
Definition asm_one := fdef "one" (fsig [] None) [Asm (lit "nop")].
Definition asm_two := fdef "two" (fsig [] None) [Asm (lit "wfi")].
Lemma twice_logs : exists p q, wf_prog p /\ same_prog p q /\ one_void p /\ (forall i f, ~ body p i (BitcastCall f)) /\
  exists r1 r2, report_log idd o_id None p = ([asm_note (lit "nop") (lit "one")], Ret r1) /\ report_log idd o_id None q = ([asm_note (lit "wfi") (lit "one")], Ret r2).
Proof.
  exists (twice [asm_one; asm_two]), (twice [asm_two; asm_one]). split; [apply wf_progb_sound; vm_compute; reflexivity|]. split; [constructor; try reflexivity; apply perm_swap|].
  split; [intros v w [V _]; exfalso; destruct V as [j [[ns [n [d [_ [_ [I E]]]]]] | [ns [n [_ [_ [_ []]]]]]]]; cbn in I; each I; injection I as <- <-; discriminate E|].
  split; [intros i f B; apply body_in in B; destruct B as [m [d [I J]]]; cbn in I; each I; injection I as <- <-; cbn in J; each J; discriminate J|].
  eexists. eexists. split; vm_compute; reflexivity.
Qed.
