(** Examples for the properties on success. *)
From Coq Require Import Permutation.
From Verif Require Import M_base M_stack M_graph M_names M_thumb M_ty M_parse M_render M_build M_run M_wrapper M_driver.
From Verif Require Import S_names S_graph S_render S_build S_run S_driver L_base L_build1 L_build2 L_build3 L_build4 L_build7 X_build L_build8 L_build9 L_run L_run2 L_driver1 L_driver3 L_driver4 L_driver5 X_driver X_machine L_total.
Local Open Scope string_scope.
Local Open Scope list_scope.

Lemma p2_understood : wf_prog p2 /\ understood p2 /\ wf_prog p_bug /\ ~ understood p_bug.
Proof.
  assert (W : wf_prog p2) by (apply wf_progb_sound; vm_compute; reflexivity). assert (W' : wf_prog p_bug) by (apply wf_progb_sound; vm_compute; reflexivity).
  split; [exact W|]. split; [|split; [exact W'|]].
  - apply (build_iff idd o_id p2 W). eexists. vm_compute. reflexivity.
  - intros U. apply (build_iff idd o_id p_bug W') in U. destruct U as [b E]. vm_compute in E. discriminate E.
Qed.
(** One function calls `memcmp` under a cast, another one by its name, and it is nowhere defined. *)
Definition p_memcmp_twice (ds : list (str * define)) : prog := mkProg OtherTarget ds [] [(lit "main", 8%N)] [at_ 4096 ["main"]; at_ 4104 ["work"]] [] [] None.
Definition d_main := fdef "main" (fsig [] None) [DirectCall (lit "memcmp")].
Definition d_work := fdef "work" (fsig [] None) [BitcastCall (Some (lit "memcmp"))].
Lemma memcmp_twice : exists p q, wf_prog p /\ wf_prog q /\ same_prog p q /\ (exists b, build idd o_id p = Ret b) /\ exists msg, build idd o_id q = Panic msg.
Proof.
  exists (p_memcmp_twice [d_main; d_work]), (p_memcmp_twice [d_work; d_main]). split; [apply wf_progb_sound; vm_compute; reflexivity|]. split; [apply wf_progb_sound; vm_compute; reflexivity|].
  split; [constructor; try reflexivity; apply perm_swap|]. split; eexists; vm_compute; reflexivity.
Qed.
Lemma p3_memcmp i k : body p3 i (BitcastCall (Some memcmp)) -> body p3 k (DirectCall memcmp) -> (exists j, live p3 memcmp j) \/ In memcmp (pg_undefined p3).
Proof. intros B _. exfalso. apply body_in in B. destruct B as [n [d [I J]]]. cbn in I. each I; injection I as <- <-; cbn in J; each J; discriminate J. Qed.
Lemma ex_one_void : one_void ex_p.
Proof. intros v w [V _]. exfalso. destruct V as [j [[ns [n [d [_ [_ [I E]]]]]] | [ns [n [_ [_ [_ []]]]]]]]. cbn in I. each I; injection I as <- <-; discriminate E. Qed.
Lemma ex_understood : wf_prog ex_p /\ understood ex_p /\ names_known idd ex_p None.
Proof.
  assert (W : wf_prog ex_p) by (apply wf_progb_sound; vm_compute; reflexivity). split; [exact W|].
  apply (proj1 (output_iff idd o_id None Dot ex_p W o_id_fair ex_one_void (or_introl eq_refl))). eexists. vm_compute. reflexivity.
Qed.
Lemma ex_success : exists t, main idd ex_w = (t, 0%Z) /\ a_start (w_args ex_w) = None /\ (exists command, In (lit "cargo", command) (commands t)) /\
  (forall command, w_cargo ex_w command = Ret (concat (map (fun n => note_line n ++ ["010"%char]) ex_notes), Some 0%Z)) /\
  (forall target file rlib ll p, In (lit "rustc", [lit "--print=cfg"; lit "--target"; target]) (commands t) -> one_artifact (w_args ex_w) file ->
     latest rlib_of ex_notes (Some rlib) -> latest ll_of ex_notes (Some ll) -> load ex_w target file rlib ll = Ret p ->
     one_void p).
Proof.
  destruct ex_run as [t [R [_ [_ C]]]]. exists t. split; [exact R|]. split; [reflexivity|]. rewrite C. split; [eexists; right; left; reflexivity|]. split; [reflexivity|].
  intros target file rlib ll p T A L1 L2 L. destruct T as [T|[T|[]]]; [|discriminate T]. injection T as <-. destruct A as [[A _]|[_ A]]; [discriminate A|]. injection A as <-.
  assert (Some rlib = Some (lit "t/cb.rlib")) by (apply (latest_unique rlib_of ex_notes); [exact L1 | exact (last_of_latest rlib_of ex_notes)]).
  assert (Some ll = Some (lit "t/compiler_builtins-3f.ll")) by (apply (latest_unique ll_of ex_notes); [exact L2 | exact (last_of_latest ll_of ex_notes)]).
  injection H as ->. injection H0 as ->. assert (Q : Ret p = Ret ex_p) by (etransitivity; [symmetry; exact L | exact ex_load]). injection Q as ->. exact ex_one_void.
Qed.
