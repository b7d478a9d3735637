(** Examples for runs with other iteration orders. *)
From Coq Require Import Permutation.
From Verif Require Import M_base M_stack M_graph M_names M_thumb M_ty M_parse M_render M_build M_run M_wrapper M_driver S_names S_graph S_render S_build S_run S_driver S_same S_samelog
  L_base L_build1 L_build2 L_build3 L_build4 L_build7 X_build L_build8 L_build9 L_run L_u64 L_run2 L_driver1 L_driver3 L_driver4 L_driver5 X_driver X_total L_same L_same2.

Lemma ex_ordered : ordered ex_p.
Proof.
  split; [|split; [exact ex_one_void | apply Forall_u64; vm_compute; reflexivity]].
  assert (N : forall n, ~ created ex_p n).
  { intros n [[i [B [X [_ K]]]] | [i [B K]]].
    - apply body_in in B. destruct B as [m [d [I J]]]. cbn in I. each I; injection I as <- <-; cbn in J; each J; try discriminate J; injection J as <-; first [apply (K 1); live_tac | apply (K 0); live_tac | apply (K 2); live_tac].
    - apply body_in in B. destruct B as [m [d [I J]]]. cbn in I. each I; injection I as <- <-; cbn in J; each J; discriminate J. }
  intros n C. destruct (N n C).
Qed.
Lemma ex_settled : log_settled ex_p.
Proof.
  constructor.
  - intros i n n' d d' c c' I _ _ _ A _. exfalso. cbn in I. each I; injection I as <- <-; cbn in A; each A; discriminate A.
  - intros i j f B _. exfalso. apply body_in in B. destruct B as [m [d [I J]]]. cbn in I. each I; injection I as <- <-; cbn in J; each J; discriminate J.
Qed.
Lemma ex_same : sane ex_w /\ (forall m : list (str * define), Permutation (rev (rev m)) m) /\ fair o_id /\ (forall k, w_fault ex_w k = None) /\ (exists t, main idd ex_w = (t, 0%Z)) /\
  load ex_w (lit "x86_64-unknown-linux-gnu") (lit "my-app") (lit "t/cb.rlib") (lit "t/compiler_builtins-3f.ll") = Ret ex_p /\ stable ex_p /\ one_void ex_p /\ sizes_u64 ex_p /\ log_settled ex_p.
Proof.
  split; [apply ex_sane|]. split; [intros m; rewrite rev_involutive; reflexivity|]. split; [exact o_id_fair|]. split; [reflexivity|]. destruct ex_run as [t [R _]]. split; [exists t; exact R|]. split; [exact ex_load|]. destruct ex_ordered as [A [B C]]. repeat (split; [assumption|]). exact ex_settled.
Qed.
Lemma p3_same : wf_prog p3 /\ same_prog p3 p3' /\ fair o_id /\ fair o_rev /\ stable p3 /\ one_void p3 /\ sizes_u64 p3 /\ exists g cs, report idd o_id None p3 = Ret (g, cs) /\ gedges g = [(0, 1); (0, 3); (1, 3); (0, 4); (4, 1); (4, 2)].
Proof.
  destruct orders_example as [W [S [_ [St [Ov [Sz _]]]]]]. repeat (split; [first [assumption | exact o_id_fair | exact o_rev_fair]|]). eexists. eexists. split; vm_compute; reflexivity.
Qed.
Lemma p3_text : wf_prog p3 /\ same_prog p3 p3' /\ fair o_id /\ fair o_rev /\ stable p3 /\ one_void p3 /\ sizes_u64 p3 /\
  exists a b, output idd o_id None Dot p3 = Ret a /\ output idd o_rev None Dot p3' = Ret b /\ a <> b.
Proof.
  destruct orders_example as [W [S [_ [St [Ov [Sz _]]]]]]. repeat (split; [first [assumption | exact o_id_fair | exact o_rev_fair]|]). eexists. eexists. split; [vm_compute; reflexivity|]. split; [vm_compute; reflexivity|].
  intros E. vm_compute in E. discriminate E.
Qed.
Lemma memcmp_reports : exists p q, wf_prog p /\ same_prog p q /\ one_void p /\ sizes_u64 p /\ (exists g cs, report idd o_id None p = Ret (g, cs)) /\ exists msg, report idd o_id None q = Panic msg.
Proof.
  exists (p_memcmp_twice [d_main; d_work]), (p_memcmp_twice [d_work; d_main]). split; [apply wf_progb_sound; vm_compute; reflexivity|]. split; [constructor; try reflexivity; apply perm_swap|].
  split; [|split; [apply Forall_u64; vm_compute; reflexivity|]].
  - intros v w [V _]. exfalso. destruct V as [j [[ns [n [d [_ [_ [I E]]]]]] | [ns [n [_ [_ [_ []]]]]]]]. cbn in I. each I; injection I as <- <-; discriminate E.
  - split; eexists; [eexists|]; vm_compute; reflexivity.
Qed.
Lemma list_example : exists g1 g2 f f', same_nodes g1 g2 f f' /\ (forall nd, In nd (gnodes g1) -> one_line (nname nd)) /\ node_count g1 = 5 /\ gedges g1 <> gedges g2.
Proof.
  destruct p3_same as [W [S [F1 [F2 [St [Ov [Sz [g [cs [R _]]]]]]]]]]. destruct (same_report idd o_id o_rev None p3 p3' g cs W S F1 F2 St Ov Sz R) as [g2 [c2 [f [f' [R2 [Sn _]]]]]]. exists g, g2, f, f'. split; [exact Sn|].
  assert (X : exists x, report idd o_id None p3 = Ret x /\ forallb (fun nd => forallb (fun c => negb (Ascii.eqb c "010")) (nname nd)) (gnodes (fst x)) = true /\ node_count (fst x) = 5 /\ gedges (fst x) = [(0, 1); (0, 3); (1, 3); (0, 4); (4, 1); (4, 2)]).
  { eexists. split; [vm_compute; reflexivity|]. repeat split; vm_compute; reflexivity. }
  assert (Y : exists x, report idd o_rev None p3' = Ret x /\ gedges (fst x) = [(1, 3); (0, 1); (0, 3); (0, 4); (4, 2); (4, 1)]) by (eexists; split; vm_compute; reflexivity).
  destruct X as [x [X1 [X2 [X3 X4]]]]. rewrite R in X1. injection X1 as <-. destruct Y as [y [Y1 Y2]]. rewrite R2 in Y1. injection Y1 as <-. cbn [fst] in *. split; [|split; [exact X3 | rewrite X4, Y2; discriminate]].
  intros nd I. rewrite forallb_forall in X2. specialize (X2 nd I). intros K. rewrite forallb_forall in X2. specialize (X2 _ K). discriminate X2.
Qed.
