(** Examples for reports below a start point. *)
From Verif Require Import M_base M_stack M_graph M_names M_render M_ty M_parse M_build M_run M_wrapper M_driver S_render S_build S_run S_driver S_same S_part X_build X_driver X_finite L_build1 L_build5 L_build8 L_run L_part L_part2.
Local Open Scope string_scope.
Local Open Scope list_scope.

Lemma circles_part : wf_prog p_circles /\ fair o_id /\ sizes_u64 p_circles /\ denotes idd p_circles (lit "odd") (KReal 2) /\ no_start idd p_circles (Some (lit "none")) /\
  exists g cs g' cs', report idd o_id None p_circles = Ret (g, cs) /\ report idd o_id (Some (lit "odd")) p_circles = Ret (g', cs') /\
  map nmax (gnodes g) = [Some (MLower 24); Some (MLower 8); Some (MLower 8)] /\ gedges g = [(0, 1); (0, 0); (1, 2); (2, 1)] /\ cs = [[1; 2]; [0]] /\
  map nmax (gnodes g') = [Some (MLower 8); Some (MLower 8)] /\ gedges g' = [(0, 1); (1, 0)] /\ cs' = [[0; 1]].
Proof.
  assert (W : wf_prog p_circles) by apply circles_wf. split; [exact W|]. split; [exact o_id_fair|]. split.
  { intros n k I. cbn in I. intuition (match goal with H : (_, _) = (_, _) |- _ => injection H as <- <- end; reflexivity). }
  split.
  { assert (C : chosen p_circles 2 (lit "odd")) by (apply chosen_find; vm_compute; reflexivity). exists (lit "odd"). split; [left; split; [left; exists 2; exact C | reflexivity] | left; exists 2; split; [exact C | reflexivity]]. }
  split.
  { destruct (build idd o_id p_circles) as [b| | |] eqn:E; [|exfalso; vm_compute in E; discriminate E..].
    destruct (build_spec _ _ _ _ W o_id_fair E) as [ks [void [G [_ [_ [Hi _]]]]]]. intros s k X. injection X as <-. apply (proj1 (resolve_none idd o_id p_circles b W o_id_fair E ks void G Hi (lit "none"))). vm_compute in E. injection E as <-. vm_compute. reflexivity. }
  do 4 eexists. split; [vm_compute; reflexivity|]. split; [vm_compute; reflexivity|]. repeat split.
Qed.
Lemma started_runs : sane ex_w /\ (forall k, w_fault ex_w k = None) /\ exists t t', main idd (started None ex_w) = (t, 0%Z) /\ main idd (started (Some (lit "leaf")) ex_w) = (t', 0%Z) /\ printed t <> printed t' /\ deeds t = deeds t'.
Proof. split; [apply ex_sane|]. split; [reflexivity|]. eexists. eexists. split; [vm_compute; reflexivity|]. split; [vm_compute; reflexivity|]. split; [vm_compute; discriminate | vm_compute; reflexivity]. Qed.
