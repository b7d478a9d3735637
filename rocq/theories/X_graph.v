(** Concrete call graphs used by the examples that accompany the theorems. *)
From Verif Require Import M_base M_stack M_graph M_analysis S_graph.
Local Open Scope N_scope.

Definition nd (s : string) (l : local) : node := {| nname := lit s; nlocal := l; nmax := None; ndashed := false |}.

(** main -> a <-> b -> ext (unknown);  h -> leaf, h -> z, z -> z (uses no stack). *)
Definition ex : graph node :=
  mkG [nd "main" (LExact 8); nd "a" (LExact 16); nd "b" (LExact 4); nd "ext" LUnknown;
       nd "leaf" (LExact 24); nd "h" (LExact 32); nd "z" (LExact 0)]
      [(0, 1); (1, 2); (2, 1); (2, 3); (5, 4); (5, 6); (6, 6)]%nat.

Definition ex_done : graph node * list (list nat) :=
  match max_stack true ex with Ret r => r | _ => (empty_graph, []) end.

Lemma ex_run : max_stack true ex = Ret ex_done.
Proof. reflexivity. Qed.
Lemma ex_wf : wf_graph ex.
Proof.
  intros u v H. unfold calls in H. simpl in H.
  repeat (destruct H as [H|H]; [inversion H; subst; unfold node_count; simpl; lia|]). destruct H.
Qed.
Lemma ex_sum : sum_known ex < two64.
Proof. reflexivity. Qed.
Definition ex_usage (v : nat) : N := nth v [8; 16; 4; 1000; 24; 32; 0] 0.
Lemma ex_true : true_usage ex ex_usage.
Proof.
  intros v n H. unfold known, local_of in H.
  do 7 (destruct v as [|v]; [simpl in H; inversion H; reflexivity|]).
  simpl in H. destruct v; discriminate.
Qed.

(** main -> a, main -> b, a -> c, b -> c. *)
Definition exd : graph node :=
  mkG [nd "main" (LExact 8); nd "a" (LExact 16); nd "b" (LExact 4); nd "c" (LExact 100)]
      [(0, 1); (0, 2); (1, 3); (2, 3)]%nat.
Lemma exd_wf : wf_graph exd.
Proof.
  intros u v H. unfold calls in H. simpl in H.
  repeat (destruct H as [H|H]; [inversion H; subst; unfold node_count; simpl; lia|]). destruct H.
Qed.
Lemma exd_rank u v : calls exd u v -> (u < v)%nat.
Proof.
  intros H. unfold calls in H. simpl in H.
  repeat (destruct H as [H|H]; [inversion H; subst; unfold node_count; simpl; lia|]). destruct H.
Qed.
Lemma exd_acyclic : acyclic exd.
Proof.
  assert (H : forall u v, reach exd u v -> (u <= v)%nat).
  { induction 1; [lia|]. apply exd_rank in H. lia. }
  intros v [w [Hc Hr]]. apply exd_rank in Hc. apply H in Hr. lia.
Qed.

(** [exd] with the nodes numbered backwards, edges in another order and one of them twice. *)
Definition exr : graph node :=
  mkG [nd "c" (LExact 100); nd "b" (LExact 4); nd "a" (LExact 16); nd "main" (LExact 8)]
      [(1, 0); (3, 2); (2, 0); (3, 1); (3, 2)]%nat.
Lemma exr_wf : wf_graph exr.
Proof.
  intros u v H. unfold calls in H. simpl in H.
  repeat (destruct H as [H|H]; [inversion H; subst; unfold node_count; simpl; lia|]). destruct H.
Qed.
Lemma exr_renumber : renumbering exd exr (fun v => 3 - v)%nat (fun v => 3 - v)%nat.
Proof.
  split; unfold node_count; cbn [gnodes exd exr length]; intros; try lia.
  - do 4 (destruct v as [|v]; [reflexivity|]). lia.
  - unfold calls; simpl.
    destruct u as [|[|[|[|u]]]]; try lia; (destruct v as [|[|[|[|v]]]]; try lia);
      simpl; intuition (try congruence).
Qed.

(** Two functions whose usages add up to 2^64. *)
Definition ex_big : graph node :=
  mkG [nd "f" (LExact 18446744073709551615); nd "g" (LExact 1)] [(0, 1)]%nat.
Lemma ex_big_wf : wf_graph ex_big.
Proof.
  intros u v H. unfold calls in H. simpl in H. destruct H as [H|[]]. inversion H; subst; unfold node_count; simpl; lia.
Qed.
