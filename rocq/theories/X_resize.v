(** Examples: other stack sizes for the same code. *)
From Verif Require Import M_base M_stack M_graph M_analysis M_names M_thumb S_thumb M_ty M_parse M_render M_build M_run S_names S_graph S_sig S_build S_run S_part S_below S_more S_fewer S_resize
  L_base L_names L_build1 L_build3 L_build4 L_build5 L_build6 L_build7 L_build8 L_run L_run2 L_analysis X_build X_finite X_part X_below L_more L_fewer X_more X_below2 X_fewer.
Local Open Scope string_scope.
Local Open Scope list_scope.

(** ** Call graphs *)
Definition g_more : graph node := mkG (map nd_of [LExact 8; LExact 20; LExact 44]) [(0, 1); (0, 2)].
Definition four (v : nat) : N := 4%N.
Lemma more_graphs : wf_graph g_known /\ same_calls g_known g_more /\ below_2_64 g_known 0 /\ below_2_64 g_more 0 /\
  (forall u, reach g_known 0 u -> (known_usage g_more u <= known_usage g_known u + four u)%N /\ (~ In u [1; 2] -> (known_usage g_more u <= known_usage g_known u)%N)) /\
  (exists g cs, max_stack true g_known = Ret (g, cs) /\ reported g 0 (MExact 48)) /\ exists g cs, max_stack true g_more = Ret (g, cs) /\ reported g 0 (MExact 52).
Proof.
  assert (Wf : wf_graph g_known) by (intros a b C; unfold S_graph.calls in C; cbn in C; each C; injection C as <- <-; cbn; lia).
  assert (Wf2 : wf_graph g_more) by (intros a b C; unfold S_graph.calls in C; cbn in C; each C; injection C as <- <-; cbn; lia).
  split; [exact Wf|]. split; [constructor; reflexivity|]. split; [apply sum_below; [exact Wf | vm_compute; reflexivity]|]. split; [apply sum_below; [exact Wf2 | vm_compute; reflexivity]|]. split.
  - intros [|[|[|u]]] _; (split; [|intros N]); try (destruct u); vm_compute; try discriminate; exfalso; apply N; cbn; auto.
  - split; eexists; eexists; (split; [vm_compute; reflexivity|]); eexists; split; reflexivity.
Qed.
Lemma known_eights : wf_graph g_known /\ below_2_64 g_known 0 /\ (forall u n, reach g_known 0 u -> known g_known u n -> (8 | n)%N) /\ exists g cs, max_stack true g_known = Ret (g, cs) /\ reported g 0 (MExact 48).
Proof.
  destruct more_graphs as [Wf [_ [B [_ [_ [R _]]]]]]. split; [exact Wf|]. split; [exact B|]. split; [|exact R].
  intros [|[|[|u]]] n _ K; unfold known in K; cbn in K; [injection K as <-; exists 1%N; reflexivity | injection K as <-; exists 2%N; reflexivity | injection K as <-; exists 5%N; reflexivity | destruct u; discriminate K].
Qed.
Lemma more_zero : (forall u, (exists n, known g_known u n) <-> (exists n, known g_more u n)) /\ forall u, recursive g_known u -> (known g_known u 0%N <-> known g_more u 0%N).
Proof.
  split.
  - intros [|[|[|u]]]; unfold known; cbn; try (split; intros _; eexists; reflexivity). destruct u; split; intros [n H]; discriminate H.
  - intros [|[|[|u]]] _; unfold known; cbn; try (split; discriminate). destruct u; split; discriminate.
Qed.
(** A function that calls itself: it uses nothing, or 4 bytes. *)
Definition g_self (n : N) : graph node := mkG [nd_of (LExact n)] [(0, 0)].
Lemma self_differ : wf_graph (g_self 0) /\ same_calls (g_self 0) (g_self 4) /\ (forall u, (exists n, known (g_self 0) u n) <-> (exists n, known (g_self 4) u n)) /\
  (exists g cs, max_stack true (g_self 0) = Ret (g, cs) /\ reported g 0 (MExact 0)) /\ exists g cs, max_stack true (g_self 4) = Ret (g, cs) /\ reported g 0 (MLower 4).
Proof.
  split; [intros a b C; unfold S_graph.calls in C; cbn in C; each C; injection C as <- <-; cbn; lia|]. split; [constructor; reflexivity|].
  split; [intros [|u]; unfold known; cbn; [split; intros _; eexists; reflexivity | destruct u; split; intros [n H]; discriminate H]|].
  split; eexists; eexists; (split; [vm_compute; reflexivity|]); eexists; split; reflexivity.
Qed.

(** ** A program: 4 bytes more for `foo` *)
Definition more_foo : list (str * N) := [(lit "main", 8%N); (lit "foo", 20%N); (lit "other", 100%N)].
Lemma sized_usage f i u : usage (with_sizes (low [] 100) [(lit "main", 8%N); (lit "foo", f); (lit "other", 100%N)]) i u -> u = LExact (nth i [8; f; 100]%N 0%N) /\ i < 3.
Proof.
  set (p := with_sizes (low [] 100) [(lit "main", 8%N); (lit "foo", f); (lit "other", 100%N)]). intros U.
  assert (An : forall a b c, ~ analysed p i a b c) by (intros a b c A; destruct A as [A _]; discriminate A).
  assert (C : forall n, chosen p i n -> (i = 0 /\ n = lit "main") \/ (i = 1 /\ n = lit "foo") \/ (i = 2 /\ n = lit "other")).
  { intros n C. destruct C as [ns [[x [N ->]] H]]. assert (I : In n (real_names x)) by (destruct H as [[a [b [-> _]]]|[_ [a [b [-> _]]]]]; apply in_or_app; right; left; reflexivity).
    destruct i as [|[|[|i]]]; cbn in N; [injection N as <-..|destruct i; discriminate N]; vm_compute in I; each I; subst n; auto. }
  destruct U; try (exfalso; eapply An; eassumption).
  - destruct H0 as [n [Cn I]]. destruct (C n Cn) as [[-> ->]|[[-> ->]|[-> ->]]]; cbn in I; each I; try (apply (f_equal fst) in I; vm_compute in I; discriminate I); injection I as <-; (split; [reflexivity | lia]).
  - exfalso. destruct H0 as [n [Cn S]]. apply S. destruct (C n Cn) as [[_ ->]|[[_ ->]|[_ ->]]]; eexists; cbn; [left | right; left | right; right; left]; reflexivity.
Qed.
Lemma low_usage i u : usage (low [] 100) i u -> u = LExact (nth i [8; 16; 100]%N 0%N) /\ i < 3.
Proof. apply (sized_usage 16). Qed.
Lemma foo_usage i u : usage (with_sizes (low [] 100) more_foo) i u -> u = LExact (nth i [8; 20; 100]%N 0%N) /\ i < 3.
Proof. apply (sized_usage 20). Qed.
Lemma foo_known : same_known (low [] 100) more_foo.
Proof.
  intros i n. assert (S : forall m, sized (with_sizes (low [] 100) more_foo) m <-> sized (low [] 100) m) by (intros m; split; intros [k I]; cbn in I; each I; injection I as <- <-; eexists; cbn; auto).
  unfold chosen. split; intros [ns [N H]]; exists ns; (split; [exact N|]); (destruct H as [[a [b [E [P Q]]]]|[No F]]; [left; exists a, b; split; [exact E|]; split; [apply S; exact P | intros y I X; apply (Q y I), S, X] | right; split; [intros m I X; apply (No m I), S, X | exact F]]).
Qed.
Lemma foo_fits : fits (with_sizes (low [] 100) more_foo).
Proof. exists (fun i => nth i [8; 20; 100]%N 0%N). split; [|vm_compute; reflexivity]. intros i k U. apply foo_usage in U. destruct U as [U _]. injection U as ->. reflexivity. Qed.
Lemma low_divides i n : usage (low [] 100) i (LExact n) -> (4 | n)%N.
Proof.
  intros U. apply low_usage in U. destruct U as [U L]. injection U as ->. destruct i as [|[|[|i]]]; [exists 2%N | exists 4%N | exists 25%N | lia]; reflexivity.
Qed.
Lemma foo_example : wf_prog (low [] 100) /\ wf_prog (with_sizes (low [] 100) more_foo) /\ same_known (low [] 100) more_foo /\ sizes_u64 (low [] 100) /\ sizes_u64 (with_sizes (low [] 100) more_foo) /\ one_void (low [] 100) /\
  fits (low [] 100) /\ fits (with_sizes (low [] 100) more_foo) /\ raised (low [] 100) more_foo [1] four /\ same_kind (low [] 100) more_foo /\
  (exists g cs, report idd o_id None (low [] 100) = Ret (g, cs) /\ reported g 0 (MExact 24)) /\
  exists g cs, report idd o_rev None (with_sizes (low [] 100) more_foo) = Ret (g, cs) /\ reported g 0 (MExact 28).
Proof.
  destruct fewer_example as [W [_ [_ [Sz [Ov [Ft _]]]]]]. split; [exact W|]. split; [apply wf_progb_sound; vm_compute; reflexivity|]. split; [exact foo_known|]. split; [exact Sz|].
  split; [intros n k I; cbn in I; each I; injection I as <- <-; reflexivity|]. split; [exact Ov|]. split; [exact Ft|]. split; [exact foo_fits|].
  split; [|split; [|split; eexists; eexists; (split; [vm_compute; reflexivity|]); eexists; split; reflexivity]].
  - intros i a b A B. apply low_usage in A. apply foo_usage in B. destruct A as [-> L], B as [B _]. injection B as ->. destruct i as [|[|[|i]]]; [| | |lia]; (split; [|intros N]); try (vm_compute; discriminate). destruct N. left. reflexivity.
  - intros i. split; split; intros U; [apply foo_usage in U | apply low_usage in U | apply foo_usage in U | apply low_usage in U]; destruct U as [U L]; try discriminate U; (destruct i as [|[|[|i]]]; [discriminate U..|lia]).
Qed.
Lemma four_example : wf_prog (low [] 100) /\ sizes_u64 (low [] 100) /\ fits (low [] 100) /\ (forall i n, usage (low [] 100) i (LExact n) -> (4 | n)%N) /\
  exists g cs, report idd o_id None (low [] 100) = Ret (g, cs) /\ reported g 0 (MExact 24).
Proof. destruct foo_example as [W [_ [_ [Sz [_ [_ [Ft [_ [_ [_ [R _]]]]]]]]]]]. split; [exact W|]. split; [exact Sz|]. split; [exact Ft|]. split; [exact low_divides | exact R]. Qed.
