(** C104: how maxima follow the stack sizes. *)
From Verif Require Import M_base M_stack M_graph M_analysis M_names M_thumb M_ty M_parse M_render M_build M_run S_graph S_build S_run S_part S_below S_fewer S_resize X_build X_below L_resize2 X_fewer X_resize.

(** C104: if the functions [xs] use more stack, [d u] bytes at most, and the others do not, then no maximum grows by more than the sum of these.  For one function: by
    not more than what is added to it, however often it is called. *)
Theorem C104_growth_is_bounded :
  forall g1 g2 v g1' g2' c1 c2 m1 m2 xs d, wf_graph g1 -> same_calls g1 g2 -> below_2_64 g1 v -> below_2_64 g2 v ->
  (forall u, reach g1 v u -> (known_usage g2 u <= known_usage g1 u + d u)%N /\ (~ In u xs -> (known_usage g2 u <= known_usage g1 u)%N)) ->
  max_stack true g1 = Ret (g1', c1) -> max_stack true g2 = Ret (g2', c2) -> reported g1' v m1 -> reported g2' v m2 -> (num m2 <= num m1 + total d xs)%N.
Proof. exact raised_max. Qed.
Print Assumptions C104_growth_is_bounded.
Example C104_example_growth : wf_graph g_known /\ same_calls g_known g_more /\ below_2_64 g_known 0 /\ below_2_64 g_more 0 /\
  (forall u, reach g_known 0 u -> (known_usage g_more u <= known_usage g_known u + four u)%N /\ (~ In u [1; 2] -> (known_usage g_more u <= known_usage g_known u)%N)) /\
  (exists g cs, max_stack true g_known = Ret (g, cs) /\ reported g 0 (MExact 48)) /\ exists g cs, max_stack true g_more = Ret (g, cs) /\ reported g 0 (MExact 52).
Proof. exact more_graphs. Qed.
(** Whether a maximum is exact does not depend on the numbers, except that recursive functions may use nothing or something. *)
Theorem C104_exactness_is_kept :
  forall g1 g2 v g1' g2' c1 c2 m1 m2, wf_graph g1 -> same_calls g1 g2 -> (forall u, (exists n, known g1 u n) <-> (exists n, known g2 u n)) -> (forall u, recursive g1 u -> (known g1 u 0%N <-> known g2 u 0%N)) ->
  max_stack true g1 = Ret (g1', c1) -> max_stack true g2 = Ret (g2', c2) -> reported g1' v m1 -> reported g2' v m2 -> (exact m1 <-> exact m2).
Proof. exact same_exact. Qed.
Print Assumptions C104_exactness_is_kept.
Example C104_example_exact : wf_graph g_known /\ same_calls g_known g_more /\ (forall u, (exists n, known g_known u n) <-> (exists n, known g_more u n)) /\
  (forall u, recursive g_known u -> (known g_known u 0%N <-> known g_more u 0%N)) /\
  (exists g cs, max_stack true g_known = Ret (g, cs) /\ reported g 0 (MExact 48)) /\ exists g cs, max_stack true g_more = Ret (g, cs) /\ reported g 0 (MExact 52).
Proof. destruct more_graphs as [A [B [_ [_ [_ [C D]]]]]], more_zero as [E F]. exact (conj A (conj B (conj E (conj F (conj C D))))). Qed.
(** Without that condition: a function that calls itself. *)
Theorem C104_recursion_refuted :
  exists g1 g2, wf_graph g1 /\ same_calls g1 g2 /\ (forall u, (exists n, known g1 u n) <-> (exists n, known g2 u n)) /\
  (exists g cs, max_stack true g1 = Ret (g, cs) /\ reported g 0 (MExact 0)) /\ exists g cs, max_stack true g2 = Ret (g, cs) /\ reported g 0 (MLower 4).
Proof. do 2 eexists. exact self_differ. Qed.
Print Assumptions C104_recursion_refuted.
(** Maxima are multiples of what divides the usages. *)
Theorem C104_alignment :
  forall g v g' cs m k, wf_graph g -> below_2_64 g v -> (forall u n, reach g v u -> known g u n -> (k | n)%N) ->
  max_stack true g = Ret (g', cs) -> reported g' v m -> (k | num m)%N.
Proof. exact divisible_max. Qed.
Print Assumptions C104_alignment.
Example C104_example_alignment : wf_graph g_known /\ below_2_64 g_known 0 /\ (forall u n, reach g_known 0 u -> known g_known u n -> (8 | n)%N) /\ exists g cs, max_stack true g_known = Ret (g, cs) /\ reported g 0 (MExact 48).
Proof. exact known_eights. Qed.
(** The same for programs of which the stack sizes change, below any start points. *)
Theorem C104_sizes_partial :
  forall demangle o o' start start' p l g cs g' cs', wf_prog p -> wf_prog (with_sizes p l) -> same_known p l -> fair o -> fair o' -> sizes_u64 p -> sizes_u64 (with_sizes p l) -> one_void p ->
  report demangle o start p = Ret (g, cs) -> report demangle o' start' (with_sizes p l) = Ret (g', cs') ->
  exists ks void ks' void', pictures demangle p start ks void (gnodes g) (gedges g) /\ pictures demangle (with_sizes p l) start' ks' void' (gnodes g') (gedges g') /\
  forall i k k' m m', nth_error ks k = Some (KReal i) -> nth_error ks' k' = Some (KReal i) -> reported g k m -> reported g' k' m' ->
  (fits p -> fits (with_sizes p l) -> forall xs d, raised p l xs d -> (num m' <= num m + total d xs)%N) /\ (same_kind p l -> (exact m <-> exact m')).
Proof. exact resized_starts. Qed.
Print Assumptions C104_sizes_partial.
Example C104_example : wf_prog (low [] 100) /\ wf_prog (with_sizes (low [] 100) more_foo) /\ same_known (low [] 100) more_foo /\ sizes_u64 (low [] 100) /\ sizes_u64 (with_sizes (low [] 100) more_foo) /\ one_void (low [] 100) /\
  fits (low [] 100) /\ fits (with_sizes (low [] 100) more_foo) /\ raised (low [] 100) more_foo [1] four /\ same_kind (low [] 100) more_foo /\
  (exists g cs, report idd o_id None (low [] 100) = Ret (g, cs) /\ reported g 0 (MExact 24)) /\
  exists g cs, report idd o_rev None (with_sizes (low [] 100) more_foo) = Ret (g, cs) /\ reported g 0 (MExact 28).
Proof. exact foo_example. Qed.
Theorem C104_aligned_sizes :
  forall demangle o start p g cs c, wf_prog p -> fair o -> sizes_u64 p -> fits p -> (forall i n, usage p i (LExact n) -> (c | n)%N) ->
  report demangle o start p = Ret (g, cs) ->
  exists ks void, pictures demangle p start ks void (gnodes g) (gedges g) /\ forall i k m, nth_error ks k = Some (KReal i) -> reported g k m -> (c | num m)%N.
Proof. exact divisible_starts. Qed.
Print Assumptions C104_aligned_sizes.
Example C104_example_aligned : wf_prog (low [] 100) /\ sizes_u64 (low [] 100) /\ fits (low [] 100) /\ (forall i n, usage (low [] 100) i (LExact n) -> (4 | n)%N) /\
  exists g cs, report idd o_id None (low [] 100) = Ret (g, cs) /\ reported g 0 (MExact 24).
Proof. exact four_example. Qed.
