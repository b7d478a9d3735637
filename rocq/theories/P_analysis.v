(** Properties C01-C11: the maximum stack usage analysis.
    [max_stack true g = Ret (g', cs)]: the pass run on call graph [g] gives graph [g'] and clusters [cs]. *)
From Verif Require Import M_base M_stack M_graph M_analysis S_graph L_analysis L_maxprops L_mono X_graph.
Local Open Scope N_scope.

(** C01: [max = n] bounds every chain of calls, and some chain uses exactly [n]. *)
Theorem C01_exact_max_is_tight_bound :
  forall g g' cs v n w,
    wf_graph g -> below_2_64 g v -> max_stack true g = Ret (g', cs) ->
    reported g' v (MExact n) -> true_usage g w ->
    (forall p, chain g v p -> total w p <= n) /\ (exists p, chain g v p /\ total w p = n).
Proof. exact exact_tight. Qed.
Print Assumptions C01_exact_max_is_tight_bound.

Example C01_example :
  wf_graph ex /\ below_2_64 ex 5 /\ max_stack true ex = Ret ex_done /\
  reported (fst ex_done) 5 (MExact 56) /\ true_usage ex ex_usage /\
  chain ex 5 [5; 4]%nat /\ total ex_usage [5; 4]%nat = 56.
Proof.
  split; [exact ex_wf|]. split; [exact (sum_below ex _ ex_wf ex_sum)|]. split; [exact ex_run|].
  split; [eexists; split; reflexivity|]. split; [exact ex_true|].
  split; [|reflexivity]. econstructor; [|constructor; unfold node_count; simpl; lia].
  unfold calls; simpl; tauto.
Qed.

(** C02: the number of [max >= n] (indeed of any reported maximum) is reached by some chain. *)
Theorem C02_lower_bound_is_witnessed :
  forall g g' cs v m w,
    wf_graph g -> below_2_64 g v -> max_stack true g = Ret (g', cs) ->
    reported g' v m -> true_usage g w ->
    exists p, chain g v p /\ num m <= total w p.
Proof. exact lower_witness. Qed.
Print Assumptions C02_lower_bound_is_witnessed.

Example C02_example :
  wf_graph ex /\ below_2_64 ex 0 /\ max_stack true ex = Ret ex_done /\
  reported (fst ex_done) 0 (MLower 24) /\ true_usage ex ex_usage.
Proof.
  split; [exact ex_wf|]. split; [exact (sum_below ex _ ex_wf ex_sum)|]. split; [exact ex_run|].
  split; [eexists; split; reflexivity | exact ex_true].
Qed.

(** C03: a maximum is exact iff all reachable usages are known and all reachable recursion is stackless. *)
Theorem C03_exact_iff_known_and_no_stack_recursion :
  forall g g' cs v m,
    wf_graph g -> max_stack true g = Ret (g', cs) -> reported g' v m ->
    (exact m <->
     (forall u, reach g v u -> exists n, known g u n) /\
     (forall u, reach g v u -> recursive g u -> known g u 0)).
Proof. exact exact_iff. Qed.
Print Assumptions C03_exact_iff_known_and_no_stack_recursion.

Example C03_example :
  wf_graph ex /\ max_stack true ex = Ret ex_done /\
  reported (fst ex_done) 5 (MExact 56) /\ reported (fst ex_done) 6 (MExact 0) /\
  reported (fst ex_done) 1 (MLower 16) /\ recursive ex 6.
Proof.
  split; [exact ex_wf|]. split; [exact ex_run|].
  split; [eexists; split; reflexivity|]. split; [eexists; split; reflexivity|].
  split; [eexists; split; reflexivity|].
  exists 6%nat. split; [unfold calls; simpl; tauto | constructor].
Qed.

(** C04: the pass ends, without panic, with a maximum for every node, and changes nothing else. *)
Theorem C04_every_node_gets_a_maximum :
  forall g, wf_graph g ->
  exists g' cs, max_stack true g = Ret (g', cs) /\ gedges g' = gedges g /\
    map (fun nd => (nname nd, nlocal nd, ndashed nd)) (gnodes g') =
    map (fun nd => (nname nd, nlocal nd, ndashed nd)) (gnodes g) /\
    forall v, (v < node_count g)%nat -> exists m, reported g' v m.
Proof. exact all_reported. Qed.
Print Assumptions C04_every_node_gets_a_maximum.

Example C04_example : wf_graph ex /\ (exists u v, calls ex u v /\ reach ex v u) /\ wf_graph exd.
Proof.
  split; [exact ex_wf|]. split; [|exact exd_wf].
  exists 6%nat, 6%nat. split; [unfold calls; simpl; tauto | constructor].
Qed.

(** C05: the number is the largest known usage of a chain, one function charged per recursion group; this
    determines it uniquely. *)
Theorem C05_number_is_the_group_charge :
  forall g g' cs v m,
    wf_graph g -> below_2_64 g v -> max_stack true g = Ret (g', cs) -> reported g' v m ->
    charge g v (num m) /\ (forall n, charge g v n -> n = num m).
Proof. exact number_is_charge. Qed.
Print Assumptions C05_number_is_the_group_charge.

Example C05_example :
  wf_graph ex /\ below_2_64 ex 2 /\ max_stack true ex = Ret ex_done /\
  reported (fst ex_done) 2 (MLower 16).
Proof.
  split; [exact ex_wf|]. split; [exact (sum_below ex _ ex_wf ex_sum)|]. split; [exact ex_run|]. eexists; split; reflexivity.
Qed.

(** C06: on graphs without recursion the two passes give the same graph, and the pass for graphs without
    recursion is the one that is run. *)
Theorem C06_passes_agree_without_recursion :
  forall g, wf_graph g -> usages_u64 g -> acyclic g ->
  max_stack true g = acyclic_pass g /\
  exists g1 g2, cyclic_pass g = Ret (g1, []) /\ acyclic_pass g = Ret (g2, []) /\ g1 = g2.
Proof. exact passes_agree. Qed.
Print Assumptions C06_passes_agree_without_recursion.

Theorem C06_cyclic_pass_with_recursion :
  forall g v, wf_graph g -> recursive g v -> max_stack true g = cyclic_pass g.
Proof. exact cyclic_pass_used. Qed.
Print Assumptions C06_cyclic_pass_with_recursion.

Example C06_example : wf_graph exd /\ usages_u64 exd /\ acyclic exd /\ wf_graph ex /\ recursive ex 6.
Proof.
  split; [exact exd_wf|]. split; [exact (sum_u64 exd eq_refl)|]. split; [exact exd_acyclic|]. split; [exact ex_wf|].
  exists 6%nat. split; [unfold calls; simpl; tauto | constructor].
Qed.

(** C07: recursion that uses stack is unbounded and never reported as exact. *)
Theorem C07_stack_recursion_is_unbounded_and_not_exact :
  forall g g' cs v u n m w,
    wf_graph g -> max_stack true g = Ret (g', cs) ->
    reach g v u -> recursive g u -> known g u n -> n <> 0 ->
    reported g' v m -> true_usage g w ->
    ~ exact m /\ forall b, exists p, chain g v p /\ b < total w p.
Proof. exact recursion_unbounded. Qed.
Print Assumptions C07_stack_recursion_is_unbounded_and_not_exact.

Example C07_example :
  wf_graph ex /\ max_stack true ex = Ret ex_done /\ reach ex 0 2 /\ recursive ex 2 /\ known ex 2 4 /\
  reported (fst ex_done) 0 (MLower 24) /\ true_usage ex ex_usage.
Proof.
  split; [exact ex_wf|]. split; [exact ex_run|]. split.
  - apply star_step with 1%nat; [unfold calls; simpl; tauto|].
    apply star_step with 2%nat; [unfold calls; simpl; tauto | constructor].
  - split.
    + exists 1%nat. split; [unfold calls; simpl; tauto|].
      apply star_step with 2%nat; [unfold calls; simpl; tauto | constructor].
    + split; [reflexivity|]. split; [eexists; split; reflexivity | exact ex_true].
Qed.

(** C08: a caller's maximum covers its callees. *)
Theorem C08_caller_covers_callee :
  forall g g' cs f h mf mh,
    wf_graph g -> below_2_64 g f -> max_stack true g = Ret (g', cs) ->
    calls g f h -> reported g' f mf -> reported g' h mh ->
    num mh <= num mf /\ (~ mutual g f h -> known_usage g f + num mh <= num mf) /\ (exact mf -> exact mh).
Proof. exact caller_covers. Qed.
Print Assumptions C08_caller_covers_callee.

Example C08_example :
  wf_graph ex /\ below_2_64 ex 0 /\ max_stack true ex = Ret ex_done /\ calls ex 0 1 /\
  reported (fst ex_done) 0 (MLower 24) /\ reported (fst ex_done) 1 (MLower 16).
Proof.
  split; [exact ex_wf|]. split; [exact (sum_below ex _ ex_wf ex_sum)|]. split; [exact ex_run|].
  split; [unfold calls; simpl; tauto|]. split; eexists; split; reflexivity.
Qed.

(** C09: no wrap-around below 2^64: every reported number is the charge computed in unbounded arithmetic. *)
Theorem C09_no_wraparound_below_2_64 :
  forall g g' cs v m,
    wf_graph g -> below_2_64 g v -> max_stack true g = Ret (g', cs) -> reported g' v m ->
    charge g v (num m) /\ num m < two64.
Proof. exact no_wrap. Qed.
Print Assumptions C09_no_wraparound_below_2_64.

(** Whatever the usages: the number is the charge exactly if the charge has 64 bits. *)
Theorem C09_number_is_right_exactly_if_it_fits :
  forall g g' cs v m,
    wf_graph g -> usages_u64 g -> max_stack true g = Ret (g', cs) -> reported g' v m ->
    num m < 2 ^ 64 /\ (charge g v (num m) <-> below_2_64 g v).
Proof. exact number_right_iff. Qed.
Print Assumptions C09_number_is_right_exactly_if_it_fits.
Example C09_example_fits : wf_graph wrapping /\ usages_u64 wrapping /\ max_stack true wrapping = Ret wrapping_done /\
  reported (fst wrapping_done) 0 (MExact 0) /\ ~ below_2_64 wrapping 0 /\ reported (fst wrapping_done) 1 (MExact 1) /\ below_2_64 wrapping 1.
Proof. exact wrapping_ok. Qed.

(** The bound is needed: at 2^64 the reported exact maximum is smaller than a callee's. *)
Theorem C09_wraparound_at_2_64_refuted :
  exists g g' cs n p,
    wf_graph g /\ max_stack true g = Ret (g', cs) /\ reported g' 0 (MExact n) /\
    chain g 0 p /\ n < total (known_usage g) p.
Proof. exact wrap_refuted. Qed.
Print Assumptions C09_wraparound_at_2_64_refuted.

Example C09_example :
  wf_graph ex /\ below_2_64 ex 5 /\ max_stack true ex = Ret ex_done /\ reported (fst ex_done) 5 (MExact 56).
Proof.
  split; [exact ex_wf|]. split; [exact (sum_below ex _ ex_wf ex_sum)|]. split; [exact ex_run|]. eexists; split; reflexivity.
Qed.

(** C10: the clusters are exactly the recursion groups. *)
Theorem C10_clusters_are_recursion_groups :
  forall g g' cs,
    wf_graph g -> max_stack true g = Ret (g', cs) ->
    NoDup (concat cs) /\
    (forall c, In c cs -> c <> []) /\
    (forall v, recursive g v <-> In v (concat cs)) /\
    (forall c x y, In c cs -> In x c -> (In y c <-> mutual g x y)).
Proof. exact clusters_exact. Qed.
Print Assumptions C10_clusters_are_recursion_groups.

Example C10_example :
  wf_graph ex /\ max_stack true ex = Ret ex_done /\ length (snd ex_done) = 2%nat.
Proof. split; [exact ex_wf|]. split; [exact ex_run | reflexivity]. Qed.

(** C11: only the functions and the caller/callee pairs matter. *)
Theorem C11_maxima_invariant_under_renumbering :
  forall g1 g2 f f' g1' g2' c1 c2 v m1 m2,
    wf_graph g1 -> wf_graph g2 -> usages_u64 g1 ->
    renumbering g1 g2 f f' ->
    max_stack true g1 = Ret (g1', c1) -> max_stack true g2 = Ret (g2', c2) ->
    reported g1' v m1 -> reported g2' (f v) m2 -> m1 = m2.
Proof. exact renumbering_invariant. Qed.
Print Assumptions C11_maxima_invariant_under_renumbering.

Example C11_example :
  wf_graph exd /\ wf_graph exr /\ usages_u64 exd /\
  renumbering exd exr (fun v => 3 - v)%nat (fun v => 3 - v)%nat /\
  length (gedges exd) <> length (gedges exr).
Proof.
  split; [exact exd_wf|]. split; [exact exr_wf|]. split; [exact (sum_u64 exd eq_refl)|].
  split; [exact exr_renumber | discriminate].
Qed.
