(** Properties C82-C84: how the maxima of different functions and of different graphs are related. *)
From Verif Require Import M_base M_stack M_graph M_analysis S_graph S_mono L_analysis L_maxprops L_mono X_graph.
Local Open Scope N_scope.

(** C82: the maximum of a function depends only on what the function can reach.  Other functions, other calls, the
    numbering of nodes, the order of edges and repeated edges have no influence. *)
Theorem C82_maximum_depends_on_what_is_reached :
  forall g1 g2 f v g1' g2' c1 c2 m1 m2,
    wf_graph g1 -> wf_graph g2 -> usages_u64 g1 -> usages_u64 g2 ->
    same_view g1 g2 f v ->
    max_stack true g1 = Ret (g1', c1) -> max_stack true g2 = Ret (g2', c2) ->
    reported g1' v m1 -> reported g2' (f v) m2 -> m1 = m2.
Proof. exact view_decides. Qed.
Print Assumptions C82_maximum_depends_on_what_is_reached.

(** [h] of [ex] with its callees, in another program in which [h] is called by a recursive function. *)
Definition other : graph node :=
  mkG [nd "z" (LExact 0); nd "h" (LExact 32); nd "leaf" (LExact 24); nd "user" (LExact 4)]
      [(3, 1); (3, 3); (1, 0); (0, 0); (1, 2); (1, 2)]%nat.
Definition place (v : nat) : nat := (nth v [9; 9; 9; 9; 2; 1; 0] 9)%nat.
Example C82_example :
  wf_graph ex /\ wf_graph other /\ usages_u64 ex /\ usages_u64 other /\ same_view ex other place 5 /\
  max_stack true ex = Ret ex_done /\ reported (fst ex_done) 5 (MExact 56) /\ recursive other 3.
Proof.
  split; [exact ex_wf|]. split.
  { intros u v H. unfold calls in H. simpl in H.
    repeat (destruct H as [H|H]; [inversion H; subst; unfold node_count; simpl; lia|]). destruct H. }
  split; [exact (sum_u64 ex ex_sum)|]. split; [exact (sum_u64 other eq_refl)|]. split.
  - assert (S0 : forall u w, reach ex u w -> In u [4; 5; 6]%nat -> In w [4; 5; 6]%nat).
    { induction 1 as [w|u x w Hux Hxw IH]; intros Hu; [exact Hu|]. apply IH. unfold calls in Hux. simpl in Hux.
      repeat (destruct Hux as [Hux|Hux]; [inversion Hux; subst; simpl in Hu; simpl; lia|]). destruct Hux. }
    assert (Sv : forall w, reach ex 5 w -> In w [4; 5; 6]%nat) by (intros w Hw; eapply S0; [exact Hw | simpl; tauto]).
    assert (R : forall w, In w [4; 5; 6]%nat -> w = 4%nat \/ w = 5%nat \/ w = 6%nat) by (intros w Hw; simpl in Hw; intuition).
    split.
    + intros a b Ha Hb. apply Sv, R in Ha. apply Sv, R in Hb.
      destruct Ha as [-> |[-> | ->]]; destruct Hb as [-> |[-> | ->]]; unfold place; simpl; intros; congruence.
    + intros a Ha. apply Sv, R in Ha. destruct Ha as [-> |[-> | ->]]; reflexivity.
    + intros a b Ha H. apply Sv, R in Ha. unfold calls in *. simpl in H.
      destruct Ha as [-> |[-> | ->]]; repeat (destruct H as [H|H]; [inversion H; subst; unfold place; simpl; tauto|]); destruct H.
    + intros a y Ha H. apply Sv, R in Ha. unfold calls in *. simpl in H.
      destruct Ha as [-> |[-> | ->]]; simpl in H; repeat (destruct H as [H|H]; [inversion H; subst;
        first [exists 4%nat; split; [simpl; tauto | reflexivity] | exists 6%nat; split; [simpl; tauto | reflexivity]]|]); destruct H.
  - split; [exact ex_run|]. split; [eexists; split; reflexivity|].
    exists 3%nat. split; [unfold calls; simpl; tauto | constructor].
Qed.

(** C83: with more calls or more stack a maximum that is exact afterwards was exact before, and not larger. *)
Theorem C83_growth_raises_exact_maxima :
  forall g1 g2 v g1' g2' c1 c2 m1 m2,
    wf_graph g1 -> wf_graph g2 -> below_2_64 g2 v ->
    grows g1 g2 ->
    max_stack true g1 = Ret (g1', c1) -> max_stack true g2 = Ret (g2', c2) ->
    reported g1' v m1 -> reported g2' v m2 -> exact m2 ->
    num m1 <= num m2 /\ (stays_unknown g1 g2 -> exact m1).
Proof. exact grows_exact. Qed.
Print Assumptions C83_growth_raises_exact_maxima.

(** C83, partial: with more calls or more stack no number falls, if the new calls close no cycle.  Missing: new recursion,
    for which it is false (below). *)
Theorem C83_growth_raises_numbers_partial :
  forall g1 g2 v g1' g2' c1 c2 m1 m2,
    wf_graph g1 -> wf_graph g2 -> below_2_64 g2 v ->
    grows g1 g2 -> no_new_recursion g1 g2 ->
    max_stack true g1 = Ret (g1', c1) -> max_stack true g2 = Ret (g2', c2) ->
    reported g1' v m1 -> reported g2' v m2 -> num m1 <= num m2.
Proof. exact grows_number. Qed.
Print Assumptions C83_growth_raises_numbers_partial.

(** [ex] with 20 bytes for the unknown function and an additional call from [main] to [h]. *)
Definition grown : graph node :=
  mkG [nd "main" (LExact 8); nd "a" (LExact 16); nd "b" (LExact 4); nd "ext" (LExact 20);
       nd "leaf" (LExact 24); nd "h" (LExact 32); nd "z" (LExact 0)]
      [(0, 1); (1, 2); (2, 1); (2, 3); (5, 4); (5, 6); (6, 6); (0, 5)]%nat.
Example C83_example :
  wf_graph grown /\ (forall v, below_2_64 grown v) /\ grows ex grown /\ no_new_recursion ex grown /\
  (exists g' cs, max_stack true grown = Ret (g', cs) /\ reported g' 0 (MLower 64)) /\
  max_stack true ex = Ret ex_done /\ reported (fst ex_done) 0 (MLower 24).
Proof.
  assert (Wg : wf_graph grown).
  { intros u v H. unfold calls in H. simpl in H.
    repeat (destruct H as [H|H]; [inversion H; subst; unfold node_count; simpl; lia|]). destruct H. }
  split; [exact Wg|]. split; [intros v; apply (sum_below grown v Wg); reflexivity|]. split.
  { split.
    - apply le_n.
    - intros u v H. unfold calls in *. simpl in *. tauto.
    - intros v. unfold known_usage, local_of. do 7 (destruct v as [|v]; [simpl; lia|]). simpl. destruct v; simpl; lia. }
  split.
  - assert (Z : forall u v, reach grown u v -> v = 0%nat -> u = 0%nat).
    { induction 1 as [v|u x v Hux Hxv IH]; intros E; [exact E|]. specialize (IH E). subst x. unfold calls in Hux. simpl in Hux.
      repeat (destruct Hux as [Hux|Hux]; [inversion Hux|]). destruct Hux. }
    assert (K : forall u v, reach grown u v -> u <> 0%nat -> reach ex u v).
    { induction 1 as [v|u x v Hux Hxv IH]; intros Hu; [constructor|].
      assert (x <> 0%nat).
      { intros ->. apply Hu. apply (Z u 0%nat); [|reflexivity]. econstructor; [exact Hux | constructor]. }
      eapply star_step; [|apply IH; assumption]. unfold calls in *. simpl in *.
      repeat (destruct Hux as [Hux|Hux]; [inversion Hux; subst; try tauto; try lia|]). destruct Hux. }
    intros u v [H1 H2]. destruct u as [|u].
    + assert (v = 0%nat) by (apply (Z v 0%nat); [exact H2 | reflexivity]). subst. split; constructor.
    + assert (v <> 0%nat).
      { intros ->. specialize (Z _ _ H1 eq_refl). discriminate. }
      split; apply K; auto.
  - split; [do 2 eexists; split; [vm_compute; reflexivity | eexists; split; reflexivity]|].
    split; [exact ex_run | eexists; split; reflexivity].
Qed.

(** The hypotheses of the first theorem, with an exact maximum in the larger graph. *)
Example C83_example_exact :
  wf_graph other /\ grows other other /\ stays_unknown other other /\
  exists g' cs, max_stack true other = Ret (g', cs) /\ reported g' 1 (MExact 56).
Proof.
  split.
  { intros u v H. unfold calls in H. simpl in H.
    repeat (destruct H as [H|H]; [inversion H; subst; unfold node_count; simpl; lia|]). destruct H. }
  split; [split; auto; intros; apply N.le_refl|]. split; [intros v H; exact H|].
  do 2 eexists. split; [vm_compute; reflexivity | eexists; split; reflexivity].
Qed.

(** A call that closes a cycle can lower the number: [f] calls [g] needs 16 bytes, and once [g] calls [f] too the report
    says `>= 8`. *)
Theorem C83_growth_raises_numbers_refuted :
  exists g1 g2 v g1' g2' c1 c2 m1 m2,
    wf_graph g1 /\ wf_graph g2 /\ sum_known g1 < two64 /\ sum_known g2 < two64 /\ grows g1 g2 /\ gnodes g1 = gnodes g2 /\
    max_stack true g1 = Ret (g1', c1) /\ max_stack true g2 = Ret (g2', c2) /\
    reported g1' v m1 /\ reported g2' v m2 /\ num m2 < num m1.
Proof. exact grows_refuted. Qed.
Print Assumptions C83_growth_raises_numbers_refuted.

(** C84: the maxima satisfy the call equations.  The members of a recursion group (a function that is not recursive is a
    group of its own) share one maximum ... *)
Theorem C84_groups_share_their_maximum :
  forall g g' cs v u m mu,
    wf_graph g -> usages_u64 g -> max_stack true g = Ret (g', cs) ->
    mutual g v u -> reported g' v m -> reported g' u mu -> mu = m.
Proof. exact eq_same. Qed.
Print Assumptions C84_groups_share_their_maximum.

(** ... whose number is the largest usage in the group plus the largest number among the functions that are called from
    the group, modulo 2^64 ... *)
Theorem C84_numbers_add_up_modulo_2_64 :
  forall g g' cs v m,
    wf_graph g -> usages_u64 g -> max_stack true g = Ret (g', cs) -> reported g' v m ->
    exists top, group_top g v top /\
      (num m = top /\ (forall h, ~ leaves_group g v h) \/
       exists h mh, leaves_group g v h /\ reported g' h mh /\ num m = (top + num mh) mod 2 ^ 64 /\
         forall w mw, leaves_group g v w -> reported g' w mw -> num mw <= num mh).
Proof. exact eq_modulo. Qed.
Print Assumptions C84_numbers_add_up_modulo_2_64.

(** ... which is the sum itself where it fits ... *)
Theorem C84_numbers_add_up :
  forall g g' cs v m,
    wf_graph g -> below_2_64 g v -> max_stack true g = Ret (g', cs) -> reported g' v m ->
    (forall u, mutual g v u ->
       known_usage g u <= num m /\
       forall h mh, leaves_group g v h -> reported g' h mh -> known_usage g u + num mh <= num m) /\
    exists u, mutual g v u /\
      (num m = known_usage g u /\ (forall h, ~ leaves_group g v h) \/
       exists h mh, leaves_group g v h /\ reported g' h mh /\ num m = known_usage g u + num mh).
Proof. exact eq_number. Qed.
Print Assumptions C84_numbers_add_up.

(** ... and which is exact iff every member is known, uses no stack if the group is recursive, and everything called from
    the group has an exact maximum. *)
Theorem C84_exactness_is_passed_on :
  forall g g' cs v m,
    wf_graph g -> max_stack true g = Ret (g', cs) -> reported g' v m ->
    (exact m <->
     (forall u, mutual g v u -> exists n, known g u n /\ (recursive g v -> n = 0)) /\
     (forall h mh, leaves_group g v h -> reported g' h mh -> exact mh)).
Proof. exact eq_exact. Qed.
Print Assumptions C84_exactness_is_passed_on.

Example C84_example :
  wf_graph ex /\ usages_u64 ex /\ (forall v, below_2_64 ex v) /\ max_stack true ex = Ret ex_done /\ mutual ex 1 2 /\
  reported (fst ex_done) 1 (MLower 16) /\ reported (fst ex_done) 2 (MLower 16) /\ leaves_group ex 1 3 /\
  reported (fst ex_done) 3 (MLower 0).
Proof.
  assert (M : mutual ex 1 2) by (split; (eapply star_step; [|constructor]); unfold calls; simpl; tauto).
  split; [exact ex_wf|]. split; [exact (sum_u64 ex ex_sum)|]. split; [intros v; exact (sum_below ex v ex_wf ex_sum)|]. split; [exact ex_run|]. split; [exact M|].
  split; [eexists; split; reflexivity|]. split; [eexists; split; reflexivity|]. split; [|eexists; split; reflexivity].
  split.
  - intros [_ H]. inversion H; subst. unfold calls in *. simpl in *.
    repeat match goal with K : _ \/ _ |- _ => destruct K as [K|K]; [inversion K|] end. assumption.
  - exists 2%nat. split; [exact M | unfold calls; simpl; tauto].
Qed.
(** The maximum of [f], which needs 2^64 - 1 bytes and calls [g], which needs 1. *)
Example C84_example_wraps :
  wf_graph wrapping /\ usages_u64 wrapping /\ max_stack true wrapping = Ret wrapping_done /\
  reported (fst wrapping_done) 0 (MExact 0) /\ group_top wrapping 0 18446744073709551615 /\ leaves_group wrapping 0 1 /\ reported (fst wrapping_done) 1 (MExact 1).
Proof.
  destruct wrapping_ok as [W [U [M [R0 [_ [R1 _]]]]]]. split; [exact W|]. split; [exact U|]. split; [exact M|]. split; [exact R0|].
  assert (No : forall y, mutual wrapping 0 y -> y = 0%nat).
  { intros y [_ H]. inversion H as [|a b c H1 H2]; subst; [reflexivity|]. unfold calls in H1. simpl in H1. destruct H1 as [H1|[]]. now inversion H1. }
  split; [split; [exists 0%nat; split; [split; constructor | reflexivity]|]|split; [|exact R1]].
  - intros u Mu. rewrite (No u Mu). vm_compute. discriminate.
  - split; [intros Mu; specialize (No 1%nat Mu); discriminate|]. exists 0%nat. split; [split; constructor | unfold calls; simpl; tauto].
Qed.
