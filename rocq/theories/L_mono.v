(** Reports about two graphs; the equations between the maxima of one graph. *)
From Verif Require Import M_base M_stack M_graph M_analysis S_graph S_mono L_base L_trav L_kosaraju L_topo L_charge L_analysis L_maxprops.
Local Open Scope N_scope.

Lemma sub_map_inv {A B} (h : A -> B) q p : sublist q (map h p) -> exists q2, sublist q2 p /\ q = map h q2.
Proof.
  intros H. remember (map h p) as l eqn:E. revert p E. induction H as [l|x a b H IH|x a b H IH]; intros p E.
  - exists []. split; [constructor | reflexivity].
  - destruct p as [|y p]; [discriminate|]. simpl in E. inversion E; subst.
    destruct (IH p eq_refl) as [q2 [H1 ->]]. exists (y :: q2). split; [constructor; exact H1 | reflexivity].
  - destruct p as [|y p]; [discriminate|]. simpl in E. inversion E; subst.
    destruct (IH p eq_refl) as [q2 [H1 ->]]. exists q2. split; [constructor; exact H1 | reflexivity].
Qed.

Lemma sub_map {A B} (h : A -> B) q p : sublist q p -> sublist (map h q) (map h p).
Proof. induction 1; simpl; constructor; auto. Qed.

Section View.
Variables (g1 g2 : graph node) (f : nat -> nat) (v : nat).
Hypothesis W : same_view g1 g2 f v.

Lemma view_reach a b : reach g1 a b -> reach g1 v a -> reach g2 (f a) (f b).
Proof.
  induction 1 as [b|a x b Hax Hxb IH]; intros Ha; [constructor|].
  eapply star_step; [apply (vw_calls _ _ _ _ W); eauto|]. apply IH. eapply star_snoc; eauto.
Qed.

Lemma view_reach_back x y : reach g2 x y -> forall a, reach g1 v a -> x = f a -> exists b, reach g1 a b /\ y = f b.
Proof.
  induction 1 as [y|x z y Hxz Hzy IH]; intros a Ha ->.
  - exists a. split; [constructor | reflexivity].
  - destruct (vw_back _ _ _ _ W a z Ha Hxz) as [c [Hc ->]].
    destruct (IH c) as [b [Hb ->]]; [eapply star_snoc; eauto | reflexivity|].
    exists b. split; [eapply star_step; eauto | reflexivity].
Qed.

Lemma view_reach_iff a b : reach g1 v a -> reach g1 v b -> (reach g1 a b <-> reach g2 (f a) (f b)).
Proof.
  intros Ha Hb. split; [intros H; apply view_reach; auto|]. intros H.
  destruct (view_reach_back _ _ H a Ha eq_refl) as [c [Hc E]].
  assert (b = c) as ->; [|exact Hc]. apply (vw_apart _ _ _ _ W b c Hb); [eapply star_trans; [exact Ha | exact Hc] | exact E].
Qed.

Lemma view_mutual a b : reach g1 v a -> reach g1 v b -> (mutual g1 a b <-> mutual g2 (f a) (f b)).
Proof. intros Ha Hb. unfold mutual. rewrite (view_reach_iff a b), (view_reach_iff b a); tauto. Qed.

Lemma view_lt a : reach g1 v a -> (a < node_count g1)%nat -> (f a < node_count g2)%nat.
Proof.
  intros Ha Hlt. destruct (local_of_lt g1 a Hlt) as [l Hl]. rewrite <- (vw_local _ _ _ _ W a Ha) in Hl.
  unfold local_of in Hl. destruct (nth_error (gnodes g2) (f a)) eqn:E; [|discriminate].
  unfold node_count. apply nth_error_Some. congruence.
Qed.

Lemma view_lt_back a : reach g1 v a -> (f a < node_count g2)%nat -> (a < node_count g1)%nat.
Proof.
  intros Ha Hlt. destruct (local_of_lt g2 (f a) Hlt) as [l Hl]. rewrite (vw_local _ _ _ _ W a Ha) in Hl.
  unfold local_of in Hl. destruct (nth_error (gnodes g1) a) eqn:E; [|discriminate].
  unfold node_count. apply nth_error_Some. congruence.
Qed.

Lemma view_chain a p : chain g1 a p -> reach g1 v a -> chain g2 (f a) (map f p).
Proof.
  induction 1 as [a Hlt|a w p Hc Hp IH]; intros Ha; simpl.
  - constructor. apply view_lt; auto.
  - econstructor; [apply (vw_calls _ _ _ _ W); eauto|]. apply IH. eapply star_snoc; eauto.
Qed.

Lemma view_chain_back x p' : chain g2 x p' -> forall a, reach g1 v a -> x = f a -> exists p, chain g1 a p /\ p' = map f p.
Proof.
  induction 1 as [x Hlt|x z p' Hc Hp IH]; intros a Ha ->.
  - exists [a]. split; [constructor; apply view_lt_back; auto | reflexivity].
  - destruct (vw_back _ _ _ _ W a z Ha Hc) as [c [Hac ->]].
    destruct (IH c) as [p [H1 ->]]; [eapply star_snoc; eauto | reflexivity|].
    exists (a :: p). split; [econstructor; eauto | reflexivity].
Qed.

Lemma view_opg q : (forall x, In x q -> reach g1 v x) -> (one_per_group g1 q <-> one_per_group g2 (map f q)).
Proof.
  induction q as [|x q IH]; intros H; simpl; [split; constructor|].
  assert (Hq : forall y, In y q -> reach g1 v y) by (intros y Hy; apply H; right; exact Hy).
  assert (Hx : reach g1 v x) by (apply H; left; reflexivity).
  split; inversion 1; subst; constructor; try (apply IH; assumption).
  - intros u Hu. apply in_map_iff in Hu as [y [<- Hy]]. rewrite <- view_mutual by auto. auto.
  - intros u Hu. rewrite view_mutual by auto. match goal with K : forall u, _ -> ~ _ |- _ => apply K end.
    apply in_map. exact Hu.
Qed.

Lemma view_usage a : reach g1 v a -> known_usage g2 (f a) = known_usage g1 a.
Proof. intros Ha. unfold known_usage. rewrite (vw_local _ _ _ _ W a Ha). reflexivity. Qed.

Lemma view_total q : (forall x, In x q -> reach g1 v x) -> total (known_usage g2) (map f q) = total (known_usage g1) q.
Proof.
  induction q as [|x q IH]; intros H; simpl; [reflexivity|].
  rewrite view_usage by (apply H; left; reflexivity). rewrite IH; [reflexivity|]. intros y Hy; apply H; right; exact Hy.
Qed.

Lemma view_charge n : charge g1 v n -> charge g2 (f v) n.
Proof.
  assert (R : reach g1 v v) by constructor.
  intros [[p [q [Hp [Hs [Ho Hn]]]]] Hub]. split.
  - assert (Hq : forall x, In x q -> reach g1 v x).
    { intros x Hx. eapply chain_reach; [exact Hp | eapply sublist_In; eauto]. }
    exists (map f p), (map f q). split; [apply view_chain; auto|]. split; [apply sub_map; exact Hs|].
    split; [apply view_opg; auto | rewrite view_total; auto].
  - intros p' q' Hp' Hs' Ho'. destruct (view_chain_back _ _ Hp' v R eq_refl) as [p2 [Hp2 ->]].
    apply sub_map_inv in Hs' as [q2 [Hs2 ->]].
    assert (Hq : forall x, In x q2 -> reach g1 v x).
    { intros x Hx. eapply chain_reach; [exact Hp2 | eapply sublist_In; eauto]. }
    rewrite view_total by exact Hq. eapply Hub; eauto. apply view_opg; auto.
Qed.

Lemma view_recursive a : reach g1 v a -> (recursive g1 a <-> recursive g2 (f a)).
Proof.
  intros Ha. split.
  - intros [w [Hc Hr]]. exists (f w). split; [apply (vw_calls _ _ _ _ W); auto|]. apply view_reach; auto. eapply star_snoc; eauto.
  - intros [y [Hc Hr]]. destruct (vw_back _ _ _ _ W a y Ha Hc) as [w [Haw ->]]. exists w. split; [exact Haw|].
    apply view_reach_iff; auto. eapply star_snoc; eauto.
Qed.

Lemma view_uncertain : uncertain g1 v <-> uncertain g2 (f v).
Proof.
  assert (R : reach g1 v v) by constructor.
  split; intros [[u [Hr Hu]]|[u [n [Hr [Hrec [Hk Hn]]]]]].
  - left. exists (f u). split; [apply view_reach; auto|]. unfold unknown. rewrite (vw_local _ _ _ _ W u Hr). exact Hu.
  - right. exists (f u), n. split; [apply view_reach; auto|]. split; [apply view_recursive; auto|].
    split; [|exact Hn]. unfold known. rewrite (vw_local _ _ _ _ W u Hr). exact Hk.
  - destruct (view_reach_back _ _ Hr v R eq_refl) as [a [Ha ->]]. left. exists a. split; [exact Ha|].
    unfold unknown. rewrite <- (vw_local _ _ _ _ W a Ha). exact Hu.
  - destruct (view_reach_back _ _ Hr v R eq_refl) as [a [Ha ->]]. right. exists a, n. split; [exact Ha|].
    split; [apply view_recursive; auto|]. split; [|exact Hn]. unfold known. rewrite <- (vw_local _ _ _ _ W a Ha). exact Hk.
Qed.

Lemma view_back_mutual a y : reach g1 v a -> mutual g2 (f a) y -> exists b, mutual g1 a b /\ y = f b.
Proof.
  intros Ha [H1 H2]. destruct (view_reach_back _ _ H1 a Ha eq_refl) as [b [Hb ->]]. exists b. split; [|reflexivity].
  assert (Rb : reach g1 v b) by (eapply star_trans; [exact Ha | exact Hb]). apply view_mutual; [exact Ha | exact Rb | split; assumption].
Qed.
Lemma view_top a n : reach g1 v a -> group_top g2 (f a) n -> group_top g1 a n.
Proof.
  intros Ha [[y [My Ny]] L]. split.
  - destruct (view_back_mutual a y Ha My) as [b [Mb ->]]. exists b. split; [exact Mb|]. rewrite <- Ny. symmetry. apply view_usage. eapply star_trans; [exact Ha | apply Mb].
  - intros u Mu. assert (Ru : reach g1 v u) by (eapply star_trans; [exact Ha | apply Mu]). rewrite <- (view_usage u Ru). apply L. apply view_mutual; assumption.
Qed.
Lemma view_leaves a h : reach g1 v a -> leaves_group g1 a h -> leaves_group g2 (f a) (f h) /\ reach g1 v h.
Proof.
  intros Ha [N [x [Mx Cx]]]. assert (Rx : reach g1 v x) by (eapply star_trans; [exact Ha | apply Mx]). assert (Rh : reach g1 v h) by (eapply star_snoc; eauto).
  split; [|exact Rh]. split; [rewrite <- view_mutual by assumption; exact N|]. exists (f x). split; [apply view_mutual; assumption | apply (vw_calls _ _ _ _ W); assumption].
Qed.
Lemma view_leaves_back a y : reach g1 v a -> leaves_group g2 (f a) y -> exists h, leaves_group g1 a h /\ y = f h.
Proof.
  intros Ha [N [x [Mx Cx]]]. destruct (view_back_mutual a x Ha Mx) as [b [Mb ->]]. assert (Rb : reach g1 v b) by (eapply star_trans; [exact Ha | apply Mb]).
  destruct (vw_back _ _ _ _ W b y Rb Cx) as [h [Ch ->]]. assert (Rh : reach g1 v h) by (eapply star_snoc; eauto). exists h. split; [|reflexivity].
  split; [rewrite view_mutual by assumption; exact N|]. exists b. split; assumption.
Qed.
Lemma view_wrapped y n : wrapped g2 y n -> forall a, reach g1 v a -> y = f a -> wrapped g1 a n.
Proof.
  induction 1 as [y top T N|y top h sum T H1 H2 IH H3]; intros a Ha ->.
  - apply wrapped_last; [exact (view_top a top Ha T)|]. intros h Lh. exact (N _ (proj1 (view_leaves a h Ha Lh))).
  - destruct (view_leaves_back a h Ha H1) as [k [Lk ->]]. apply (wrapped_call g1 a top k (fun w => sum (f w)) (view_top a top Ha T) Lk).
    + intros w Lw. destruct (view_leaves a w Ha Lw) as [L2 Rw]. exact (IH (f w) L2 w Rw eq_refl).
    + intros w Lw. destruct (view_leaves a w Ha Lw) as [L2 Rw]. exact (H3 (f w) L2).
Qed.
End View.

Theorem view_decides g1 g2 f v g1' g2' c1 c2 m1 m2 :
  wf_graph g1 -> wf_graph g2 -> usages_u64 g1 -> usages_u64 g2 -> same_view g1 g2 f v ->
  max_stack true g1 = Ret (g1', c1) -> max_stack true g2 = Ret (g2', c2) ->
  reported g1' v m1 -> reported g2' (f v) m2 -> m1 = m2.
Proof.
  intros Hwf1 Hwf2 Hs1 Hs2 W Hr1 Hr2 Hm1 Hm2.
  destruct (max_stack_wrapped _ _ _ _ _ Hwf1 Hr1 Hm1) as [[_ A2] A1]. specialize (A1 Hs1).
  destruct (max_stack_wrapped _ _ _ _ _ Hwf2 Hr2 Hm2) as [[_ B2] B1]. specialize (B1 Hs2).
  apply exact_ext.
  - eapply wrapped_unique; [exact A1|]. apply (view_wrapped _ _ _ _ W _ _ B1 v); [constructor | reflexivity].
  - rewrite A2, B2, (view_uncertain _ _ _ _ W). tauto.
Qed.

(** ** Renumbering *)
Lemma renumbering_view g1 g2 f f' v : wf_graph g1 -> wf_graph g2 -> renumbering g1 g2 f f' -> (v < node_count g1)%nat -> same_view g1 g2 f v.
Proof.
  intros W1 W2 R L. assert (Lt : forall a, reach g1 v a -> (a < node_count g1)%nat) by (intros a Ha; eapply star_lt; eauto). split.
  - intros a b Ha Hb E. apply (f_equal f') in E. rewrite !(rn_inv _ _ _ _ R) in E by auto. exact E.
  - intros a Ha. apply (rn_local _ _ _ _ R). auto.
  - intros a b Ha Hc. apply (rn_calls _ _ _ _ R); [auto | apply (W1 _ _ Hc) | exact Hc].
  - intros a y Ha Hc. pose proof (W2 _ _ Hc) as [_ Ly]. exists (f' y). split; [|symmetry; apply (rn_inv' _ _ _ _ R); exact Ly].
    apply (rn_calls _ _ _ _ R); [auto | apply (rn_lt' _ _ _ _ R); exact Ly|]. rewrite (rn_inv' _ _ _ _ R) by exact Ly. exact Hc.
Qed.
Lemma renumbering_u64 g1 g2 f f' : renumbering g1 g2 f f' -> usages_u64 g1 -> usages_u64 g2.
Proof.
  intros R U v n K. assert (L : (v < node_count g2)%nat).
  { unfold known, local_of in K. apply nth_error_Some. intros E. rewrite E in K. discriminate K. }
  apply (U (f' v) n). unfold known. rewrite <- (rn_local _ _ _ _ R) by (apply (rn_lt' _ _ _ _ R); exact L). rewrite (rn_inv' _ _ _ _ R) by exact L. exact K.
Qed.
Lemma renumbering_invariant g1 g2 f f' g1' g2' c1 c2 v m1 m2 :
  wf_graph g1 -> wf_graph g2 -> usages_u64 g1 ->
  renumbering g1 g2 f f' ->
  max_stack true g1 = Ret (g1', c1) -> max_stack true g2 = Ret (g2', c2) ->
  reported g1' v m1 -> reported g2' (f v) m2 -> m1 = m2.
Proof.
  intros W1 W2 U R E1 E2 R1 R2. assert (Hv : (v < node_count g1)%nat).
  { destruct (max_stack_correct g1 W1) as [g [cs [H1 [H2 _]]]]. rewrite H1 in E1. inversion E1; subst.
    rewrite <- (same_count _ _ H2). eapply reported_lt; eauto. }
  exact (view_decides g1 g2 f v g1' g2' c1 c2 m1 m2 W1 W2 U (renumbering_u64 _ _ _ _ R U) (renumbering_view _ _ _ _ _ W1 W2 R Hv) E1 E2 R1 R2).
Qed.

(** ** More calls, more stack *)

Lemma grows_reach g1 g2 u v : grows g1 g2 -> reach g1 u v -> reach g2 u v.
Proof. intros G. apply star_mono. apply (gr_calls _ _ G). Qed.

Lemma grows_chain g1 g2 v p : grows g1 g2 -> chain g1 v p -> chain g2 v p.
Proof.
  intros G. induction 1 as [v Hv|v w p Hc Hp IH].
  - constructor. pose proof (gr_count _ _ G). lia.
  - econstructor; [apply (gr_calls _ _ G); exact Hc | exact IH].
Qed.

Lemma grows_opg g1 g2 q : no_new_recursion g1 g2 -> one_per_group g1 q -> one_per_group g2 q.
Proof. intros H. induction 1; constructor; auto. intros u Hu M. eapply H0; eauto. Qed.

Theorem grows_number g1 g2 v g1' g2' c1 c2 m1 m2 :
  wf_graph g1 -> wf_graph g2 -> below_2_64 g2 v -> grows g1 g2 -> no_new_recursion g1 g2 ->
  max_stack true g1 = Ret (g1', c1) -> max_stack true g2 = Ret (g2', c2) ->
  reported g1' v m1 -> reported g2' v m2 -> num m1 <= num m2.
Proof.
  intros Hwf1 Hwf2 Hs2 G Hn Hr1 Hr2 Hm1 Hm2.
  assert (Hs1 : below_2_64 g1 v).
  { intros p q Hp Hs Ho. eapply N.le_lt_trans; [apply total_mono; intros x _; apply (gr_usage _ _ G)|].
    apply (Hs2 p q); [eapply grows_chain; eauto | exact Hs | eapply grows_opg; eauto]. }
  destruct (max_stack_best _ _ _ _ _ Hwf1 Hr1 Hm1) as [A1 _]. specialize (A1 Hs1).
  destruct (max_stack_best _ _ _ _ _ Hwf2 Hr2 Hm2) as [B1 _]. specialize (B1 Hs2).
  destruct A1 as [[p [q [Hp [Hs [Ho <-]]]]] _]. destruct B1 as [_ Hub].
  eapply N.le_trans; [apply total_mono; intros x _; apply (gr_usage _ _ G)|].
  eapply Hub; [eapply grows_chain; eauto | exact Hs | eapply grows_opg; eauto].
Qed.

Theorem grows_exact g1 g2 v g1' g2' c1 c2 m1 m2 :
  wf_graph g1 -> wf_graph g2 -> below_2_64 g2 v -> grows g1 g2 ->
  max_stack true g1 = Ret (g1', c1) -> max_stack true g2 = Ret (g2', c2) ->
  reported g1' v m1 -> reported g2' v m2 -> exact m2 ->
  num m1 <= num m2 /\ (stays_unknown g1 g2 -> exact m1).
Proof.
  intros Hwf1 Hwf2 Hs2 G Hr1 Hr2 Hm1 Hm2 He.
  assert (Hv1 : (v < node_count g1)%nat).
  { destruct (max_stack_correct g1 Hwf1) as [g [cs [H1 [H2 _]]]]. rewrite H1 in Hr1. inversion Hr1; subst.
    rewrite <- (same_count _ _ H2). eapply reported_lt; eauto. }
  destruct m2 as [n|n]; [|destruct He].
  destruct (exact_tight g2 g2' c2 v n (known_usage g2) Hwf2 Hs2 Hr2 Hm2) as [Hub _].
  { intros x k Hk. apply known_usage_known. exact Hk. }
  assert (Hs1 : below_2_64 g1 v).
  { intros p q Hp Hs Ho. eapply N.le_lt_trans; [apply sublist_total; exact Hs|]. eapply N.le_lt_trans; [apply total_mono; intros x _; apply (gr_usage _ _ G)|].
    eapply N.le_lt_trans; [apply Hub; eapply grows_chain; eauto|]. destruct (max_stack_best _ _ _ _ _ Hwf2 Hr2 Hm2) as [B1 _]. exact (below_charge g2 v _ Hs2 (B1 Hs2)). }
  split.
  - destruct (max_stack_best _ _ _ _ _ Hwf1 Hr1 Hm1) as [A1 _]. specialize (A1 Hs1).
    destruct A1 as [[p [q [Hp [Hs [Ho <-]]]]] _]. simpl.
    eapply N.le_trans; [apply sublist_total; exact Hs|].
    eapply N.le_trans; [apply total_mono; intros x _; apply (gr_usage _ _ G)|].
    apply Hub. eapply grows_chain; eauto.
  - intros Hu. apply (exact_iff g2 g2' c2 v _ Hwf2 Hr2 Hm2) in He as [E1 E2].
    apply (exact_iff g1 g1' c1 v _ Hwf1 Hr1 Hm1).
    assert (K : forall u, reach g1 v u -> exists k, known g1 u k).
    { intros u Hru. assert (Hlt : (u < node_count g1)%nat) by (eapply star_lt; eauto).
      destruct (unknown_or_known g1 u Hlt) as [Hun|Hk]; [|exact Hk].
      destruct (E1 u) as [k Hk]; [eapply grows_reach; eauto|]. apply Hu in Hun. unfold known, unknown in *. congruence. }
    split; [exact K|]. intros u Hru [w [Hc Hw]]. destruct (K u Hru) as [k Hk].
    assert (Z : known g2 u 0).
    { apply E2; [eapply grows_reach; eauto|]. exists w. split; [apply (gr_calls _ _ G); exact Hc | eapply grows_reach; eauto]. }
    pose proof (gr_usage _ _ G u) as L. rewrite (known_usage_known _ _ _ Hk), (known_usage_known _ _ _ Z) in L.
    assert (k = 0) by lia. subst. exact Hk.
Qed.

(** A call that closes a cycle can lower the number. *)
Definition two (back : bool) : graph node :=
  mkG [new_node (lit "f") (Some 8) false; new_node (lit "g") (Some 8) false] ((0, 1) :: if back then [(1, 0)] else [])%nat.

Lemma two_wf b : wf_graph (two b).
Proof. intros u v H. destruct b; unfold calls in H; simpl in H; repeat (destruct H as [H|H]; [inversion H; subst; unfold node_count; simpl; lia|]); destruct H. Qed.

Lemma two_grows : grows (two false) (two true).
Proof.
  split; [apply le_n | | intros v; apply N.le_refl]. intros u v H. unfold calls in *. simpl in *. tauto.
Qed.

Theorem grows_refuted : exists g1 g2 v g1' g2' c1 c2 m1 m2,
  wf_graph g1 /\ wf_graph g2 /\ sum_known g1 < two64 /\ sum_known g2 < two64 /\ grows g1 g2 /\ gnodes g1 = gnodes g2 /\
  max_stack true g1 = Ret (g1', c1) /\ max_stack true g2 = Ret (g2', c2) /\
  reported g1' v m1 /\ reported g2' v m2 /\ num m2 < num m1.
Proof.
  exists (two false), (two true), 0%nat. do 4 eexists. exists (MExact 16), (MLower 8).
  split; [apply two_wf|]. split; [apply two_wf|]. split; [reflexivity|]. split; [reflexivity|]. split; [exact two_grows|].
  split; [reflexivity|]. split; [vm_compute; reflexivity|]. split; [vm_compute; reflexivity|].
  split; [eexists; split; reflexivity|]. split; [eexists; split; reflexivity | reflexivity].
Qed.

(** ** The equations *)

Section Group.
Variables (g g' : graph node) (cs : list (list nat)).
Hypothesis (Hwf : wf_graph g) (Hrun : max_stack true g = Ret (g', cs)).

Lemma rep_charge v m : below_2_64 g v -> reported g' v m -> charge g v (num m).
Proof. intros B H. destruct (max_stack_best _ _ _ _ _ Hwf Hrun H) as [A _]. auto. Qed.
Lemma leaves_below v h : below_2_64 g v -> leaves_group g v h -> below_2_64 g h.
Proof. intros B [_ [x [Mx Hx]]]. apply (below_reach g v); [|exact B]. eapply star_snoc; [apply Mx | exact Hx]. Qed.

Lemma rep_lt v m : reported g' v m -> (v < node_count g)%nat.
Proof.
  intros H. destruct (max_stack_correct g Hwf) as [g1 [cs1 [H1 [H2 _]]]]. rewrite H1 in Hrun. inversion Hrun; subst.
  rewrite <- (same_count _ _ H2). eapply reported_lt; eauto.
Qed.

Lemma rep_ex v : (v < node_count g)%nat -> exists m, reported g' v m.
Proof.
  intros H. destruct (max_stack_correct g Hwf) as [g1 [cs1 [H1 [_ H3]]]]. rewrite H1 in Hrun. inversion Hrun; subst.
  destruct (H3 v H) as [m [Hm _]]. eauto.
Qed.

Lemma reach_charge u v n k : reach g u v -> charge g u n -> charge g v k -> k <= n.
Proof.
  intros Hr [_ Hub] [[p [q [Hp [Hs [Ho <-]]]]] _]. destruct (chain_extend g u v p Hr Hp) as [pre [Hpre _]].
  eapply Hub; [exact Hpre | apply sublist_app_l; exact Hs | exact Ho].
Qed.

Lemma reach_uncertain u v : reach g u v -> uncertain g v -> uncertain g u.
Proof.
  intros Hr [[x [Hx Hu]]|[x [n [Hx Hu]]]]; [left; exists x | right; exists x, n]; (split; [eapply star_trans; eauto | exact Hu]).
Qed.

Lemma mutual_sym u v : mutual g u v -> mutual g v u.
Proof. intros [A B]; split; auto. Qed.
Lemma mutual_trans u v w : mutual g u v -> mutual g v w -> mutual g u w.
Proof. intros [A B] [C D]; split; eapply star_trans; eauto. Qed.
Lemma mutual_dec u v : {mutual g u v} + {~ mutual g u v}.
Proof. destruct (reach_dec g Hwf u v); destruct (reach_dec g Hwf v u); [left; split; auto | right | right | right]; intros [? ?]; auto. Qed.

Theorem group_covers v u m : below_2_64 g v -> mutual g v u -> reported g' v m ->
  known_usage g u <= num m /\ (forall h mh, leaves_group g v h -> reported g' h mh -> known_usage g u + num mh <= num m).
Proof.
  intros B M Hv. pose proof (rep_charge _ _ B Hv) as Hc.
  assert (Hlt : (u < node_count g)%nat) by (eapply star_lt; [exact Hwf | apply M | eapply rep_lt; eauto]). split.
  - destruct Hc as [_ Hub]. destruct (chain_extend g v u [u]) as [pre [Hp _]]; [apply M | constructor; exact Hlt|].
    replace (known_usage g u) with (total (known_usage g) [u]) by (simpl; lia).
    eapply Hub; [exact Hp | apply sublist_app_l, sublist_refl|]. constructor; [intros x [] | constructor].
  - intros h mh Lh Hh. pose proof (rep_charge _ _ (leaves_below _ _ B Lh) Hh) as Hch. destruct Lh as [Hn [x [Mx Hx]]].
    destruct Hch as [[p [q [Hp [Hs [Ho Hq]]]]] _]. destruct Hc as [_ Hub].
    assert (Hyp : chain g x (x :: p)) by (econstructor; eauto).
    destruct (chain_extend g u x (x :: p)) as [pre2 [Hp2 _]].
    { eapply star_trans; [apply M | apply Mx]. } { exact Hyp. }
    destruct (chain_head g u _ Hp2) as [p3 Hp3].
    destruct (chain_extend g v u (pre2 ++ x :: p)) as [pre1 [Hp1 _]]; [apply M | exact Hp2|].
    assert (total (known_usage g) (u :: q) <= num m); [|simpl in *; lia].
    eapply Hub; [exact Hp1 | |].
    + apply sublist_app_l. destruct pre2 as [|a pre2]; simpl in Hp3; inversion Hp3; subst; simpl; constructor.
      * exact Hs.
      * apply sublist_app_l. constructor. exact Hs.
    + constructor; [|exact Ho]. intros y Hy [Y1 Y2]. apply Hn. split.
      * eapply star_snoc; [apply Mx | exact Hx].
      * eapply star_trans; [eapply chain_reach; [exact Hp | eapply sublist_In; eauto]|].
        eapply star_trans; [exact Y2 | apply M].
Qed.

Theorem group_attained v m : below_2_64 g v -> reported g' v m -> exists u, mutual g v u /\
  (num m = known_usage g u /\ (forall h, ~ leaves_group g v h) \/
   exists h mh, leaves_group g v h /\ reported g' h mh /\ num m = known_usage g u + num mh).
Proof.
  intros B Hv. pose proof (rep_charge _ _ B Hv) as [[p [q [Hp [Hs [Ho Hq]]]]] _].
  assert (R : mutual g v v) by (split; constructor).
  assert (One : forall q', one_per_group g q' -> (forall y, In y q' -> mutual g v y) ->
            exists u, mutual g v u /\ total (known_usage g) q' <= known_usage g u).
  { intros q' Ho' Hq'. destruct q' as [|a [|b q']].
    - exists v. split; [exact R | apply N.le_0_l].
    - exists a. split; [apply Hq'; left; reflexivity | simpl; lia].
    - exfalso. inversion Ho'; subst. eapply H1; [left; reflexivity|].
      eapply mutual_trans; [apply mutual_sym|]; apply Hq'; [left; reflexivity | right; left; reflexivity]. }
  destruct (chain_split g (mutual g v) (mutual_dec v) v p Hp R) as [Hall|[p1 [p2 [y [h [-> [H1 [H2 [H3 [H4 H5]]]]]]]]]].
  - destruct (One q Ho) as [u [Mu Lu]]; [intros z Hz; apply Hall; eapply sublist_In; eauto|].
    destruct (group_covers v u m B Mu Hv) as [C1 C2]. exists u. split; [exact Mu|].
    destruct (existsb (fun h => if mutual_dec v h then false else existsb (fun x => if mutual_dec v x then existsb (fun e => Nat.eqb (fst e) x && Nat.eqb (snd e) h) (gedges g) else false) (seq 0 (node_count g))) (seq 0 (node_count g))) eqn:E.
    + right. apply existsb_exists in E as [h [Hh E]]. destruct (mutual_dec v h) as [|Nh]; [discriminate|].
      apply existsb_exists in E as [x [_ E]]. destruct (mutual_dec v x) as [Mx|]; [|discriminate].
      apply existsb_exists in E as [[a b] [Hin E]]. apply andb_true_iff in E as [E1 E2].
      apply Nat.eqb_eq in E1, E2. simpl in E1, E2. subst a b.
      assert (Lh : leaves_group g v h) by (split; [exact Nh | exists x; split; [exact Mx | exact Hin]]).
      destruct (rep_ex h) as [mh Hmh]; [apply Hwf in Hin; tauto|].
      exists h, mh. split; [exact Lh|]. split; [exact Hmh|]. specialize (C2 h mh Lh Hmh). lia.
    + left. split; [lia|]. intros h [Nh [x [Mx Hc]]].
      assert (true = false); [|discriminate]. rewrite <- E. symmetry. apply existsb_exists. pose proof (Hwf _ _ Hc) as [Lx Lh].
      exists h. split; [apply in_seq; lia|]. destruct (mutual_dec v h); [contradiction|].
      apply existsb_exists. exists x. split; [apply in_seq; lia|]. destruct (mutual_dec v x); [|contradiction].
      apply existsb_exists. exists (x, h). split; [exact Hc|]. simpl. rewrite !Nat.eqb_refl. reflexivity.
  - apply sublist_app_inv in Hs as [q1 [q2 [-> [Hs1 Hs2]]]]. rewrite total_app in Hq.
    destruct (One q1) as [u [Mu Lu]]; [eapply opg_app_l; eauto | intros z Hz; apply H1; eapply sublist_In; eauto|].
    assert (Lh : leaves_group g v h) by (split; [exact H4 | exists y; auto]).
    destruct (rep_ex h) as [mh Hmh]; [apply Hwf in H3; tauto|].
    exists u. split; [exact Mu|]. right. exists h, mh. split; [exact Lh|]. split; [exact Hmh|].
    pose proof (rep_charge _ _ (leaves_below _ _ B Lh) Hmh) as [_ Hub].
    assert (total (known_usage g) q2 <= num mh) by (eapply Hub; eauto; eapply opg_app_r; eauto).
    destruct (group_covers v u m B Mu Hv) as [_ C2]. specialize (C2 h mh Lh Hmh). lia.
Qed.

Theorem group_exact v m : reported g' v m ->
  (exact m <-> (forall u, mutual g v u -> exists n, known g u n /\ (recursive g v -> n = 0)) /\
               (forall h mh, leaves_group g v h -> reported g' h mh -> exact mh)).
Proof.
  intros Hv. rewrite (exact_iff g g' cs v m Hwf Hrun Hv).
  assert (Rec : forall u, mutual g v u -> recursive g v -> recursive g u).
  { intros u [M1 M2] [w [Hc Hw]]. destruct M2 as [u|u x v Hux Hxv].
    - exists w. split; auto.
    - exists x. split; [exact Hux | eapply star_trans; eauto]. }
  split.
  - intros [E1 E2]. split.
    + intros u Mu. destruct (E1 u) as [n Hn]; [apply Mu|]. exists n. split; [exact Hn|]. intros Hrec.
      assert (known g u 0) by (apply E2; [apply Mu | auto]). unfold known in *. congruence.
    + intros h mh [_ [x [Mx Hc]]] Hh. apply (exact_iff g g' cs h mh Hwf Hrun Hh).
      assert (Rh : reach g v h) by (eapply star_snoc; [apply Mx | exact Hc]).
      split; intros u Hu; [apply E1 | apply E2]; eapply star_trans; eauto.
  - intros [E1 E2].
    assert (Out : forall u, reach g v u -> mutual g v u \/ exists h, leaves_group g v h /\ reach g h u).
    { intros u Hu. destruct (mutual_dec v u) as [M|M]; [left; exact M|]. right.
      destruct (star_exit (calls g) (mutual g v) (mutual_dec v) v u Hu) as [x [y [H1 [H2 [H3 [H4 H5]]]]]]; [split; constructor | exact M|].
      exists y. split; [split; [exact H4 | exists x; auto] | exact H5]. }
    assert (K : forall h, leaves_group g v h -> (forall u, reach g h u -> exists n, known g u n) /\ (forall u, reach g h u -> recursive g u -> known g u 0)).
    { intros h Lh. destruct (rep_ex h) as [mh Hmh]; [destruct Lh as [_ [x [_ Hc]]]; apply Hwf in Hc; tauto|].
      apply (exact_iff g g' cs h mh Hwf Hrun Hmh). eauto. }
    split.
    + intros u Hu. destruct (Out u Hu) as [M|[h [Lh Rh]]]; [destruct (E1 u M) as [n [Hn _]]; eauto | apply (K h Lh); exact Rh].
    + intros u Hu Hrec. destruct (Out u Hu) as [M|[h [Lh Rh]]]; [|apply (K h Lh); auto].
      destruct (E1 u M) as [n [Hn Hz]]. rewrite Hz in Hn; [exact Hn|].
      destruct M as [M1 M2]. destruct Hrec as [w [Hc Hw]]. destruct M1 as [v|v x u Hvx Hxu].
      * exists w. split; auto.
      * exists x. split; [exact Hvx | eapply star_trans; eauto].
Qed.
End Group.

Lemma wrapped_mutual g v u n : mutual g v u -> wrapped g v n -> wrapped g u n.
Proof.
  intros M. assert (Mu : forall x, mutual g u x <-> mutual g v x).
  { intros x. split; intros H; [exact (mutual_trans g _ _ _ M H) | exact (mutual_trans g _ _ _ (mutual_sym g _ _ M) H)]. }
  assert (T : forall k, group_top g v k -> group_top g u k).
  { intros k [[x [X1 X2]] L]. split; [exists x; split; [apply Mu; exact X1 | exact X2]|]. intros y Hy. apply L. apply Mu. exact Hy. }
  assert (Lv : forall h, leaves_group g u h <-> leaves_group g v h).
  { intros h. unfold leaves_group. rewrite Mu. split; intros [N [x [X1 X2]]]; (split; [exact N | exists x; split; [apply Mu; exact X1 | exact X2]]). }
  intros H. destruct H as [v top H N|v top h sum H H1 H2 H3].
  - apply wrapped_last; [exact (T _ H)|]. intros h L. exact (N h (proj1 (Lv h) L)).
  - apply (wrapped_call g u top h sum (T _ H)); [apply Lv; exact H1 | intros w L; apply H2, Lv, L | intros w L; apply H3, Lv, L].
Qed.
Theorem eq_same g g' cs v u m mu :
  wf_graph g -> usages_u64 g -> max_stack true g = Ret (g', cs) ->
  mutual g v u -> reported g' v m -> reported g' u mu -> mu = m.
Proof.
  intros W U R M Hv Hu. destruct (max_stack_wrapped _ _ _ _ _ W R Hv) as [[_ A2] A1]. destruct (max_stack_wrapped _ _ _ _ _ W R Hu) as [[_ B2] B1].
  apply exact_ext; [exact (wrapped_unique g u _ (B1 U) _ (wrapped_mutual g v u _ M (A1 U)))|].
  rewrite A2, B2. split; intros H K; apply H; eapply reach_uncertain; [|exact K| |exact K]; apply M.
Qed.
Theorem eq_modulo g g' cs v m :
  wf_graph g -> usages_u64 g -> max_stack true g = Ret (g', cs) -> reported g' v m ->
  exists top, group_top g v top /\
    (num m = top /\ (forall h, ~ leaves_group g v h) \/
     exists h mh, leaves_group g v h /\ reported g' h mh /\ num m = (top + num mh) mod 2 ^ 64 /\
       forall w mw, leaves_group g v w -> reported g' w mw -> num mw <= num mh).
Proof.
  intros W U R Hv. destruct (max_stack_wrapped _ _ _ _ _ W R Hv) as [_ A]. specialize (A U).
  assert (Val : forall w mw k, reported g' w mw -> wrapped g w k -> num mw = k).
  { intros w mw k Hw K. destruct (max_stack_wrapped _ _ _ _ _ W R Hw) as [_ B]. exact (wrapped_unique g w _ (B U) _ K). }
  destruct A as [v top T N|v top h sum T H1 H2 H3].
  - exists top. split; [exact T|]. left. split; [reflexivity | exact N].
  - exists top. split; [exact T|]. right. destruct (rep_ex g g' cs W R h) as [mh Hmh]; [destruct H1 as [_ [x [_ Hc]]]; apply W in Hc; tauto|].
    exists h, mh. split; [exact H1|]. split; [exact Hmh|]. rewrite (Val h mh _ Hmh (H2 h H1)). split; [reflexivity|].
    intros w mw Lw Hw. rewrite (Val w mw _ Hw (H2 w Lw)). exact (H3 w Lw).
Qed.

Theorem eq_number g g' cs v m :
  wf_graph g -> below_2_64 g v -> max_stack true g = Ret (g', cs) -> reported g' v m ->
  (forall u, mutual g v u ->
     known_usage g u <= num m /\
     forall h mh, leaves_group g v h -> reported g' h mh -> known_usage g u + num mh <= num m) /\
  exists u, mutual g v u /\
    (num m = known_usage g u /\ (forall h, ~ leaves_group g v h) \/
     exists h mh, leaves_group g v h /\ reported g' h mh /\ num m = known_usage g u + num mh).
Proof.
  intros W Hs R H. split;
    [intros u M; exact (group_covers g g' cs W R v u m Hs M H) | exact (group_attained g g' cs W R v m Hs H)].
Qed.

Theorem eq_exact g g' cs v m :
  wf_graph g -> max_stack true g = Ret (g', cs) -> reported g' v m ->
  (exact m <->
   (forall u, mutual g v u -> exists n, known g u n /\ (recursive g v -> n = 0)) /\
   (forall h mh, leaves_group g v h -> reported g' h mh -> exact mh)).
Proof. intros W R. exact (group_exact g g' cs W R v m). Qed.
