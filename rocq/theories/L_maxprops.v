(** Consequences of the characterisation of the reported maxima. *)
From Verif Require Import M_base M_stack M_graph M_analysis S_graph L_base L_trav L_kosaraju L_topo L_charge L_analysis.
Local Open Scope N_scope.

Lemma max_stack_best g g' cs v m :
  wf_graph g -> max_stack true g = Ret (g', cs) -> reported g' v m -> good_max g v m.
Proof.
  intros Hwf Hrun Hrep. destruct (max_stack_correct g Hwf) as [g1 [cs1 [H1 [H2 H3]]]].
  rewrite H1 in Hrun. inversion Hrun; subst.
  destruct (H3 v) as [m' [Hm' Hg]].
  - destruct Hrep as [nd [Hn _]]. rewrite <- (same_count _ _ H2). unfold node_count.
    apply nth_error_Some. congruence.
  - rewrite (reported_fun _ _ _ _ Hrep Hm'). exact Hg.
Qed.

Lemma max_stack_good g g' cs v m :
  wf_graph g -> max_stack true g = Ret (g', cs) -> reported g' v m -> (sum_known g < two64 -> charge g v (num m)) /\ (exact m <-> ~ uncertain g v).
Proof.
  intros Hwf Hrun Hrep. destruct (max_stack_best _ _ _ _ _ Hwf Hrun Hrep) as [H1 H2]. split; [|exact H2]. intros Hsum. apply H1. now apply sum_below.
Qed.

Lemma reported_lt g v m : reported g v m -> (v < node_count g)%nat.
Proof. intros [nd [H _]]. unfold node_count. apply nth_error_Some. congruence. Qed.

Lemma sublist_total w q p : sublist q p -> total w q <= total w p.
Proof. induction 1; simpl; lia. Qed.

Lemma total_mono w w' p : (forall x, In x p -> w x <= w' x) -> total w p <= total w' p.
Proof.
  induction p as [|x p IH]; intros H; simpl; [lia|].
  assert (w x <= w' x) by (apply H; left; reflexivity).
  assert (total w p <= total w' p) by (apply IH; intros y Hy; apply H; right; exact Hy). lia.
Qed.

Lemma total_ext w w' p : (forall x, In x p -> w x = w' x) -> total w p = total w' p.
Proof.
  induction p as [|x p IH]; intros H; simpl; [reflexivity|].
  rewrite (H x (or_introl eq_refl)), IH; [reflexivity|]. intros y Hy; apply H; right; exact Hy.
Qed.

(** Certainty in positive form. *)
Lemma certain_iff g v : wf_graph g -> (v < node_count g)%nat ->
  (~ uncertain g v <->
   (forall u, reach g v u -> exists n, known g u n) /\
   (forall u, reach g v u -> recursive g u -> known g u 0)).
Proof.
  intros Hwf Hv.
  assert (Hlt : forall u, reach g v u -> (u < node_count g)%nat).
  { intros u Hu. eapply star_lt; eauto. }
  split.
  - intros H. assert (H1 : forall u, reach g v u -> exists n, known g u n).
    { intros u Hu. destruct (unknown_or_known g u (Hlt u Hu)) as [Hun|Hk]; [|exact Hk].
      exfalso. apply H. left; eauto. }
    split; [exact H1|]. intros u Hu Hrec. destruct (H1 u Hu) as [n Hn].
    destruct (N.eq_dec n 0) as [->|Hne]; [exact Hn|]. exfalso. apply H. right. exists u, n; auto.
  - intros [H1 H2] [[u [Hr Hu]]|[u [n [Hr [Hrec [Hk Hn]]]]]].
    + destruct (H1 u Hr) as [n Hn]. unfold known, unknown in *. congruence.
    + specialize (H2 u Hr Hrec). unfold known in *. congruence.
Qed.

(** Dropping the functions without stack usage. *)
Definition nz (g : graph node) (x : nat) : bool := negb (N.eqb (known_usage g x) 0).

Lemma total_nz g p : total (known_usage g) (filter (nz g) p) = total (known_usage g) p.
Proof.
  induction p as [|x p IH]; simpl; [reflexivity|]. unfold nz at 1.
  destruct (N.eqb_spec (known_usage g x) 0) as [E|E]; simpl; rewrite IH; lia.
Qed.

Lemma sublist_filter {A} (f : A -> bool) l : sublist (filter f l) l.
Proof. induction l as [|x l IH]; simpl; [constructor|]. destruct (f x); constructor; exact IH. Qed.

Lemma chain_nz_opg g v p : chain g v p ->
  (forall x, In x p -> recursive g x -> known_usage g x = 0) ->
  one_per_group g (filter (nz g) p).
Proof.
  induction 1 as [v Hv|v w p Hc Hp IH]; intros Hz; simpl.
  - destruct (nz g v); constructor; [intros u [] | constructor].
  - assert (IH' : one_per_group g (filter (nz g) p)).
    { apply IH. intros x Hx; apply Hz; right; exact Hx. }
    unfold nz at 1. destruct (N.eqb_spec (known_usage g v) 0) as [E|E]; simpl; [exact IH'|].
    constructor; [|exact IH']. intros u Hu [_ Hm]. apply filter_In in Hu as [Hu _].
    apply E, Hz; [left; reflexivity|]. exists w. split; [exact Hc|].
    eapply star_trans; [eapply chain_reach; eauto | exact Hm].
Qed.

Lemma exact_tight g g' cs v n w :
  wf_graph g -> below_2_64 g v -> max_stack true g = Ret (g', cs) ->
  reported g' v (MExact n) -> true_usage g w ->
  (forall p, chain g v p -> total w p <= n) /\ (exists p, chain g v p /\ total w p = n).
Proof.
  intros Hwf Hsum Hrun Hrep Hw.
  destruct (max_stack_best _ _ _ _ _ Hwf Hrun Hrep) as [Hch Hex]. specialize (Hch Hsum).
  simpl in Hch, Hex. destruct Hex as [Hex _]. specialize (Hex I).
  destruct Hch as [[p [q [Hp [Hs [Ho Hq]]]]] Hub].
  assert (Hv : (v < node_count g)%nat).
  { eapply chain_lt; [exact Hwf | exact Hp|]. destruct (chain_head g v p Hp) as [p' ->]. left; reflexivity. }
  apply (certain_iff g v Hwf Hv) in Hex as [Hk Hz].
  assert (Heq : forall p, chain g v p -> total w p = total (known_usage g) p).
  { intros p' Hp'. apply total_ext. intros x Hx. destruct (Hk x) as [k Hk'].
    - eapply chain_reach; eauto.
    - rewrite (Hw x k Hk'), (known_usage_known g x k Hk'). reflexivity. }
  assert (Hup : forall p, chain g v p -> total w p <= n).
  { intros p' Hp'. rewrite (Heq p' Hp'), <- total_nz. eapply Hub; [exact Hp' | apply sublist_filter |].
    eapply chain_nz_opg; [exact Hp'|]. intros x Hx Hr. apply known_usage_known. apply Hz; auto.
    eapply chain_reach; eauto. }
  split; [exact Hup|]. exists p. split; [exact Hp|].
  pose proof (Hup p Hp). pose proof (sublist_total (known_usage g) q p Hs). rewrite (Heq p Hp) in *. lia.
Qed.

Lemma lower_witness g g' cs v m w :
  wf_graph g -> below_2_64 g v -> max_stack true g = Ret (g', cs) ->
  reported g' v m -> true_usage g w ->
  exists p, chain g v p /\ num m <= total w p.
Proof.
  intros Hwf Hsum Hrun Hrep Hw.
  destruct (max_stack_best _ _ _ _ _ Hwf Hrun Hrep) as [Hch _].
  destruct (Hch Hsum) as [[p [q [Hp [Hs [Ho Hq]]]]] _].
  exists p. split; [exact Hp|]. rewrite <- Hq.
  pose proof (sublist_total (known_usage g) q p Hs).
  pose proof (total_mono (known_usage g) w p (fun x _ => known_usage_le g w x Hw)). lia.
Qed.

Lemma exact_iff g g' cs v m :
  wf_graph g -> max_stack true g = Ret (g', cs) -> reported g' v m ->
  (exact m <->
   (forall u, reach g v u -> exists n, known g u n) /\
   (forall u, reach g v u -> recursive g u -> known g u 0)).
Proof.
  intros Hwf Hrun Hrep. destruct (max_stack_good _ _ _ _ _ Hwf Hrun Hrep) as [_ Hex].
  rewrite Hex. apply certain_iff; [exact Hwf|].
  destruct (max_stack_correct g Hwf) as [g1 [cs1 [H1 [H2 H3]]]]. rewrite H1 in Hrun. inversion Hrun; subst.
  rewrite <- (same_count _ _ H2). eapply reported_lt; eauto.
Qed.

Lemma all_reported g : wf_graph g ->
  exists g' cs, max_stack true g = Ret (g', cs) /\ gedges g' = gedges g /\
    map (fun nd => (nname nd, nlocal nd, ndashed nd)) (gnodes g') =
    map (fun nd => (nname nd, nlocal nd, ndashed nd)) (gnodes g) /\
    forall v, (v < node_count g)%nat -> exists m, reported g' v m.
Proof.
  intros Hwf. destruct (max_stack_correct g Hwf) as [g' [cs [H1 [[H2 H2'] H3]]]].
  exists g', cs. split; [exact H1|]. split; [exact H2|]. split.
  - apply (f_equal (map (fun nd => (nname nd, nlocal nd, ndashed nd)))) in H2'.
    rewrite !map_map in H2'. simpl in H2'. exact H2'.
  - intros v Hv. destruct (H3 v Hv) as [m [Hm _]]. eauto.
Qed.

Lemma number_is_charge g g' cs v m :
  wf_graph g -> below_2_64 g v -> max_stack true g = Ret (g', cs) -> reported g' v m ->
  charge g v (num m) /\ (forall n, charge g v n -> n = num m).
Proof.
  intros Hwf Hsum Hrun Hrep. destruct (max_stack_best _ _ _ _ _ Hwf Hrun Hrep) as [Hch _].
  split; [auto|]. intros n Hn. eapply charge_unique; eauto.
Qed.

Lemma exact_ext m m' : num m = num m' -> (exact m <-> exact m') -> m = m'.
Proof.
  destruct m, m'; simpl; intros H1 H2; subst; try reflexivity; exfalso; tauto.
Qed.

Lemma good_max_unique g v m m' :
  below_2_64 g v -> good_max g v m -> good_max g v m' -> m = m'.
Proof.
  intros Hsum [H1 H2] [H3 H4]. apply exact_ext.
  - eapply charge_unique; eauto.
  - rewrite H2, H4. reflexivity.
Qed.

Lemma best_max_unique g v m m' : usages_u64 g -> best_max g v m -> best_max g v m' -> m = m'.
Proof.
  intros U [[_ H2] W1] [[_ H4] W2]. apply exact_ext; [exact (wrapped_unique g v _ (W1 U) _ (W2 U)) | rewrite H2, H4; reflexivity].
Qed.
Lemma max_stack_wrapped g g' cs v m :
  wf_graph g -> max_stack true g = Ret (g', cs) -> reported g' v m -> best_max g v m.
Proof.
  intros Hwf Hrun Hrep. destruct (max_stack_sure g Hwf) as [g1 [cs1 [H1 [H2 H3]]]].
  rewrite H1 in Hrun. inversion Hrun; subst.
  destruct (H3 v) as [m' [Hm' Hg]].
  - destruct Hrep as [nd [Hn _]]. rewrite <- (same_count _ _ H2). unfold node_count.
    apply nth_error_Some. congruence.
  - rewrite (reported_fun _ _ _ _ Hrep Hm'). exact Hg.
Qed.
Lemma sum_u64 g : sum_known g < two64 -> usages_u64 g.
Proof.
  intros H u n K. assert (L : (u < node_count g)%nat).
  { unfold known, local_of in K. apply nth_error_Some. intros E. rewrite E in K. discriminate K. }
  eapply N.le_lt_trans; [|exact H]. apply known_usage_known in K. rewrite <- K. replace (known_usage g u) with (total (known_usage g) [u]) by (simpl; lia).
  apply total_sub; [constructor; [intros [] | constructor]|]. intros x [<-|[]]. apply in_seq. lia.
Qed.

Lemma passes_agree g : wf_graph g -> usages_u64 g -> acyclic g ->
  max_stack true g = acyclic_pass g /\
  exists g1 g2, cyclic_pass g = Ret (g1, []) /\ acyclic_pass g = Ret (g2, []) /\ g1 = g2.
Proof.
  intros Hwf Hsum Hac. unfold max_stack. simpl.
  destruct (is_cyclic_correct g Hwf) as [[_ [v Hv]]|[-> [_ Hl]]]; [exfalso; eapply Hac; eauto|].
  split; [reflexivity|].
  destruct (cyclic_pass_best g Hwf) as [g1 [ls [_ [HS [H1 [H2 H3]]]]]].
  destruct (acyclic_pass_best g Hwf Hac Hl) as [g2 [H4 [H5 H6]]].
  exists g1, g2. split; [|split; [exact H4|]].
  - rewrite H1. f_equal. f_equal.
    assert (Hno : forall c, In c ls -> group_is_cycle g c = false).
    { intros c Hc. destruct c as [|f c]; [reflexivity|]. simpl.
      destruct (is_a_cycle g (f :: c) f) eqn:E; [|reflexivity]. exfalso.
      assert (HG : is_group g (f :: c)).
      { destruct HS as [S1 S2 S3 S4 S5]. split; [discriminate|]. split.
        - intros x Hx. apply S2. apply in_concat. exists (f :: c); auto.
        - intros x y Hx. apply S4; auto. }
      assert (Hnd : NoDup (f :: c)).
      { destruct HS as [S1 _ _ _ _]. apply in_split in Hc as [l1 [l2 ->]].
        rewrite concat_app in S1. simpl in S1. revert S1. generalize (concat l1). intros l.
        induction l as [|a l IHl]; simpl; intros H.
        - eapply (NoDup_app_l (f :: c)); eauto.
        - inversion H; auto. }
      pose proof (group_recursive g (f :: c) f HG Hnd eq_refl) as HR. rewrite E in HR.
      apply (Hac f), HR. left; reflexivity. }
    clear - Hno. induction ls as [|c ls IH]; simpl; [reflexivity|].
    rewrite (Hno c (or_introl eq_refl)). apply IH. intros x Hx; apply Hno; right; exact Hx.
  - (* same node data and same maxima *)
    destruct g1 as [n1 e1], g2 as [n2 e2], H2 as [He1 Hn1], H5 as [He2 Hn2]. simpl in *.
    f_equal; [|congruence].
    assert (Hmax : forall v nd1 nd2, nth_error n1 v = Some nd1 -> nth_error n2 v = Some nd2 ->
              nmax nd1 = nmax nd2).
    { intros v nd1 nd2 Hv1 Hv2.
      assert (Hv : (v < node_count g)%nat).
      { unfold node_count. rewrite <- (map_length (fun nd => set_max nd None)), <- Hn1, map_length.
        apply nth_error_Some. congruence. }
      destruct (H3 v Hv) as [m1 [[a [Ha1 Ha2]] Hg1]]. destruct (H6 v Hv) as [m2 [[b [Hb1 Hb2]] Hg2]].
      simpl in *. rewrite Hv1 in Ha1. rewrite Hv2 in Hb1. inversion Ha1; inversion Hb1; subst.
      rewrite Ha2, Hb2. f_equal. eapply best_max_unique; eassumption. }
    rewrite <- Hn2 in Hn1. clear - Hn1 Hmax. revert n2 Hn1 Hmax.
    induction n1 as [|x n1 IH]; intros [|y n2] H Hmax; simpl in H; try congruence.
    f_equal.
    + assert (nmax x = nmax y) by (apply (Hmax 0%nat); reflexivity).
      inversion H; destruct x, y; simpl in *; congruence.
    + apply IH; [inversion H; auto|]. intros v nd1 nd2 H1 H2. apply (Hmax (S v)); auto.
Qed.

(** Pumping a recursive function. *)
Lemma recursive_pump (g : graph node) (w : nat -> N) v u : wf_graph g ->
  reach g v u -> recursive g u -> forall k, exists p, chain g v p /\ N.of_nat k * w u <= total w p.
Proof.
  intros Hwf Hr [x [Hc Hx]] k.
  assert (Hu : (u < node_count g)%nat) by (apply Hwf in Hc; tauto).
  assert (Hloop : exists p, chain g u p /\ N.of_nat k * w u <= total w p).
  { induction k as [|k [p [Hp Hk]]].
    - exists [u]. split; [constructor; exact Hu | simpl; lia].
    - destruct (chain_extend g x u p Hx Hp) as [pre [Hpre _]].
      exists (u :: pre ++ p). split; [econstructor; eauto|].
      simpl total. rewrite total_app. lia. }
  destruct Hloop as [p [Hp Hk]]. destruct (chain_extend g v u p Hr Hp) as [pre [Hpre _]].
  exists (pre ++ p). split; [exact Hpre|]. rewrite total_app. lia.
Qed.

Lemma recursion_unbounded g g' cs v u n m w :
  wf_graph g -> max_stack true g = Ret (g', cs) ->
  reach g v u -> recursive g u -> known g u n -> n <> 0 ->
  reported g' v m -> true_usage g w ->
  ~ exact m /\ forall b, exists p, chain g v p /\ b < total w p.
Proof.
  intros Hwf Hrun Hr Hrec Hk Hn Hrep Hw. split.
  - destruct (max_stack_good _ _ _ _ _ Hwf Hrun Hrep) as [_ Hex]. intros He. apply Hex in He. apply He.
    right. exists u, n. auto.
  - intros b. destruct (recursive_pump g w v u Hwf Hr Hrec (S (N.to_nat b))) as [p [Hp Hb]].
    exists p. split; [exact Hp|]. rewrite (Hw u n Hk) in Hb.
    assert (1 * (b + 1) <= n * (b + 1)) by (apply N.mul_le_mono_r; lia). lia.
Qed.

Lemma charge_le_caller g f h n m : calls g f h -> charge g f n -> charge g h m -> m <= n.
Proof.
  intros Hc [_ Hub] [[p [q [Hp [Hs [Ho <-]]]]] _]. eapply Hub; [econstructor; eauto | constructor; exact Hs | exact Ho].
Qed.

Lemma charge_plus_caller g f h n m : calls g f h -> ~ mutual g f h -> charge g f n -> charge g h m ->
  known_usage g f + m <= n.
Proof.
  intros Hc Hnm [_ Hub] [[p [q [Hp [Hs [Ho <-]]]]] _].
  apply (Hub (f :: p) (f :: q)); [econstructor; eauto | constructor; exact Hs |].
  constructor; [|exact Ho]. intros u Hu [_ Hm]. apply Hnm. split.
  - apply star_one; exact Hc.
  - eapply star_trans; [eapply chain_reach; [exact Hp | eapply sublist_In; eauto] | exact Hm].
Qed.

Lemma caller_covers g g' cs f h mf mh :
  wf_graph g -> below_2_64 g f -> max_stack true g = Ret (g', cs) ->
  calls g f h -> reported g' f mf -> reported g' h mh ->
  num mh <= num mf /\ (~ mutual g f h -> known_usage g f + num mh <= num mf) /\ (exact mf -> exact mh).
Proof.
  intros Hwf Hsum Hrun Hc Hf Hh.
  destruct (max_stack_best _ _ _ _ _ Hwf Hrun Hf) as [Hcf Hef]. specialize (Hcf Hsum).
  destruct (max_stack_best _ _ _ _ _ Hwf Hrun Hh) as [Hch Heh]. specialize (Hch (below_reach g f h (star_one _ _ _ Hc) Hsum)).
  split; [eapply charge_le_caller; eauto|]. split; [intros; eapply charge_plus_caller; eauto|].
  rewrite Hef, Heh. intros H Hu. apply H.
  destruct Hu as [[u [Hr Hu]]|[u [n [Hr Hu]]]].
  - left. exists u. split; [econstructor; eauto | exact Hu].
  - right. exists u, n. split; [econstructor; eauto | exact Hu].
Qed.

(** ** Clusters *)
Lemma clusters_exact g g' cs :
  wf_graph g -> max_stack true g = Ret (g', cs) ->
  NoDup (concat cs) /\
  (forall c, In c cs -> c <> []) /\
  (forall v, recursive g v <-> In v (concat cs)) /\
  (forall c x y, In c cs -> In x c -> (In y c <-> mutual g x y)).
Proof.
  intros Hwf. unfold max_stack. simpl.
  destruct (is_cyclic_correct g Hwf) as [[-> _]|[-> [Hac Hl]]].
  - destruct (cyclic_pass_best g Hwf) as [g1 [ls [_ [HS [H1 _]]]]]. rewrite H1. intros H; inversion H; subst; clear H.
    assert (HG : forall c, In c ls -> is_group g c).
    { intros c Hc. destruct HS as [S1 S2 S3 S4 S5]. split; [auto|]. split.
      - intros x Hx. apply S2. apply in_concat. exists c; auto.
      - intros x y Hx. apply S4; auto. }
    assert (Hnd : forall c, In c ls -> NoDup c).
    { intros c Hc. destruct HS as [S1 _ _ _ _]. apply in_split in Hc as [l1 [l2 ->]].
      rewrite concat_app in S1. simpl in S1. revert S1. generalize (concat l1). intros l.
      induction l as [|a l IHl]; simpl; intros H.
      - eapply NoDup_app_l; eauto.
      - inversion H; auto. }
    assert (Hcyc : forall c x, In c ls -> In x c -> (group_is_cycle g c = true <-> recursive g x)).
    { intros c x Hc Hx. destruct c as [|f c]; [destruct Hx|]. simpl.
      pose proof (group_recursive g (f :: c) f (HG _ Hc) (Hnd _ Hc) eq_refl) as HR.
      destruct (is_a_cycle g (f :: c) f).
      - split; [intros _; apply HR; exact Hx | reflexivity].
      - destruct HR as [HR1 HR2]. rewrite HR1 in Hx. destruct Hx as [<-|[]].
        split; [discriminate | intros H; contradiction]. }
    split; [|split; [|split]].
    + destruct HS as [S1 _ _ _ _]. clear - S1.
      induction ls as [|c ls IH]; simpl; [constructor|]. simpl in S1.
      assert (NoDup (concat ls)).
      { clear - S1. induction c as [|a c IHc]; simpl in S1; [exact S1 | inversion S1; auto]. }
      destruct (group_is_cycle g c); [|apply IH; exact H]. simpl.
      apply NoDup_app_intro; [eapply NoDup_app_l; eauto | apply IH; exact H |].
      intros x Hx Hx'. apply in_concat in Hx' as [d [Hd1 Hd2]]. apply filter_In in Hd1 as [Hd1 _].
      clear - S1 Hx Hd1 Hd2. induction c as [|a c IHc]; [destruct Hx|].
      simpl in S1. inversion S1; subst. destruct Hx as [->|Hx]; [|apply IHc; auto].
      apply H1, in_or_app; right. apply in_concat. exists d; auto.
    + intros c Hc. apply filter_In in Hc as [Hc _]. apply HG; exact Hc.
    + intros v. rewrite in_concat. split.
      * intros Hr. pose proof Hr as [w [Hw _]]. apply Hwf in Hw as [Hv _].
        apply (sl_all g ls HS) in Hv. apply in_concat in Hv as [c [Hc Hv]].
        exists c. split; [|exact Hv]. apply filter_In. split; [exact Hc|]. apply (Hcyc c v); auto.
      * intros [c [Hc Hv]]. apply filter_In in Hc as [Hc Hcy]. apply (Hcyc c v); auto.
    + intros c x y Hc. apply filter_In in Hc as [Hc _]. intros Hx. apply (HG c Hc); exact Hx.
  - destruct (acyclic_pass_best g Hwf Hac Hl) as [g1 [H1 _]]. rewrite H1. intros H; inversion H; subst.
    split; [constructor|]. split; [intros c []|]. split; [|intros c x y []].
    intros v. split; [intros Hr; exfalso; eapply Hac; eauto | intros []].
Qed.

Lemma cyclic_pass_used g v : wf_graph g -> recursive g v -> max_stack true g = cyclic_pass g.
Proof.
  intros Hwf Hv. unfold max_stack. simpl.
  destruct (is_cyclic_correct g Hwf) as [[-> _]|[_ [Hac _]]]; [reflexivity|]. exfalso; eapply Hac; eauto.
Qed.

Lemma no_wrap g g' cs v m :
  wf_graph g -> below_2_64 g v -> max_stack true g = Ret (g', cs) -> reported g' v m ->
  charge g v (num m) /\ num m < two64.
Proof.
  intros Hwf Hsum Hrun Hrep. destruct (number_is_charge _ _ _ _ _ Hwf Hsum Hrun Hrep) as [H _].
  split; [exact H|]. exact (below_charge g v _ Hsum H).
Qed.

Lemma wrap_refuted :
  exists g g' cs n p,
    wf_graph g /\ max_stack true g = Ret (g', cs) /\ reported g' 0 (MExact n) /\
    chain g 0 p /\ n < total (known_usage g) p.
Proof.
  exists (mkG [new_node (lit "f") (Some 18446744073709551615) false; new_node (lit "g") (Some 1) false]
              [(0, 1)]%nat).
  eexists. eexists. exists 0, [0; 1]%nat. split; [|split; [vm_compute; reflexivity|]].
  - intros u v H. unfold calls in H. simpl in H. destruct H as [H|[]]. inversion H; subst.
    unfold node_count; simpl; lia.
  - split; [eexists; split; reflexivity|]. split; [|reflexivity].
    econstructor; [unfold calls; simpl; left; reflexivity|]. constructor. unfold node_count; simpl; lia.
Qed.

(** * The numbers have 64 bits *)
Definition small_at (g : graph node) (done : list nat) : Prop := usages_u64 g /\ forall v m, In v done -> reported g v m -> num m < two64.
Lemma known_set g i m u n : known (set_node_max g i m) u n <-> known g u n.
Proof. unfold known. rewrite (same_local_of g _ u (set_node_max_same g i m)). reflexivity. Qed.
Lemma reported_set g i m j m' : i <> j -> reported (set_node_max g i m) j m' -> reported g j m'.
Proof. intros D [nd [H1 H2]]. exists nd. split; [|exact H2]. cbn [set_node_max gnodes] in H1. rewrite nth_upd_other in H1 by exact D. exact H1. Qed.
Lemma reported_set_same g i m m' : reported (set_node_max g i m) i m' -> m' = m.
Proof.
  intros [nd [H1 H2]]. cbn [set_node_max gnodes] in H1. rewrite nth_upd_same in H1. destruct (nth_error (gnodes g) i) as [x|]; [|discriminate H1].
  cbn [option_map] in H1. injection H1 as <-. destruct x; cbn in H2. congruence.
Qed.
Lemma small_set g i m done : num m < two64 -> small_at g done -> small_at (set_node_max g i m) (i :: done).
Proof.
  intros L [U H]. split; [intros u n K; apply (U u n); exact (proj1 (known_set g i m u n) K)|]. intros v m' I R.
  destruct (Nat.eq_dec i v) as [<-|D]; [rewrite (reported_set_same _ _ _ _ R); exact L|]. destruct I as [I|I]; [congruence|]. exact (H v m' I (reported_set _ _ _ _ _ D R)).
Qed.
Lemma small_more g a b : incl b a -> small_at g a -> small_at g b.
Proof. intros I [U H]. split; [exact U|]. intros v m K. apply H. now apply I. Qed.
Lemma small_fold m c : num m < two64 -> forall g done, small_at g done -> small_at (fold_left (fun g i => set_node_max g i m) c g) (c ++ done).
Proof.
  intros L. induction c as [|i c IH]; intros g done H; cbn [fold_left app]; [exact H|].
  apply (small_more _ (c ++ i :: done)); [|apply IH; now apply small_set]. intros x [<-|I]; [apply in_or_app; right; now left|].
  apply in_app_or in I. apply in_or_app. destruct I as [I|I]; [now left | right; now right].
Qed.
Lemma local_small g v l : usages_u64 g -> get_local g v = Ret l -> num (local_into_max l) < two64.
Proof.
  intros U E. unfold get_local in E. destruct (nth_error (gnodes g) v) as [nd|] eqn:En; [|discriminate E]. injection E as <-.
  destruct (nlocal nd) as [n|] eqn:El; [|reflexivity]. apply (U v n). unfold known, local_of. rewrite En. cbn. now rewrite El.
Qed.
Lemma u64_small a b : u64_add a b < two64.
Proof. unfold u64_add. apply N.mod_lt. vm_compute. discriminate. Qed.
Lemma add_local_small m l : num m < two64 -> num (add_local m l) < two64.
Proof. intros L. destruct m, l; cbn [add_local num]; try apply u64_small; exact L. Qed.
Lemma add_max_small m k : num (add_max m k) < two64.
Proof. destruct m, k; cbn [add_max num]; apply u64_small. Qed.
Lemma map_outcome_in {A B} (f : A -> outcome B) l : forall ys y, map_outcome f l = Ret ys -> In y ys -> exists x, In x l /\ f x = Ret y.
Proof.
  induction l as [|x l IH]; intros ys y H I; cbn [map_outcome] in H; [injection H as <-; destruct I|].
  destruct (f x) as [b| | |] eqn:E; try discriminate H. cbn [bind] in H. destruct (map_outcome f l) as [bs| | |]; try discriminate H. cbn [bind] in H. injection H as <-.
  destruct I as [<-|I]; [exists x; split; [now left | exact E]|]. destruct (IH bs y eq_refl I) as [z [Z1 Z2]]. exists z. split; [now right | exact Z2].
Qed.
Lemma get_max_reported g v m : get_max g v = Ret m -> reported g v m.
Proof.
  unfold get_max. destruct (nth_error (gnodes g) v) as [nd|] eqn:E; [|discriminate]. destruct (nmax nd) as [x|] eqn:E2; [|discriminate]. intros H. injection H as <-. exists nd. split; assumption.
Qed.
Lemma max_of_in ls m : max_of ls = Some m -> exists k, In k ls /\ num k = num m.
Proof. intros H. destruct (max_of_spec _ _ H) as [K _]. exact K. Qed.
Lemma small_single g v g' done : (forall w, In w (out_nbrs g v) -> In w done) -> process_single g v = Ret g' -> small_at g done -> small_at g' (v :: done).
Proof.
  intros C H S. unfold process_single in H. destruct (map_outcome (get_max g) (out_nbrs g v)) as [ms| | |] eqn:Em; try discriminate H. cbn [bind] in H.
  destruct (get_local g v) as [l| | |] eqn:El; try discriminate H. cbn [bind] in H. injection H as <-. apply small_set; [|exact S].
  destruct (max_of ms) as [mx|] eqn:Ex; [|exact (local_small g v l (proj1 S) El)]. apply add_local_small. destruct (max_of_in _ _ Ex) as [k [Ik <-]].
  destruct (map_outcome_in _ _ _ _ Em Ik) as [w [Iw Gw]]. apply (proj2 S w k); [now apply C | now apply get_max_reported].
Qed.
Lemma small_cycle g c g' done : process_cycle g c = Ret g' -> small_at g done -> small_at g' (c ++ done).
Proof.
  intros H S. unfold process_cycle in H. destruct (map_outcome (get_local g) c) as [ls| | |] eqn:El; try discriminate H. cbn [bind] in H.
  destruct (max_of (map local_into_max ls)) as [sl0|] eqn:Es; [|discriminate H]. cbv zeta in H.
  set (sl := match sl0 with MExact n => if N.eqb n 0 then sl0 else MLower n | MLower _ => sl0 end) in *.
  assert (Nsl : num sl = num sl0) by (unfold sl; destruct sl0 as [n|n]; [destruct (N.eqb n 0)|]; reflexivity).
  destruct (map_outcome (get_max g) _) as [ms| | |]; try discriminate H. cbn [bind] in H. injection H as <-. apply small_fold; [|exact S].
  destruct (max_of ms); [apply add_max_small|]. rewrite Nsl. destruct (max_of_in _ _ Es) as [k [Ik <-]]. apply in_map_iff in Ik. destruct Ik as [l [<- Il]].
  destruct (map_outcome_in _ _ _ _ El Il) as [u [_ Gu]]. exact (local_small g u l (proj1 S) Gu).
Qed.

(** * Going through the passes *)
Section Walk.
Variable g : graph node.
Hypothesis W : wf_graph g.
Lemma group_at pre c rest : scc_list g (pre ++ c :: rest) -> is_group g c /\ NoDup c /\ (forall w, leaves g c w -> In w (concat pre)).
Proof.
  intros HS. split; [|split].
  - destruct HS as [S1 S2 S3 S4 S5]. assert (Hin : In c (pre ++ c :: rest)) by (apply in_or_app; right; left; reflexivity).
    split; [apply S3; exact Hin|]. split; [intros x Hx; apply S2; apply in_concat; exists c; auto | intros x y Hx; apply S4; auto].
  - destruct HS as [S1 _ _ _ _]. rewrite concat_app in S1. simpl in S1.
    revert S1. generalize (concat pre). intros l. induction l as [|a l IHl]; simpl; intros H; [eapply NoDup_app_l; eauto | inversion H; auto].
  - intros w [x [Hx [Hc Hn]]]. destruct HS as [_ _ _ _ S5]. destruct (S5 pre c rest x w eq_refl Hx) as [H|H]; [apply star_one; exact Hc | contradiction | exact H].
Qed.
Lemma cycle_same gk done c first : Inv g gk done -> is_a_cycle gk c first = is_a_cycle g c first.
Proof. intros HI. unfold is_a_cycle. rewrite (same_out g gk first (proj1 HI)). reflexivity. Qed.
(** One group: what the passes need to know about it. *)
Lemma one_step gk pre first c' rest : let c := first :: c' in scc_list g (pre ++ c :: rest) -> Inv g gk (concat pre) ->
  exists gk', (if is_a_cycle g c first then process_cycle gk c else process_single gk first) = Ret gk' /\ Inv g gk' (concat (pre ++ [c])) /\
    (is_a_cycle g c first = false -> c = [first] /\ (first < node_count g)%nat /\ (forall w, calls g first w -> In w (concat pre))).
Proof.
  intros c HS HI. destruct (group_at pre c rest HS) as [HG [Hnd Hleav]]. pose proof HG as [Hne [Hlt HC]].
  pose proof (group_recursive g c first HG Hnd eq_refl) as Hrec. destruct (is_a_cycle g c first).
  - destruct (process_cycle_correct g gk (concat pre) c HI HG Hrec Hleav) as [gk' [H HI']]. exists gk'. split; [exact H|]. split; [|discriminate].
    split; [apply HI'|]. intros v Hv. apply HI'. rewrite concat_app in Hv. simpl in Hv. rewrite app_nil_r in Hv. apply in_app_or in Hv as [Hv|Hv]; apply in_or_app; auto.
  - destruct Hrec as [Hc1 Hnr].
    assert (Hcl : forall w, calls g first w -> In w (concat pre)).
    { intros w Hw. apply Hleav. exists first. split; [left; reflexivity|]. split; [exact Hw|]. rewrite Hc1. intros [<-|[]]. apply Hnr. exists first. split; [exact Hw | constructor]. }
    assert (Hf : (first < node_count g)%nat) by (apply Hlt; left; reflexivity).
    destruct (process_single_correct g gk (concat pre) first HI Hf Hnr Hcl) as [gk' [H HI']].
    { intros y Hy. apply (HC first y (or_introl eq_refl)) in Hy. rewrite Hc1 in Hy. destruct Hy as [<-|[]]; reflexivity. }
    exists gk'. split; [exact H|]. split; [|intros _; split; [exact Hc1|]; split; [exact Hf | exact Hcl]].
    split; [apply HI'|]. intros v Hv. apply HI'. rewrite concat_app in Hv. assert (Hcc : concat [c] = [first]) by (rewrite Hc1; reflexivity). rewrite Hcc in Hv.
    apply in_app_or in Hv as [Hv|[<-|[]]]; [right; exact Hv | left; reflexivity].
Qed.
Variable P : graph node -> list nat -> Prop.
Hypothesis Single : forall gk done v gk', Inv g gk done -> P gk done -> (forall w, calls g v w -> In w done) -> process_single gk v = Ret gk' -> P gk' (v :: done).
Hypothesis Cycle : forall gk done c gk', Inv g gk done -> P gk done -> process_cycle gk c = Ret gk' -> P gk' (c ++ done).
Hypothesis More : forall gk a b, incl b a -> P gk a -> P gk b.
Lemma walk_sccs rest : forall pre gk cyc g' cs, scc_list g (pre ++ rest) -> Inv g gk (concat pre) -> P gk (concat pre) ->
  process_sccs gk rest cyc = Ret (g', cs) -> P g' (concat (pre ++ rest)).
Proof.
  induction rest as [|c rest IH]; intros pre gk cyc g' cs HS HI HP E; [rewrite app_nil_r; cbn in E; injection E as <- _; exact HP|].
  destruct c as [|first c']; [discriminate E|]. set (c := first :: c') in *.
  change (process_sccs gk (c :: rest) cyc) with
    (if is_a_cycle gk c first then let* gx := process_cycle gk c in process_sccs gx rest (c :: cyc) else let* gx := process_single gk first in process_sccs gx rest cyc) in E.
  rewrite (cycle_same gk _ c first HI) in E. destruct (one_step gk pre first c' rest HS HI) as [gk' [H1 [H2 H3]]]. fold c in H1, H2, H3.
  replace (pre ++ c :: rest) with ((pre ++ [c]) ++ rest) in * by (rewrite <- app_assoc; reflexivity).
  destruct (is_a_cycle g c first).
  - rewrite H1 in E. cbn [bind] in E. apply (IH (pre ++ [c]) gk' (c :: cyc) g' cs HS H2); [|exact E]. apply (More _ (c ++ concat pre)); [|exact (Cycle _ _ _ _ HI HP H1)].
    intros x Hx. rewrite concat_app in Hx. simpl in Hx. rewrite app_nil_r in Hx. apply in_app_or in Hx. apply in_or_app. tauto.
  - rewrite H1 in E. cbn [bind] in E. destruct (H3 eq_refl) as [Hc1 [Hf Hcl]]. apply (IH (pre ++ [c]) gk' cyc g' cs HS H2); [|exact E].
    apply (More _ (first :: concat pre)); [|exact (Single _ _ _ _ HI HP Hcl H1)].
    intros x Hx. rewrite concat_app in Hx. assert (Hcc : concat [c] = [first]) by (rewrite Hc1; reflexivity). rewrite Hcc in Hx. apply in_app_or in Hx as [Hx|[<-|[]]]; [right; exact Hx | left; reflexivity].
Qed.
Lemma walk_topo : acyclic g -> forall rest pre gk g', topo g (rev rest ++ pre) -> (forall x, In x (rev rest ++ pre) -> (x < node_count g)%nat) -> Inv g gk pre -> P gk pre ->
  process_topo gk rest = Ret g' -> P g' (rev rest ++ pre).
Proof.
  intros Hac. induction rest as [|v rest IH]; intros pre gk g' Ht Hlt HI HP E; [cbn in E; injection E as <-; exact HP|].
  simpl in Ht, Hlt. simpl. rewrite <- app_assoc in *. simpl in *.
  assert (Hv : (v < node_count g)%nat) by (apply Hlt; apply in_or_app; right; left; reflexivity).
  assert (Hcl : forall w, calls g v w -> In w pre).
  { intros w Hw. clear - Ht Hw. induction (rev rest) as [|a l IHl]; simpl in Ht; [apply Ht; exact Hw | apply IHl, Ht]. }
  destruct (process_single_correct g gk pre v HI Hv (Hac v) Hcl) as [gk' [H HI']]; [intros y; apply acyclic_mutual; exact Hac|].
  rewrite H in E. cbn [bind] in E. apply (IH (v :: pre) gk' g' Ht Hlt HI'); [|exact E]. exact (Single _ _ _ _ HI HP Hcl H).
Qed.
Lemma walk_max g' cs : P g [] -> max_stack true g = Ret (g', cs) -> exists done, P g' done /\ forall v, (v < node_count g)%nat -> In v done.
Proof.
  intros HP E. unfold max_stack in E. cbn [negb] in E. destruct (is_cyclic_correct g W) as [[K _]|[K [Ac Hl]]]; rewrite K in E.
  - unfold cyclic_pass in E. destruct (kosaraju_correct g W) as [ls [K2 HS]]. rewrite K2 in E. exists (concat ls). split; [exact (walk_sccs ls [] g [] g' cs HS (Inv_start g) HP E)|].
    apply (sl_all g ls HS).
  - unfold acyclic_pass in E. destruct (topo_reversed_correct g W Hl) as [order [K2 [Ht [Hnd Hall]]]]. rewrite K2 in E.
    destruct (process_topo g (rev order)) as [g2| | |] eqn:E2; try discriminate E. cbn [bind] in E. injection E as <- _. exists order. split; [|intros v; apply Hall].
    replace order with (rev (rev order) ++ []) by (rewrite rev_involutive, app_nil_r; reflexivity). apply (walk_topo Ac (rev order) [] g); try (rewrite rev_involutive, app_nil_r).
    + exact Ht.
    + intros x Hx. now apply Hall.
    + apply Inv_start.
    + exact HP.
    + exact E2.
Qed.
End Walk.
Lemma numbers_u64 g g' cs v m : wf_graph g -> usages_u64 g -> max_stack true g = Ret (g', cs) -> reported g' v m -> num m < two64.
Proof.
  intros W U E R. destruct (walk_max g W small_at) with (g' := g') (cs := cs) as [done [S D]].
  - intros gk done u gk' HI S C H. eapply small_single; [|exact H|exact S]. intros w Hw. rewrite (same_out g gk u (proj1 HI)) in Hw. apply out_nbrs_In in Hw. now apply C.
  - intros gk done c gk' _ S H. exact (small_cycle _ _ _ _ H S).
  - exact small_more.
  - split; [exact U | intros ? ? []].
  - exact E.
  - apply (proj2 S v m); [|exact R]. apply D. destruct (max_stack_correct g W) as [g1 [cs1 [H1 [H2 _]]]]. rewrite H1 in E. injection E as -> _.
    rewrite <- (same_count _ _ H2). eapply reported_lt; exact R.
Qed.
Lemma number_right_iff g g' cs v m : wf_graph g -> usages_u64 g -> max_stack true g = Ret (g', cs) -> reported g' v m ->
  num m < 2 ^ 64 /\ (charge g v (num m) <-> below_2_64 g v).
Proof.
  intros W U E R. pose proof (numbers_u64 _ _ _ _ _ W U E R) as L. split; [exact L|]. split; [|apply (max_stack_best _ _ _ _ _ W E R)].
  intros C. exact (charge_below g v _ C L).
Qed.

Definition wrapping : graph node := mkG [new_node (lit "f") (Some 18446744073709551615) false; new_node (lit "g") (Some 1) false] [(0, 1)]%nat.
Definition wrapping_done : graph node * list (list nat) := match max_stack true wrapping with Ret x => x | _ => (wrapping, []) end.
Lemma wrapping_ok : wf_graph wrapping /\ usages_u64 wrapping /\ max_stack true wrapping = Ret wrapping_done /\
  reported (fst wrapping_done) 0 (MExact 0) /\ ~ below_2_64 wrapping 0 /\ reported (fst wrapping_done) 1 (MExact 1) /\ below_2_64 wrapping 1.
Proof.
  assert (W : wf_graph wrapping) by (intros u v H; unfold calls in H; simpl in H; destruct H as [H|[]]; inversion H; subst; unfold node_count; simpl; lia).
  assert (U : usages_u64 wrapping).
  { intros u n K. unfold known, local_of in K. destruct u as [|[|u]]; cbn in K; [injection K as <-; vm_compute; reflexivity.. | destruct u; discriminate K]. }
  assert (R0 : reported (fst wrapping_done) 0 (MExact 0)) by (eexists; split; vm_compute; reflexivity).
  assert (R1 : reported (fst wrapping_done) 1 (MExact 1)) by (eexists; split; vm_compute; reflexivity).
  assert (M : max_stack true wrapping = Ret wrapping_done) by (vm_compute; reflexivity).
  split; [exact W|]. split; [exact U|]. split; [exact M|]. split; [exact R0|]. split; [|split; [exact R1|]].
  - intros B. specialize (B [0; 1]%nat [0; 1]%nat). assert (K : total (known_usage wrapping) [0; 1]%nat < 2 ^ 64); [apply B | vm_compute in K; discriminate K].
    + econstructor; [unfold calls; simpl; left; reflexivity|]. constructor. unfold node_count; simpl; lia.
    + apply sublist_refl.
    + constructor; [|constructor; [intros ? [] | constructor]]. intros u [<-|[]] [_ H]. inversion H as [|a b c H1 H2]; subst. unfold calls in H1. simpl in H1. destruct H1 as [H1|[]]. discriminate H1.
  - intros p q Hp Hs _. inversion Hp as [a L|a b c Hc _]; subst; [|unfold calls in Hc; simpl in Hc; destruct Hc as [Hc|[]]; discriminate Hc].
    pose proof (sublist_total (known_usage wrapping) q [1%nat] Hs) as K. eapply N.le_lt_trans; [exact K | vm_compute; reflexivity].
Qed.
