(** Debug and release builds: the maxima and the assertions. *)
From Verif Require Import M_base M_stack M_graph M_analysis M_filter M_names M_thumb M_ty M_parse M_render M_build M_run M_debug S_graph S_debug
  L_base L_trav L_kosaraju L_topo L_charge L_analysis L_maxprops L_debug1.
Local Open Scope N_scope.

(** * The operations *)
Lemma so_add_local m l : add_local_d m l <~ Ret (add_local m l).
Proof. destruct m, l; cbn [add_local_d add_local]; try apply so_refl; (eapply so_ret; [apply so_add_u64 | apply so_refl]). Qed.
Lemma so_add_max m k : add_max_d m k <~ Ret (add_max m k).
Proof. destruct m, k; cbn [add_max_d add_max]; (eapply so_ret; [apply so_add_u64 | apply so_refl]). Qed.
Lemma add_local_d_ok m l : num m + num (local_into_max l) < two64 -> add_local_d m l = Ret (add_local m l).
Proof.
  destruct m, l; cbn [add_local_d add_local num local_into_max]; intros H; try reflexivity;
    rewrite add_u64_ok by exact H; cbn [bind]; unfold u64_add; rewrite N.mod_small by exact H; reflexivity.
Qed.
Lemma add_max_d_ok m k : num m + num k < two64 -> add_max_d m k = Ret (add_max m k).
Proof.
  destruct m, k; cbn [add_max_d add_max num]; intros H; rewrite add_u64_ok by exact H; cbn [bind]; unfold u64_add; rewrite N.mod_small by exact H; reflexivity.
Qed.

(** * One group *)
Lemma so_single g v : process_single_d g v <~ process_single g v.
Proof.
  unfold process_single_d, process_single. apply so_bind_same. intros ms _. apply so_bind_same. intros l _.
  destruct (max_of ms) as [mx|]; [|apply so_refl]. eapply so_ret; [apply so_add_local | apply so_refl].
Qed.
Lemma so_cycle g c : process_cycle_d g c <~ process_cycle g c.
Proof.
  unfold process_cycle_d, process_cycle. apply so_bind_same. intros ls _. destruct (max_of (map local_into_max ls)) as [l|]; [|apply so_refl].
  cbv zeta. apply so_bind_same. intros ms _. destruct (max_of ms) as [mx|]; [|apply so_refl]. eapply so_ret; [apply so_add_max | apply so_refl].
Qed.
Lemma so_sccs cs : forall g cyc, process_sccs_d g cs cyc <~ process_sccs g cs cyc.
Proof.
  induction cs as [|[|f c] cs IH]; intros g cyc; cbn [process_sccs_d process_sccs]; try apply so_refl.
  destruct (is_a_cycle g (f :: c) f); (apply so_bind; [first [apply so_cycle | apply so_single]|]; intros g' _; apply IH).
Qed.

(** * The assertion of the acyclic pass *)
Definition fresh_at (g : graph node) (v : nat) : Prop := exists nd, nth_error (gnodes g) v = Some nd /\ nmax nd = None.
Lemma fresh_assert g v : fresh_at g v -> assert_new g v = Ret tt.
Proof. intros [nd [H1 H2]]. unfold assert_new. now rewrite H1, H2. Qed.
Lemma single_fresh g v g' u : process_single g v = Ret g' -> u <> v -> fresh_at g u -> fresh_at g' u.
Proof.
  unfold process_single. intros H D [nd [H1 H2]]. destruct (map_outcome _ _) as [ms| | |]; try discriminate H. cbn [bind] in H.
  destruct (get_local g v) as [l| | |]; try discriminate H. cbn [bind] in H. injection H as <-. exists nd. split; [|exact H2].
  cbn [set_node_max gnodes]. rewrite nth_upd_other by congruence. exact H1.
Qed.
Lemma so_topo order : forall g, NoDup order -> (forall v, In v order -> fresh_at g v) -> process_topo_d g order <~ process_topo g order.
Proof.
  induction order as [|v order IH]; intros g ND F; cbn [process_topo_d process_topo]; [apply so_refl|].
  rewrite (fresh_assert g v) by (apply F; now left). cbn [bind]. inversion ND as [|? ? Nv ND']; subst.
  apply so_bind; [apply so_single|]. intros g' E. apply IH; [exact ND'|]. intros u Hu. eapply single_fresh; [exact E | | apply F; now right]. intros ->. contradiction.
Qed.

Definition fresh (g : graph node) : Prop := forall nd, In nd (gnodes g) -> nmax nd = None.
Lemma fresh_nodes g v : fresh g -> (v < node_count g)%nat -> fresh_at g v.
Proof.
  intros F L. destruct (nth_error (gnodes g) v) as [nd|] eqn:E; [exists nd; split; [exact E | exact (F nd (nth_error_In _ _ E))]|].
  apply nth_error_None in E. unfold node_count in L. lia.
Qed.
Lemma so_max_stack info g : wf_graph g -> fresh g -> max_stack_d info g <~ max_stack info g.
Proof.
  intros W F. unfold max_stack_d, max_stack. destruct info; cbn [negb]; [|apply so_refl].
  destruct (is_cyclic_correct g W) as [[-> _]|[-> [Ac Hl]]].
  - unfold cyclic_pass_d, cyclic_pass. destruct (kosaraju_scc g); [apply so_sccs | apply so_refl].
  - unfold acyclic_pass_d, acyclic_pass. destruct (topo_reversed_correct g W Hl) as [order [Ho [Ht [Hnd Hall]]]]. rewrite Ho.
    apply so_bind; [|intros g' _; apply so_refl]. apply so_topo; [apply NoDup_rev; exact Hnd|]. intros v Hv. apply in_rev in Hv. apply fresh_nodes; [exact F|]. now apply Hall.
Qed.

(** * No overflow when the usages fit *)
Lemma map_outcome_back {A B} (f : A -> outcome B) l : forall ys y, map_outcome f l = Ret ys -> In y ys -> exists x, In x l /\ f x = Ret y.
Proof.
  induction l as [|x l IH]; intros ys y H I; cbn [map_outcome] in H; [injection H as <-; destruct I|].
  destruct (f x) as [b| | |] eqn:E; try discriminate H. cbn [bind] in H. destruct (map_outcome f l) as [bs| | |]; try discriminate H. cbn [bind] in H. injection H as <-.
  destruct I as [<-|I]; [exists x; split; [now left | exact E]|]. destruct (IH bs y eq_refl I) as [z [Z1 Z2]]. exists z. split; [now right | exact Z2].
Qed.
Lemma wrapped_smaller a b : a < two64 -> b < two64 -> two64 <= a + b -> (a + b) mod two64 < a.
Proof.
  intros Ha Hb H. replace (a + b) with ((a + b - two64) + 1 * two64) by lia. rewrite N.mod_add by (vm_compute; discriminate). rewrite N.mod_small; lia.
Qed.
Lemma fold_reported m c : forall g v, (v < node_count g)%nat -> In v c \/ reported g v m -> reported (fold_left (fun g i => set_node_max g i m) c g) v m.
Proof.
  induction c as [|x c IH]; intros g v L [I|R]; cbn [fold_left]; [destruct I | exact R | |].
  - apply IH; [unfold node_count, set_node_max; cbn [gnodes]; now rewrite upd_nth_length|]. destruct (Nat.eq_dec x v) as [->|D].
    + right. now apply set_node_max_reported.
    + left. destruct I as [I|I]; [congruence | exact I].
  - apply IH; [unfold node_count, set_node_max; cbn [gnodes]; now rewrite upd_nth_length|]. right. destruct (Nat.eq_dec x v) as [->|D].
    + now apply set_node_max_reported.
    + now apply set_node_max_other.
Qed.

Section Fits.
Variable g : graph node.
Hypothesis (W : wf_graph g) (Below : forall v, (v < node_count g)%nat -> below_2_64 g v).

Lemma usage_small v : (v < node_count g)%nat -> known_usage g v < two64.
Proof.
  intros L. rewrite <- (N.add_0_r (known_usage g v)). change (known_usage g v + 0) with (total (known_usage g) [v]).
  apply (Below v L [v] [v]); [constructor; exact L | apply sublist_refl | constructor; [intros ? [] | constructor]].
Qed.
Lemma no_overflow gk gk' done v mx b m k w : Inv g gk done -> Inv g gk' k -> In v k -> In w done -> calls g v w -> reported gk w mx -> reported gk' v m ->
  num m = (num mx + b) mod two64 -> b < two64 -> num mx + b < two64.
Proof.
  intros [_ I] [_ I'] Hv Hw C Rw Rv E Hb. destruct (N.lt_ge_cases (num mx + b) two64) as [L|L]; [exact L | exfalso].
  destruct (I w Hw) as [m1 [R1 [[G1 _] _]]]. rewrite (reported_fun _ _ _ _ R1 Rw) in G1. specialize (G1 (Below w (proj2 (W v w C)))).
  destruct (I' v Hv) as [m2 [R2 [[G2 _] _]]]. rewrite (reported_fun _ _ _ _ R2 Rv) in G2. specialize (G2 (Below v (proj1 (W v w C)))).
  pose proof (charge_le_caller g v w _ _ C G2 G1) as Le. pose proof (below_charge g w _ (Below w (proj2 (W v w C))) G1) as Bd.
  pose proof (wrapped_smaller (num mx) b ltac:(lia) Hb L). lia.
Qed.

Lemma get_reported gk v m : get_max gk v = Ret m -> reported gk v m.
Proof.
  unfold get_max. destruct (nth_error (gnodes gk) v) as [nd|] eqn:E; [|discriminate]. destruct (nmax nd) as [x|] eqn:E2; [|discriminate]. intros H. injection H as <-. exists nd. split; assumption.
Qed.
Lemma single_ok gk done v gk' : Inv g gk done -> (v < node_count g)%nat -> (forall w, calls g v w -> In w done) ->
  process_single gk v = Ret gk' -> Inv g gk' (v :: done) -> process_single_d gk v = Ret gk'.
Proof.
  intros I L C H I'. unfold process_single in H. unfold process_single_d. rewrite (same_out g gk v (proj1 I)) in *.
  destruct (map_outcome (get_max gk) (out_nbrs g v)) as [ms| | |] eqn:Em; try discriminate H. cbn [bind] in *.
  destruct (get_local gk v) as [l| | |] eqn:El; try discriminate H. cbn [bind] in *. destruct (max_of ms) as [mx|] eqn:Ex; [|exact H].
  enough (add_local_d mx l = Ret (add_local mx l)) as -> by exact H.
  destruct l as [b|]; [|destruct mx; reflexivity]. apply add_local_d_ok. cbn [local_into_max num].
  destruct (max_of_spec _ _ Ex) as [[x [Ix Nx]] _]. destruct (map_outcome_back _ _ _ _ Em Ix) as [w [Iw Gw]]. apply out_nbrs_In in Iw.
  injection H as H.
  rewrite <- Nx. apply (no_overflow gk gk' done v x b (add_local mx (LExact b)) (v :: done) w I I' (or_introl eq_refl) (C w Iw) Iw (get_reported _ _ _ Gw)).
  - rewrite <- H. apply set_node_max_reported. rewrite (same_count g gk (proj1 I)). exact L.
  - rewrite Nx. destruct mx; reflexivity.
  - assert (E : local_of g v = Some (LExact b)).
    { rewrite <- (same_local_of g gk v (proj1 I)). unfold get_local in El. unfold local_of. destruct (nth_error (gnodes gk) v); [|discriminate El]. cbn. congruence. }
    pose proof (num_local g v _ E) as K. cbn [local_into_max num] in K. rewrite K. now apply usage_small.
Qed.
Lemma cycle_ok gk done c gk' : Inv g gk done -> (forall x, In x c -> (x < node_count g)%nat) -> (forall w, leaves g c w -> In w done) ->
  process_cycle gk c = Ret gk' -> Inv g gk' (c ++ done) -> process_cycle_d gk c = Ret gk'.
Proof.
  intros I L C H I'. unfold process_cycle in H. unfold process_cycle_d.
  destruct (map_outcome (get_local gk) c) as [ls| | |] eqn:El; try discriminate H. cbn [bind] in *.
  destruct (max_of (map local_into_max ls)) as [sl0|] eqn:Es; [|discriminate H].
  set (sl := match sl0 with MExact n => if N.eqb n 0 then sl0 else MLower n | MLower _ => sl0 end) in *. cbv zeta in H. cbv zeta.
  assert (Nsl : num sl = num sl0) by (unfold sl; destruct sl0 as [n|n]; [destruct (N.eqb n 0)|]; reflexivity).
  destruct (map_outcome (get_max gk) _) as [ms| | |] eqn:Em; try discriminate H. cbn [bind] in *. destruct (max_of ms) as [mx|] eqn:Ex; [|exact H].
  enough (add_max_d mx sl = Ret (add_max mx sl)) as -> by exact H. apply add_max_d_ok.
  destruct (max_of_spec _ _ Ex) as [[x [Ix Nx]] _]. destruct (map_outcome_back _ _ _ _ Em Ix) as [w [Iw Gw]].
  apply filter_In in Iw. destruct Iw as [Iw Nw]. apply in_flat_map in Iw. destruct Iw as [v [Iv Iw]]. rewrite (same_out g gk v (proj1 I)) in Iw. apply out_nbrs_In in Iw.
  apply negb_true_iff, mem_false in Nw. injection H as H.
  rewrite <- Nx. apply (no_overflow gk gk' done v x (num sl) (add_max mx sl) (c ++ done) w I I').
  - apply in_or_app. now left.
  - apply C. exists v. auto.
  - exact Iw.
  - exact (get_reported _ _ _ Gw).
  - rewrite <- H. apply fold_reported; [rewrite (same_count g gk (proj1 I)); now apply L | now left].
  - rewrite Nx. destruct mx, sl; reflexivity.
  - rewrite Nsl. destruct (max_of_spec _ _ Es) as [[y [Iy <-]] _]. apply in_map_iff in Iy. destruct Iy as [l [<- Il]].
    destruct (map_outcome_back _ _ _ _ El Il) as [u [Iu Gu]].
    assert (E : local_of g u = Some l).
    { rewrite <- (same_local_of g gk u (proj1 I)). unfold get_local in Gu. unfold local_of. destruct (nth_error (gnodes gk) u); [|discriminate Gu]. cbn. congruence. }
    rewrite (num_local g u _ E). apply usage_small. now apply L.
Qed.

Lemma sccs_ok : forall rest pre gk cyc, scc_list g (pre ++ rest) -> Inv g gk (concat pre) -> process_sccs_d gk rest cyc = process_sccs gk rest cyc.
Proof.
  induction rest as [|c rest IH]; intros pre gk cyc HS HI; [reflexivity|].
  assert (HG : is_group g c).
  { destruct HS as [S1 S2 S3 S4 S5]. assert (Hin : In c (pre ++ c :: rest)) by (apply in_or_app; right; left; reflexivity).
    split; [apply S3; exact Hin|]. split.
    - intros x Hx. apply S2. apply in_concat. exists c; auto.
    - intros x y Hx. apply S4; auto. }
  assert (Hndc : NoDup c).
  { destruct HS as [S1 _ _ _ _]. rewrite concat_app in S1. simpl in S1.
    revert S1. generalize (concat pre). intros l. induction l as [|a l IHl]; simpl; intros H.
    - eapply NoDup_app_l; eauto.
    - inversion H; auto. }
  pose proof HG as [Hne [Hlt HC]]. destruct c as [|first c']; [congruence|].
  set (c := first :: c') in *.
  change (process_sccs_d gk (c :: rest) cyc) with
    (if is_a_cycle gk c first then let* gx := process_cycle_d gk c in process_sccs_d gx rest (c :: cyc) else let* gx := process_single_d gk first in process_sccs_d gx rest cyc).
  change (process_sccs gk (c :: rest) cyc) with
    (if is_a_cycle gk c first then let* gx := process_cycle gk c in process_sccs gx rest (c :: cyc) else let* gx := process_single gk first in process_sccs gx rest cyc).
  assert (Hcy : is_a_cycle gk c first = is_a_cycle g c first).
  { unfold is_a_cycle. rewrite (same_out g gk first (proj1 HI)). reflexivity. }
  pose proof (group_recursive g c first HG Hndc eq_refl) as Hrec.
  assert (Hleav : forall w, leaves g c w -> In w (concat pre)).
  { intros w [x [Hx [Hc Hn]]]. destruct HS as [_ _ _ _ S5].
    destruct (S5 pre c rest x w eq_refl Hx) as [H|H]; [apply star_one; exact Hc | contradiction | exact H]. }
  rewrite Hcy.
  assert (HS' : scc_list g ((pre ++ [c]) ++ rest)) by (rewrite <- app_assoc; exact HS).
  destruct (is_a_cycle g c first).
  - destruct (process_cycle_correct g gk (concat pre) c HI HG Hrec Hleav) as [gk' [H HI']].
    rewrite (cycle_ok gk (concat pre) c gk' HI Hlt Hleav H HI'), H. cbn [bind]. apply (IH (pre ++ [c])); [exact HS'|].
    split; [apply HI'|]. intros v Hv. apply HI'. rewrite concat_app in Hv. simpl in Hv.
    rewrite app_nil_r in Hv. apply in_app_or in Hv as [Hv|Hv]; apply in_or_app; auto.
  - destruct Hrec as [Hc1 Hnr].
    assert (Hcl : forall w, calls g first w -> In w (concat pre)).
    { intros w Hw. apply Hleav. exists first. split; [left; reflexivity|]. split; [exact Hw|].
      rewrite Hc1. intros [<-|[]]. apply Hnr. exists first. split; [exact Hw | constructor]. }
    assert (Hf : (first < node_count g)%nat) by (apply Hlt; left; reflexivity).
    destruct (process_single_correct g gk (concat pre) first HI Hf Hnr Hcl) as [gk' [H HI']].
    { intros y Hy. apply (HC first y (or_introl eq_refl)) in Hy. rewrite Hc1 in Hy. destruct Hy as [<-|[]]; reflexivity. }
    rewrite (single_ok gk (concat pre) first gk' HI Hf Hcl H HI'), H. cbn [bind]. apply (IH (pre ++ [c])); [exact HS'|].
    split; [apply HI'|]. intros v Hv. apply HI'. rewrite concat_app in Hv.
    assert (Hcc : concat [c] = [first]) by (rewrite Hc1; reflexivity). rewrite Hcc in Hv. apply in_app_or in Hv as [Hv|[<-|[]]]; [right; exact Hv | left; reflexivity].
Qed.
Lemma topo_ok : acyclic g -> forall rest pre gk, topo g (rev rest ++ pre) -> (forall x, In x (rev rest ++ pre) -> (x < node_count g)%nat) -> Inv g gk pre ->
  NoDup rest -> (forall v, In v rest -> fresh_at gk v) -> process_topo_d gk rest = process_topo gk rest.
Proof.
  intros Hac. induction rest as [|v rest IH]; intros pre gk Ht Hlt HI ND F; [reflexivity|].
  simpl in Ht, Hlt. rewrite <- app_assoc in Ht, Hlt. simpl in Ht, Hlt. cbn [process_topo_d process_topo].
  rewrite (fresh_assert gk v) by (apply F; now left). cbn [bind]. inversion ND as [|? ? Nv ND']; subst.
  assert (Hv : (v < node_count g)%nat) by (apply Hlt; apply in_or_app; right; left; reflexivity).
  assert (Hcl : forall w, calls g v w -> In w pre).
  { intros w Hw. clear - Ht Hw. induction (rev rest) as [|a l IHl]; simpl in Ht; [apply Ht; exact Hw | apply IHl, Ht]. }
  destruct (process_single_correct g gk pre v HI Hv (Hac v) Hcl) as [gk' [H HI']].
  { intros y. apply acyclic_mutual; exact Hac. }
  rewrite (single_ok gk pre v gk' HI Hv Hcl H HI'), H. cbn [bind]. apply (IH (v :: pre)); try assumption.
  intros u Hu. eapply single_fresh; [exact H | | apply F; now right]. intros ->. contradiction.
Qed.
Lemma max_stack_ok info : fresh g -> max_stack_d info g = max_stack info g.
Proof.
  intros F. unfold max_stack_d, max_stack. destruct info; cbn [negb]; [|reflexivity].
  destruct (is_cyclic_correct g W) as [[-> _]|[-> [Ac Hl]]].
  - unfold cyclic_pass_d, cyclic_pass. destruct (kosaraju_correct g W) as [ls [-> HS]]. apply (sccs_ok ls []); [exact HS | apply Inv_start].
  - unfold acyclic_pass_d, acyclic_pass. destruct (topo_reversed_correct g W Hl) as [order [-> [Ht [Hnd Hall]]]].
    rewrite (topo_ok Ac (rev order) [] g); [reflexivity | rewrite rev_involutive, app_nil_r; exact Ht | | apply Inv_start | apply NoDup_rev; exact Hnd |].
    + rewrite rev_involutive, app_nil_r. intros x Hx; apply Hall; exact Hx.
    + intros v Hv. apply in_rev in Hv. apply fresh_nodes; [exact F|]. now apply Hall.
Qed.
End Fits.

(** * A debug build ends without an overflow only if the usages fit *)
Section Ends.
Variable g : graph node.
Hypothesis (W : wf_graph g) (U : usages_u64 g).
Lemma group_below C v L M : is_group g C -> In v C -> (forall x, In x C -> known_usage g x <= L) ->
  (forall w, leaves g C w -> exists m, charge g w m /\ m <= M) -> L + M < two64 -> below_2_64 g v.
Proof.
  intros [_ [Hlt HC]] Hv HL HM Lt p q Hp Hs Ho. eapply N.le_lt_trans; [|exact Lt].
  assert (Hin : forall q', one_per_group g q' -> (forall y, In y q' -> In y C) -> total (known_usage g) q' <= L).
  { intros q' Ho' Hq'. destruct q' as [|a [|b q']]; simpl.
    - lia.
    - specialize (HL a (Hq' a (or_introl eq_refl))). lia.
    - exfalso. inversion Ho' as [|? ? H1 H2]; subst. apply (H1 b); [left; reflexivity|]. apply HC; apply Hq'; [left; reflexivity | right; left; reflexivity]. }
  destruct (chain_split g (fun x => In x C) (fun x => In_dec_nat x C) v p Hp Hv) as [Hall|[p1 [p2 [y [w [-> [H1 [H2 [H3 [H4 H5]]]]]]]]]].
  - assert (total (known_usage g) q <= L) by (apply Hin; [exact Ho|]; intros y Hy; apply Hall; eapply sublist_In; eauto). lia.
  - apply sublist_app_inv in Hs as [q1 [q2 [-> [Hs1 Hs2]]]]. rewrite total_app.
    assert (total (known_usage g) q1 <= L) by (apply Hin; [eapply opg_app_l; eauto|]; intros z Hz; apply H1; eapply sublist_In; eauto).
    destruct (HM w) as [m [[_ Hm] Le]]; [exists y; auto|]. pose proof (Hm p2 q2) as K.
    assert (total (known_usage g) q2 <= m) by (apply K; [assumption | exact Hs2 | eapply opg_app_r; eauto]). lia.
Qed.
Lemma done_charge gk done w m : Inv g gk done -> (forall u, In u done -> below_2_64 g u) -> In w done -> reported gk w m -> charge g w (num m).
Proof. intros [_ I] B Hw R. destruct (I w Hw) as [m' [R' [G _]]]. rewrite <- (reported_fun _ _ _ _ R' R). apply G. now apply B. Qed.
Lemma usage_u64 v : known_usage g v < two64.
Proof.
  unfold known_usage. destruct (local_of g v) as [[n|]|] eqn:E; [|vm_compute; reflexivity ..]. exact (U v n E).
Qed.
Lemma add_u64_ret a b c : add_u64 a b = Ret c -> a + b < two64.
Proof. unfold add_u64. destruct (N.ltb_spec (a + b) two64) as [L|L]; [intros _; exact L | discriminate]. Qed.
Lemma add_local_d_ret m l k : num m < two64 -> add_local_d m l = Ret k -> num m + num (local_into_max l) < two64.
Proof.
  intros Lt E. destruct m as [a|a], l as [b|]; cbn [add_local_d num local_into_max] in *; try (apply bind_Ret in E; destruct E as [c [E _]]; exact (add_u64_ret _ _ _ E)); rewrite N.add_0_r; exact Lt.
Qed.
Lemma add_max_d_ret m j k : add_max_d m j = Ret k -> num m + num j < two64.
Proof. intros E. destruct m as [a|a], j as [b|b]; cbn [add_max_d num] in *; apply bind_Ret in E; destruct E as [c [E _]]; exact (add_u64_ret _ _ _ E). Qed.
Lemma nbr_max gk done nbs ms mx : Inv g gk done -> (forall u, In u done -> below_2_64 g u) -> (forall w, In w nbs -> In w done) ->
  map_outcome (get_max gk) nbs = Ret ms -> max_of ms = Some mx -> num mx < two64 /\ forall w, In w nbs -> exists m, charge g w m /\ m <= num mx.
Proof.
  intros I B D Em Ex. destruct (max_of_spec _ _ Ex) as [[k [Ik <-]] [Hle _]].
  assert (Ch : forall w m, In w nbs -> get_max gk w = Ret m -> charge g w (num m)) by (intros w m Hw Hm; exact (done_charge gk done w m I B (D w Hw) (get_reported _ _ _ Hm))).
  split.
  - destruct (map_outcome_back _ _ _ _ Em Ik) as [w [Iw Gw]]. exact (below_charge g w _ (B w (D w Iw)) (Ch w k Iw Gw)).
  - intros w Hw. assert (X : exists m, get_max gk w = Ret m /\ In m ms).
    { clear - Em Hw. revert ms Em. induction nbs as [|x nbs IH]; intros ms Em; [destruct Hw|]. cbn [map_outcome] in Em. apply bind_Ret in Em. destruct Em as [m [E1 Em]].
      apply bind_Ret in Em. destruct Em as [ms' [E2 Em]]. injection Em as <-. destruct Hw as [->|Hw]; [exists m; split; [exact E1 | now left]|].
      destruct (IH Hw ms' E2) as [m' [A1 A2]]. exists m'. split; [exact A1 | now right]. }
    destruct X as [m [X1 X2]]. exists (num m). split; [exact (Ch w m Hw X1)|]. specialize (Hle m X2). lia.
Qed.
Lemma single_ends gk done v gk' : Inv g gk done -> (forall u, In u done -> below_2_64 g u) -> (v < node_count g)%nat -> (forall w, calls g v w -> In w done) ->
  is_group g [v] -> process_single_d gk v = Ret gk' -> below_2_64 g v.
Proof.
  intros I B L C G H. unfold process_single_d in H. rewrite (same_out g gk v (proj1 I)) in H. apply bind_Ret in H. destruct H as [ms [Em H]]. apply bind_Ret in H. destruct H as [l [El H]].
  assert (Kl : num (local_into_max l) = known_usage g v).
  { apply num_local. rewrite <- (same_local_of g gk v (proj1 I)). unfold get_local in El. unfold local_of. destruct (nth_error (gnodes gk) v); [|discriminate El]. cbn. congruence. }
  assert (D : forall w, In w (out_nbrs g v) -> In w done) by (intros w Hw; apply C; now apply out_nbrs_In).
  assert (Kv : forall x, In x [v] -> known_usage g x <= num (local_into_max l)) by (intros x [<-|[]]; lia).
  destruct (max_of ms) as [mx|] eqn:Ex.
  - destruct (nbr_max gk done _ ms mx I B D Em Ex) as [S N]. apply bind_Ret in H. destruct H as [m [Ea _]]. pose proof (add_local_d_ret _ _ _ S Ea) as Lt.
    apply (group_below [v] v _ (num mx) G (or_introl eq_refl) Kv); [|lia]. intros w [x [[<-|[]] [Cw _]]]. apply N. now apply out_nbrs_In.
  - apply max_of_None in Ex. subst ms. apply (group_below [v] v _ 0 G (or_introl eq_refl) Kv); [|rewrite Kl; pose proof (usage_u64 v); lia].
    intros w [x [[<-|[]] [Cw _]]]. apply out_nbrs_In in Cw. destruct (out_nbrs g v) as [|a nb]; [destruct Cw|]. cbn [map_outcome] in Em.
    apply bind_Ret in Em. destruct Em as [? [_ Em]]. apply bind_Ret in Em. destruct Em as [? [_ Em]]. discriminate Em.
Qed.
Lemma cycle_ends gk done c gk' : Inv g gk done -> (forall u, In u done -> below_2_64 g u) -> is_group g c -> (forall w, leaves g c w -> In w done) ->
  process_cycle_d gk c = Ret gk' -> forall v, In v c -> below_2_64 g v.
Proof.
  intros I B G C H v Hv. unfold process_cycle_d in H. apply bind_Ret in H. destruct H as [ls [El H]].
  destruct (max_of (map local_into_max ls)) as [sl0|] eqn:Es; [|discriminate H]. cbv zeta in H.
  set (sl := match sl0 with MExact n => if N.eqb n 0 then sl0 else MLower n | MLower _ => sl0 end) in *.
  assert (Nsl : num sl = num sl0) by (unfold sl; destruct sl0 as [n|n]; [destruct (N.eqb n 0)|]; reflexivity).
  destruct (max_of_spec _ _ Es) as [[k [Ik Nk]] [Hle _]].
  assert (Kl : forall u l, get_local gk u = Ret l -> num (local_into_max l) = known_usage g u).
  { intros u l E. apply num_local. rewrite <- (same_local_of g gk u (proj1 I)). unfold get_local in E. unfold local_of. destruct (nth_error (gnodes gk) u); [|discriminate E]. cbn. congruence. }
  assert (Kv : forall x, In x c -> known_usage g x <= num sl).
  { intros x Hx. assert (X : exists l, get_local gk x = Ret l /\ In l ls).
    { clear - El Hx. revert ls El. induction c as [|y c IH]; intros ls El; [destruct Hx|]. cbn [map_outcome] in El. apply bind_Ret in El. destruct El as [l [E1 El]].
      apply bind_Ret in El. destruct El as [ls' [E2 El]]. injection El as <-. destruct Hx as [->|Hx]; [exists l; split; [exact E1 | now left]|].
      destruct (IH Hx ls' E2) as [l' [A1 A2]]. exists l'. split; [exact A1 | now right]. }
    destruct X as [l [X1 X2]]. rewrite <- (Kl x l X1), Nsl. apply Hle. now apply in_map. }
  assert (Small : num sl < two64).
  { rewrite Nsl, <- Nk. apply in_map_iff in Ik. destruct Ik as [l [<- Il]]. destruct (map_outcome_back _ _ _ _ El Il) as [u [_ Gu]]. rewrite (Kl u l Gu). apply usage_u64. }
  apply bind_Ret in H. destruct H as [ms [Em H]].
  assert (Lv : forall w, leaves g c w <-> In w (filter (fun neighbor => negb (mem neighbor c)) (flat_map (out_nbrs gk) c))).
  { intros w. unfold leaves. rewrite filter_In, negb_true_iff, mem_false, in_flat_map. split.
    - intros [x [Hx [Hw Hn]]]. split; [|exact Hn]. exists x. split; [exact Hx|]. rewrite (same_out g gk x (proj1 I)). now apply out_nbrs_In.
    - intros [[x [Hx Hw]] Hn]. rewrite (same_out g gk x (proj1 I)) in Hw. apply out_nbrs_In in Hw. exists x; auto. }
  destruct (max_of ms) as [mx|] eqn:Ex.
  - destruct (nbr_max gk done _ ms mx I B (fun w Hw => C w (proj2 (Lv w) Hw)) Em Ex) as [S N]. apply bind_Ret in H. destruct H as [m [Ea _]].
    pose proof (add_max_d_ret _ _ _ Ea) as Lt. apply (group_below c v (num sl) (num mx) G Hv Kv); [|lia]. intros w Hw. apply N. now apply Lv.
  - apply max_of_None in Ex. subst ms. apply (group_below c v (num sl) 0 G Hv Kv); [|lia]. intros w Hw. apply Lv in Hw.
    destruct (filter _ _) as [|a nb]; [destruct Hw|]. cbn [map_outcome] in Em. apply bind_Ret in Em. destruct Em as [? [_ Em]]. apply bind_Ret in Em. destruct Em as [? [_ Em]]. discriminate Em.
Qed.
Lemma so_ret_same {A} (d r : outcome A) x : d <~ r -> d = Ret x -> r = Ret x.
Proof. intros [->|[m [-> _]]] E; [exact E | discriminate E]. Qed.
Lemma sccs_ends rest : forall pre gk cyc x, scc_list g (pre ++ rest) -> Inv g gk (concat pre) -> (forall u, In u (concat pre) -> below_2_64 g u) ->
  process_sccs_d gk rest cyc = Ret x -> forall u, In u (concat (pre ++ rest)) -> below_2_64 g u.
Proof.
  induction rest as [|c rest IH]; intros pre gk cyc x HS HI B E; [rewrite app_nil_r; exact B|].
  destruct c as [|first c']; [discriminate E|]. set (c := first :: c') in *.
  change (process_sccs_d gk (c :: rest) cyc) with
    (if is_a_cycle gk c first then let* gx := process_cycle_d gk c in process_sccs_d gx rest (c :: cyc) else let* gx := process_single_d gk first in process_sccs_d gx rest cyc) in E.
  rewrite (cycle_same g gk _ c first HI) in E. destruct (one_step g gk pre first c' rest HS HI) as [gk' [H1 [H2 H3]]]. fold c in H1, H2, H3.
  destruct (group_at g pre c rest HS) as [HG [_ Hleav]].
  replace (pre ++ c :: rest) with ((pre ++ [c]) ++ rest) in * by (rewrite <- app_assoc; reflexivity).
  destruct (is_a_cycle g c first).
  - apply bind_Ret in E. destruct E as [gd [Ed E]]. pose proof (so_ret_same _ _ _ (so_cycle gk c) Ed) as K. rewrite H1 in K. injection K as <-.
    apply (IH (pre ++ [c]) gk' (c :: cyc) x HS H2); [|exact E]. intros u Hu. rewrite concat_app in Hu. simpl in Hu. rewrite app_nil_r in Hu.
    apply in_app_or in Hu as [Hu|Hu]; [exact (B u Hu) | exact (cycle_ends gk (concat pre) c gk' HI B HG Hleav Ed u Hu)].
  - apply bind_Ret in E. destruct E as [gd [Ed E]]. pose proof (so_ret_same _ _ _ (so_single gk first) Ed) as K. rewrite H1 in K. injection K as <-.
    destruct (H3 eq_refl) as [Hc1 [Hf Hcl]]. apply (IH (pre ++ [c]) gk' cyc x HS H2); [|exact E]. intros u Hu. rewrite concat_app in Hu.
    assert (Hcc : concat [c] = [first]) by (rewrite Hc1; reflexivity). rewrite Hcc in Hu. apply in_app_or in Hu as [Hu|[<-|[]]]; [exact (B u Hu)|].
    rewrite Hc1 in HG. exact (single_ends gk (concat pre) first gk' HI B Hf Hcl HG Ed).
Qed.
Lemma topo_ends : acyclic g -> forall rest pre gk x, topo g (rev rest ++ pre) -> (forall x, In x (rev rest ++ pre) -> (x < node_count g)%nat) -> Inv g gk pre -> (forall u, In u pre -> below_2_64 g u) ->
  process_topo_d gk rest = Ret x -> forall u, In u (rev rest ++ pre) -> below_2_64 g u.
Proof.
  intros Hac. induction rest as [|v rest IH]; intros pre gk x Ht Hlt HI B E; [exact B|].
  simpl in Ht, Hlt. simpl. rewrite <- app_assoc in *. simpl in *.
  assert (Hv : (v < node_count g)%nat) by (apply Hlt; apply in_or_app; right; left; reflexivity).
  assert (Hcl : forall w, calls g v w -> In w pre).
  { intros w Hw. clear - Ht Hw. induction (rev rest) as [|a l IHl]; simpl in Ht; [apply Ht; exact Hw | apply IHl, Ht]. }
  destruct (process_single_correct g gk pre v HI Hv (Hac v) Hcl) as [gk' [H HI']]; [intros y; apply acyclic_mutual; exact Hac|].
  apply bind_Ret in E. destruct E as [_ [_ E]]. apply bind_Ret in E. destruct E as [gd [Ed E]]. pose proof (so_ret_same _ _ _ (so_single gk v) Ed) as K. rewrite H in K. injection K as <-.
  apply (IH (v :: pre) gk' x Ht Hlt HI'); [|exact E]. intros u [<-|Hu]; [|exact (B u Hu)]. apply (single_ends gk pre v gk' HI B Hv Hcl); [|exact Ed].
  split; [discriminate|]. split; [intros y [<-|[]]; exact Hv|]. intros a b [<-|[]]. split; [intros [<-|[]]; apply mutual_refl | intros M; left; symmetry; exact (acyclic_mutual g _ _ Hac M)].
Qed.
Lemma max_stack_ends x : max_stack_d true g = Ret x -> forall v, (v < node_count g)%nat -> below_2_64 g v.
Proof.
  intros E v Hv. unfold max_stack_d in E. cbn [negb] in E. destruct (is_cyclic_correct g W) as [[K _]|[K [Ac Hl]]]; rewrite K in E.
  - unfold cyclic_pass_d in E. destruct (kosaraju_correct g W) as [ls [K2 HS]]. rewrite K2 in E. apply (sccs_ends ls [] g [] x HS (Inv_start g)); [intros ? [] | exact E|].
    now apply (sl_all g ls HS).
  - unfold acyclic_pass_d in E. destruct (topo_reversed_correct g W Hl) as [order [K2 [Ht [Hnd Hall]]]]. rewrite K2 in E.
    apply bind_Ret in E. destruct E as [g2 [E2 _]]. apply (topo_ends Ac (rev order) [] g g2); try (rewrite rev_involutive, app_nil_r).
    + exact Ht.
    + intros y Hy. now apply Hall.
    + apply Inv_start.
    + intros ? [].
    + exact E2.
    + now apply Hall.
Qed.
Lemma max_stack_d_iff x : fresh g -> max_stack_d true g = Ret x <-> max_stack true g = Ret x /\ forall v, (v < node_count g)%nat -> below_2_64 g v.
Proof.
  intros F. split.
  - intros E. split; [exact (so_ret_same _ _ _ (so_max_stack true g W F) E) | exact (max_stack_ends x E)].
  - intros [E B]. rewrite (max_stack_ok g W B true F). exact E.
Qed.
End Ends.
