(** Consequences of [build_spec]. *)
From Coq Require Import Permutation.
From Verif Require Import M_base M_stack M_graph M_analysis M_filter M_names M_thumb M_ty M_parse M_build S_names S_graph S_sig S_build L_base L_names L_ir2 L_build1 L_build2 L_build3 L_build4 L_build5.

Section Graph.
Variables (p : prog) (ks : list key) (void : option str) (g : graph node).
Hypothesis (W : wf_prog p) (G : graph_of p ks void g).

Lemma key_idx u k : nth_error ks u = Some k -> u < length (gnodes g).
Proof. intros H. rewrite <- (Forall2_len _ _ _ (go_show _ _ _ _ G)). apply nth_error_Some. rewrite H. discriminate. Qed.
Lemma key_inj u v k : nth_error ks u = Some k -> nth_error ks v = Some k -> u = v.
Proof.
  intros H1 H2. assert (L : u < length ks) by (apply nth_error_Some; rewrite H1; discriminate).
  apply (proj1 (NoDup_nth_error ks) (go_keys _ _ _ _ G) u v L). congruence.
Qed.
Lemma real_lt u i : nth_error ks u = Some (KReal i) -> i < length (pg_defined p).
Proof. intros H. apply nth_error_In in H. apply (go_nodes _ _ _ _ G) in H. inversion H. assumption. Qed.
Lemma real_idx u i : nth_error ks u = Some (KReal i) -> u = i.
Proof. intros H. exact (key_inj _ _ _ H (go_real _ _ _ _ G i (real_lt _ _ H))). Qed.
Lemma show_at u k : nth_error ks u = Some k -> exists nd, nth_error (gnodes g) u = Some nd /\ node_of p void k nd.
Proof.
  intros H. destruct (nth_error (gnodes g) u) as [nd|] eqn:E; [|apply nth_error_None in E; pose proof (key_idx _ _ H); lia].
  exists nd. split; [reflexivity | exact (Forall2_nth _ _ _ _ _ _ (go_show _ _ _ _ G) H E)].
Qed.
Lemma key_at u nd : nth_error (gnodes g) u = Some nd -> exists k, nth_error ks u = Some k /\ node_of p void k nd.
Proof.
  intros H. assert (L : u < length ks) by (rewrite (Forall2_len _ _ _ (go_show _ _ _ _ G)); apply nth_error_Some; rewrite H; discriminate).
  destruct (nth_error ks u) as [k|] eqn:E; [|apply nth_error_None in E; lia]. exists k. split; [reflexivity | exact (Forall2_nth _ _ _ _ _ _ (go_show _ _ _ _ G) E H)].
Qed.
Lemma must_real i j : edge p (fun _ => False) void (KReal i) (KReal j) -> In (i, j) (gedges g).
Proof. intros H. destruct (go_must _ _ _ _ G _ _ H) as [u [v [E1 [E2 E3]]]]. rewrite (real_idx _ _ E1), (real_idx _ _ E2) in E3. exact E3. Qed.
Lemma must_from i k : edge p (fun _ => False) void (KReal i) k -> exists v, nth_error ks v = Some k /\ In (i, v) (gedges g).
Proof. intros H. destruct (go_must _ _ _ _ G _ _ H) as [u [v [E1 [E2 E3]]]]. rewrite (real_idx _ _ E1) in E3. exists v. split; assumption. Qed.
Lemma graph_wf : wf_graph g.
Proof. intros u v H. unfold node_count. rewrite <- (Forall2_len _ _ _ (go_show _ _ _ _ G)). exact (go_wf _ _ _ _ G u v H). Qed.

Lemma may_real i j : In (i, j) (gedges g) -> i < length (pg_defined p) -> j < length (pg_defined p) -> reason p i j.
Proof.
  intros H Li Lj. pose proof (go_may _ _ _ _ G i j _ _ H (go_real _ _ _ _ G i Li) (go_real _ _ _ _ G j Lj)) as E.
  inversion E as [i' f j' B NI L M Hi Hj | | i' f j' B C Hi Hj | | i' f n j' T B Lw C Hi Hj | | i' j' J Hi Hj | | | |]; subst.
  - exact (re_direct _ _ _ f B L).
  - exact (re_cast _ _ _ f B (chosen_live _ _ _ C)).
  - exact (re_mem _ _ _ f n T B Lw (chosen_live _ _ _ C)).
  - exact (re_code _ _ _ J).
Qed.

(** Indirect calls. *)
Lemma pointer_path i s' s j : body p i (IndirectCall s') -> sig_matches s s' -> pointee p void s j -> candidate_sig p s ->
  exists d nd, In (i, d) (gedges g) /\ In (d, j) (gedges g) /\ nth_error (gnodes g) d = Some nd /\ ndashed nd = true.
Proof.
  intros B L P C. assert (CS : calls_sig p i s) by (split; [exact C | exists s'; split; assumption]).
  destruct (must_from i (KSig s) (ed_pointer _ _ _ _ _ CS)) as [d [E1 E2]]. destruct (show_at _ _ E1) as [nd [E3 E4]]. exists d, nd.
  split; [exact E2|]. split; [|split; [exact E3 | inversion E4; reflexivity]].
  destruct (go_must _ _ _ _ G (KSig s) (KReal j)) as [u [v [F1 [F2 F3]]]]; [apply ed_pointee; [exists i; exact CS | exact P]|].
  rewrite (key_inj _ _ _ F1 E1), (real_idx _ _ F2) in F3. exact F3.
Qed.
(** The unknown callee of a function pointer. *)
Lemma unknown_callee i s : calls_sig p i s -> untyped p -> exists d x, In (i, d) (gedges g) /\ In (d, x) (gedges g) /\ unknown g x.
Proof.
  intros CS U. destruct (must_from i (KSig s) (ed_pointer _ _ _ _ _ CS)) as [d [E1 E2]].
  destruct (go_must _ _ _ _ G (KSig s) (KExt s)) as [u [v [F1 [F2 F3]]]]; [apply ed_outside; [exists i; exact CS | exact U]|].
  exists d, v. split; [exact E2|]. rewrite (key_inj _ _ _ F1 E1) in F3. split; [exact F3|]. destruct (show_at _ _ F2) as [nd [E3 E4]].
  unfold unknown, local_of. rewrite E3. inversion E4. reflexivity.
Qed.
End Graph.

(** * Determinism of the specification *)
Lemma llvm_size_fun p i a b : wf_prog p -> llvm_size p i a -> llvm_size p i b -> a = b.
Proof.
  intros W [n [C A]] [n' [C' B]]. rewrite <- (chosen_fun p _ _ _ C C') in B. destruct a as [a|], b as [b|]; try reflexivity.
  - f_equal. apply (sget_In _ _ _ (wf_sizes _ W)) in A. apply (sget_In _ _ _ (wf_sizes _ W)) in B. congruence.
  - exfalso. apply B. exists a. exact A.
  - exfalso. apply A. exists b. exact B.
Qed.
Lemma usage_fun p i a b : wf_prog p -> usage p i a -> usage p i b -> a = b.
Proof.
  intros W H1 H2.
  assert (NA : forall ad sz x, (is_thumb (pg_target p) = false \/ pg_text p = None) -> analysed p i ad sz x -> False).
  { intros ad sz x [T | T] [A [st [tx [z [c [B _]]]]]]; congruence. }
  destruct H1, H2; try (exfalso; eapply NA; eassumption);
    repeat match goal with
    | A : analysed p i _ _ _, B : analysed p i _ _ _ |- _ => destruct (analysed_fun p i _ _ _ _ _ _ A B) as [? [? ?]]; subst; clear B
    end;
    repeat match goal with
    | A : llvm_size p i _, B : llvm_size p i _ |- _ => pose proof (llvm_size_fun p i _ _ W A B); clear B
    end; try congruence; try contradiction.
Qed.
Lemma sig_label_fun void s a b : sig_label void s a -> sig_label void s b -> a = b.
Proof.
  intros [[v [A1 [A2 [A3 ->]]]] | [A1 ->]] [[w [B1 [B2 [B3 ->]]]] | [B1 ->]]; try reflexivity.
  - exfalso. exact (B1 v A1 A2 A3).
  - exfalso. exact (A1 w B1 B2 B3).
Qed.
Lemma node_of_fun p void k a b : wf_prog p -> node_of p void k a -> node_of p void k b -> a = b.
Proof.
  intros W H1 H2. destruct H1; inversion H2; subst; try reflexivity.
  - match goal with A : chosen p i _, B : chosen p i _ |- _ => rewrite (chosen_fun p _ _ _ A B) end.
    match goal with A : usage p i _, B : usage p i _ |- _ => rewrite (usage_fun p i _ _ W A B) end. reflexivity.
  - match goal with A : sig_label _ _ _, B : sig_label _ _ _ |- _ => rewrite (sig_label_fun _ _ _ _ A B) end. reflexivity.
Qed.

(** * Iteration orders *)
Section Same.
Variables (p q : prog).
Hypothesis (S : same_prog p q).
Lemma same_sym : same_prog q p.
Proof. destruct S. constructor; try (symmetry; assumption). Qed.
Lemma s_def n d : In (n, d) (pg_defines p) <-> In (n, d) (pg_defines q).
Proof. split; apply Permutation_in; [symmetry|]; exact (sp_defines _ _ S). Qed.
Lemma s_decl n d : In (n, d) (pg_declares p) <-> In (n, d) (pg_declares q).
Proof. split; apply Permutation_in; [symmetry|]; exact (sp_declares _ _ S). Qed.
Lemma s_size n d : In (n, d) (pg_sizes p) <-> In (n, d) (pg_sizes q).
Proof. split; apply Permutation_in; [symmetry|]; exact (sp_sizes _ _ S). Qed.
Lemma s_names_at i ns : names_at p i ns <-> names_at q i ns.
Proof. unfold names_at. rewrite (sp_defined _ _ S). reflexivity. Qed.
Lemma s_live f i : live p f i <-> live q f i.
Proof. unfold live. setoid_rewrite s_names_at. reflexivity. Qed.
Lemma s_sized n : sized p n <-> sized q n.
Proof. unfold sized. setoid_rewrite s_size. reflexivity. Qed.
Lemma s_first (P Q : str -> Prop) l x : (forall y, P y <-> Q y) -> (first P l x <-> first Q l x).
Proof. intros H. split; apply first_iff; [exact H | intros y; symmetry; apply H]. Qed.
Lemma s_chosen i n : chosen p i n <-> chosen q i n.
Proof.
  unfold chosen. setoid_rewrite s_names_at. setoid_rewrite (fun ns n => s_first _ _ ns n s_sized). setoid_rewrite s_sized. reflexivity.
Qed.
Lemma s_body i st : body p i st <-> body q i st.
Proof. unfold body. setoid_rewrite s_def. setoid_rewrite s_live. reflexivity. Qed.
Lemma s_has_def n : has_def p n <-> has_def q n.
Proof. unfold has_def. setoid_rewrite s_def. reflexivity. Qed.
Lemma s_has_decl n : has_decl p n <-> has_decl q n.
Proof. unfold has_decl. setoid_rewrite s_decl. reflexivity. Qed.
Lemma s_typed_by_def i s : typed_by_def p i s <-> typed_by_def q i s.
Proof. unfold typed_by_def. setoid_rewrite s_names_at. setoid_rewrite (fun ns n => s_first _ _ ns n s_has_def). setoid_rewrite s_def. reflexivity. Qed.
Lemma s_typed i s : typed p i s <-> typed q i s.
Proof.
  unfold typed. rewrite s_typed_by_def. unfold typed_by_decl. setoid_rewrite s_names_at. setoid_rewrite (fun ns n => s_first _ _ ns n s_has_decl).
  setoid_rewrite s_decl. setoid_rewrite s_has_def. reflexivity.
Qed.
Lemma s_untyped : untyped p <-> untyped q.
Proof. unfold untyped, untyped_fn. setoid_rewrite s_names_at. setoid_rewrite s_chosen. setoid_rewrite s_has_def. setoid_rewrite s_has_decl. reflexivity. Qed.
Lemma s_analysed i a s x : analysed p i a s x <-> analysed q i a s x.
Proof. unfold analysed. rewrite (sp_target _ _ S), (sp_text _ _ S), (sp_tags _ _ S), (sp_defined _ _ S). reflexivity. Qed.
Lemma s_at_address j a : at_address p j a <-> at_address q j a.
Proof. unfold at_address. rewrite (sp_defined _ _ S). reflexivity. Qed.
Lemma s_jumps i j : jumps p i j <-> jumps q i j.
Proof. unfold jumps. setoid_rewrite s_analysed. setoid_rewrite s_at_address. reflexivity. Qed.
Lemma s_blind i : blind p i <-> blind q i.
Proof. unfold blind. setoid_rewrite s_analysed. setoid_rewrite s_def. setoid_rewrite s_live. reflexivity. Qed.
Lemma s_llvm_size i k : llvm_size p i k <-> llvm_size q i k.
Proof. unfold llvm_size. setoid_rewrite s_chosen. destruct k as [k|]; [setoid_rewrite s_size | setoid_rewrite s_sized]; reflexivity. Qed.
Lemma s_has_asm i : has_asm p i <-> has_asm q i.
Proof. unfold has_asm. setoid_rewrite s_body. reflexivity. Qed.
Lemma s_outlined i : outlined p i <-> outlined q i.
Proof. unfold outlined. setoid_rewrite s_chosen. reflexivity. Qed.
Lemma s_candidate s : candidate_sig p s <-> candidate_sig q s.
Proof. unfold candidate_sig. setoid_rewrite s_typed. reflexivity. Qed.
Lemma s_calls i s : calls_sig p i s <-> calls_sig q i s.
Proof. unfold calls_sig. rewrite s_candidate. setoid_rewrite s_body. reflexivity. Qed.
Lemma s_called s : called_sig p s <-> called_sig q s.
Proof. unfold called_sig. setoid_rewrite s_calls. reflexivity. Qed.
Lemma s_true_void v : true_void p v <-> true_void q v.
Proof. unfold true_void, void_candidate. setoid_rewrite s_candidate. reflexivity. Qed.
Lemma s_pointee void s j : pointee p void s j <-> pointee q void s j.
Proof. unfold pointee. setoid_rewrite s_typed_by_def. setoid_rewrite s_typed. reflexivity. Qed.
Lemma s_created n : created p n <-> created q n.
Proof. unfold created. setoid_rewrite s_body. setoid_rewrite s_live. setoid_rewrite s_chosen. reflexivity. Qed.
Lemma s_usage i l : usage p i l -> usage q i l.
Proof.
  assert (T : (is_thumb (pg_target p) = false \/ pg_text p = None) -> is_thumb (pg_target q) = false \/ pg_text q = None) by (rewrite (sp_target _ _ S), (sp_text _ _ S); tauto).
  intros H. destruct H; repeat match goal with
    | A : analysed p _ _ _ _ |- _ => apply s_analysed in A | A : llvm_size p _ _ |- _ => apply s_llvm_size in A
    | A : has_asm p _ |- _ => apply s_has_asm in A | A : ~ has_asm p _ |- _ => rewrite s_has_asm in A | A : outlined p _ |- _ => apply s_outlined in A end.
  - exact (us_llvm _ _ _ (T H) H0).
  - exact (us_none _ _ (T H) H0).
  - eapply us_agree; eassumption.
  - eapply us_asm; eassumption.
  - eapply us_outlined; eassumption.
  - eapply us_outlined_kept; eassumption.
  - eapply us_no_total; eassumption.
  - eapply us_ours; eassumption.
  - eapply us_untouched; eassumption.
  - eapply us_unknown; eassumption.
Qed.
Lemma s_is_node k : is_node p k -> is_node q k.
Proof.
  intros H. destruct H; [apply in_real; rewrite (sp_defined _ _ S); assumption | apply in_sym; apply s_created; assumption | apply in_code; apply s_blind; assumption
    | apply in_sig; apply s_called; assumption | apply in_ext; [apply s_called | apply s_untyped]; assumption].
Qed.
Lemma s_edge (k1 k2 : str -> Prop) void k l : (forall n, k1 n -> k2 n) -> edge p k1 void k l -> edge q k2 void k l.
Proof.
  intros M H. destruct H; repeat match goal with
    | A : body p _ _ |- _ => apply s_body in A | A : live p _ _ |- _ => apply s_live in A | A : chosen p _ _ |- _ => apply s_chosen in A
    | A : forall j, ~ live p _ j |- _ => setoid_rewrite s_live in A | A : forall j, ~ chosen p j _ |- _ => setoid_rewrite s_chosen in A
    | A : jumps p _ _ |- _ => apply s_jumps in A | A : blind p _ |- _ => apply s_blind in A | A : calls_sig p _ _ |- _ => apply s_calls in A
    | A : called_sig p _ |- _ => apply s_called in A | A : pointee p _ _ _ |- _ => apply s_pointee in A | A : untyped p |- _ => apply s_untyped in A
    | A : is_thumb (pg_target p) = false |- _ => rewrite <- (sp_target _ _ S) in A end.
  - eapply ed_direct; try eassumption. intros E. destruct (H2 E) as [K | K]; [left; apply s_chosen; exact K | right; exact (M _ K)].
  - eapply ed_extern; try eassumption. intros E. exact (M _ (H2 E)).
  - eapply ed_cast; eassumption.
  - eapply ed_cast_extern; eassumption.
  - eapply ed_mem; eassumption.
  - eapply ed_mem_extern; try eassumption. exact (M _ H3).
  - eapply ed_code; eassumption.
  - eapply ed_blind; eassumption.
  - eapply ed_pointer; eassumption.
  - eapply ed_pointee; eassumption.
  - eapply ed_outside; eassumption.
Qed.
Lemma s_node_of void k nd : node_of p void k nd -> node_of q void k nd.
Proof. intros H. destruct H; constructor; try assumption; [apply s_chosen; assumption | apply s_usage; assumption]. Qed.
End Same.
Lemma same_graph_of p q ks void g : same_prog p q -> graph_of q ks void g -> graph_of p ks void g.
Proof.
  intros S G. pose proof (same_sym _ _ S) as S'. constructor.
  - exact (go_keys _ _ _ _ G).
  - intros k. rewrite (go_nodes _ _ _ _ G). split; apply s_is_node; assumption.
  - rewrite <- (sp_defined _ _ S). exact (go_real _ _ _ _ G).
  - apply (Forall2_imp (node_of q void)); [intros a b; apply s_node_of; exact S' | exact (go_show _ _ _ _ G)].
  - pose proof (go_void _ _ _ _ G) as V. destruct void; [apply (s_true_void _ _ S'); exact V|]. intros v K. apply (s_true_void _ _ S) in K. exact (V v K).
  - exact (go_wf _ _ _ _ G).
  - intros k l E. apply (go_must _ _ _ _ G). revert E. apply s_edge; [exact S | tauto].
  - intros u v k l E K1 K2. pose proof (go_may _ _ _ _ G u v k l E K1 K2) as X. revert X. apply s_edge; [exact S'|]. intros n. apply (s_created _ _ S').
Qed.
Lemma edge_stable p void k l : stable p -> edge p (created p) void k l -> edge p (fun _ => False) void k l.
Proof.
  intros St H. destruct H.
  - eapply ed_direct; try eassumption. intros E. destruct (H2 E) as [K | K]; [left; exact K|]. exfalso. destruct (St _ K) as [K' _]. exact (K' E).
  - eapply ed_extern; try eassumption. intros E. destruct (St _ (H2 E)) as [K' _]. exact (K' E).
  - eapply ed_cast; eassumption.
  - eapply ed_cast_extern; eassumption.
  - eapply ed_mem; eassumption.
  - exfalso. destruct (St _ H3) as [_ K]. exact (K _ H1).
  - eapply ed_code; eassumption.
  - eapply ed_blind; eassumption.
  - eapply ed_pointer; eassumption.
  - eapply ed_pointee; eassumption.
  - eapply ed_outside; eassumption.
Qed.
Lemma graphs_same p k1 k2 void g1 g2 : wf_prog p -> stable p -> graph_of p k1 void g1 -> graph_of p k2 void g2 -> same_graph (length (pg_defined p)) g1 g2.
Proof.
  intros W St G1 G2. assert (P : Permutation k1 k2).
  { apply NoDup_Permutation; [exact (go_keys _ _ _ _ G1) | exact (go_keys _ _ _ _ G2)|]. intros k. rewrite (go_nodes _ _ _ _ G1), (go_nodes _ _ _ _ G2). reflexivity. }
  destruct (proj1 (Permutation_nth_error _ _) P) as [Ln [f' [_ Hf']]]. destruct (proj1 (Permutation_nth_error _ _) (Permutation_sym P)) as [_ [f [_ Hf]]].
  exists f, f'. pose proof (Forall2_len _ _ _ (go_show _ _ _ _ G1)) as L1. pose proof (Forall2_len _ _ _ (go_show _ _ _ _ G2)) as L2.
  assert (Nd : forall ka ga kb gb v w, graph_of p ka void ga -> graph_of p kb void gb -> nth_error ka v = nth_error kb w -> nth_error (gnodes ga) v = nth_error (gnodes gb) w).
  { intros ka ga kb gb v w Ga Gb E. destruct (nth_error ka v) as [k|] eqn:Ek.
    - destruct (show_at _ _ _ _ Ga _ _ Ek) as [x [X1 X2]]. symmetry in E. destruct (show_at _ _ _ _ Gb _ _ E) as [y [Y1 Y2]].
      rewrite X1, Y1. f_equal. exact (node_of_fun _ _ _ _ _ W X2 Y2).
    - symmetry in E. apply nth_error_None in Ek, E. rewrite (Forall2_len _ _ _ (go_show _ _ _ _ Ga)) in Ek. rewrite (Forall2_len _ _ _ (go_show _ _ _ _ Gb)) in E.
      apply nth_error_None in Ek, E. congruence. }
  split; [|split; [|split; [|split]]].
  - intros v Hv. pose proof (Hf v) as X. rewrite (go_real _ _ _ _ G1 v Hv) in X. symmetry in X. exact (key_inj _ _ _ _ G2 _ _ _ X (go_real _ _ _ _ G2 v Hv)).
  - intros v. split; [apply (Nd k2 g2 k1 g1); [exact G2 | exact G1 | symmetry; apply Hf] | apply (Nd k1 g1 k2 g2); [exact G1 | exact G2 | symmetry; apply Hf']].
  - intros v Hv. unfold node_count in Hv. destruct (nth_error k1 v) as [k|] eqn:E; [|apply nth_error_None in E; lia].
    pose proof (Hf v) as X. rewrite E in X. pose proof (Hf' (f v)) as Y. rewrite <- X in Y. symmetry in Y. exact (key_inj _ _ _ _ G1 _ _ _ Y E).
  - intros v Hv. unfold node_count in Hv. destruct (nth_error k2 v) as [k|] eqn:E; [|apply nth_error_None in E; lia].
    pose proof (Hf' v) as X. rewrite E in X. pose proof (Hf (f' v)) as Y. rewrite <- X in Y. symmetry in Y. exact (key_inj _ _ _ _ G2 _ _ _ Y E).
  - intros u v Hu Hv. unfold node_count in *. destruct (nth_error k1 u) as [ku|] eqn:Eu; [|apply nth_error_None in Eu; lia]. destruct (nth_error k1 v) as [kv|] eqn:Ev; [|apply nth_error_None in Ev; lia].
    pose proof (Hf u) as Xu. rewrite Eu in Xu. symmetry in Xu. pose proof (Hf v) as Xv. rewrite Ev in Xv. symmetry in Xv. split; intros E.
    + pose proof (edge_stable _ _ _ _ St (go_may _ _ _ _ G1 u v _ _ E Eu Ev)) as M. destruct (go_must _ _ _ _ G2 _ _ M) as [u' [v' [A [B C]]]].
      rewrite (key_inj _ _ _ _ G2 _ _ _ Xu A), (key_inj _ _ _ _ G2 _ _ _ Xv B). exact C.
    + pose proof (edge_stable _ _ _ _ St (go_may _ _ _ _ G2 _ _ _ _ E Xu Xv)) as M. destruct (go_must _ _ _ _ G1 _ _ M) as [u' [v' [A [B C]]]].
      rewrite (key_inj _ _ _ _ G1 _ _ _ Eu A), (key_inj _ _ _ _ G1 _ _ _ Ev B). exact C.
Qed.
Lemma void_same p k1 k2 v1 v2 g1 g2 : one_void p -> graph_of p k1 v1 g1 -> graph_of p k2 v2 g2 -> v1 = v2.
Proof.
  intros O G1 G2. pose proof (go_void _ _ _ _ G1) as A. pose proof (go_void _ _ _ _ G2) as B. destruct v1 as [v1|], v2 as [v2|].
  - f_equal. exact (O _ _ A B).
  - exfalso. exact (B _ A).
  - exfalso. exact (A _ B).
  - reflexivity.
Qed.
