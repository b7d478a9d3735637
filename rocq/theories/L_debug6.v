(** The numbers that a debug build prints. *)
From Verif Require Import M_base M_stack M_graph M_analysis M_filter M_names M_thumb M_ty M_parse M_render M_build M_run M_debug L_driver3 L_filter2 S_graph S_filter S_build S_run S_debug S_thumb S_machine
  L_base L_trav L_kosaraju L_topo L_charge L_analysis L_maxprops L_build1 L_build5 L_build6 L_build8 L_u64 L_run L_report L_run2 L_debug1 L_debug2 L_debug3 L_debug4 L_debug5 L_machine X_build X_machine.

(** Usages of 64 bits stay so in the graph that is left. *)
Lemma filtered_u64 demangle o start p b g2 : wf_prog p -> fair o -> sizes_u64 p -> build demangle o p = Ret b -> filter_start demangle (b_indices b) start (b_g b) = Ret g2 -> usages_u64 g2.
Proof.
  intros W Fo Sz E Hf. destruct (build_spec demangle o p b W Fo E) as [ks [void [G [_ [_ [Hi _]]]]]].
  pose proof (graph_u64 p ks void _ G Sz) as U0. destruct (filtered demangle o p b W E start ks void g2 G Hi Hf) as [[-> _] | [s [i0 [ids [_ [_ Rs]]]]]]; [exact U0|].
    intros v k K. unfold known, local_of in K. destruct (nth_error (gnodes g2) v) as [nd|] eqn:En; [|discriminate K]. cbn in K. injection K as K.
    destruct (nth_error ids v) as [u|] eqn:Eu.
    - apply (U0 u k). unfold known, local_of. rewrite <- (rs_nodes _ _ _ _ Rs v u Eu), En. cbn. congruence.
    - apply nth_error_None in Eu. rewrite (rs_count _ _ _ _ Rs) in Eu. assert (v < node_count g2) by (apply nth_error_Some; rewrite En; discriminate). lia.
Qed.
Lemma debug_right demangle o start p g cs : wf_prog p -> fair o -> proper_tags (pg_tags p) -> sizes_u64 p -> report_d demangle o start p = Ret (g, cs) ->
  report demangle o start p = Ret (g, cs) /\ forall v m, reported g v m -> forall n, charge g v n <-> n = num m.
Proof.
  intros W Fo T Sz H. pose proof (so_ret_same _ _ _ (so_report demangle o start p W Fo T) H) as R. split; [exact R|].
  unfold report_d in H. apply bind_Ret in H. destruct H as [b [Hb H]]. pose proof (so_ret_same _ _ _ (so_build demangle o p (wf_addrs p W) T) Hb) as E.
  unfold report in R. rewrite E in R. cbn [bind] in R. destruct (report_figures demangle o p b W Fo E start g cs R) as [Fg _].
  unfold finish_d in H. apply bind_Ret in H. destruct H as [g2 [Hf H]]. apply bind_Ret in H. destruct H as [[g3 cs3] [Hm _]].
  destruct (filtered_ready demangle o p b start g2 W Fo E Hf) as [Wg [Fr _]]. pose proof (finish_alike _ _ _ _ _ _ Wg Hf R) as Al.
  pose proof (filtered_u64 demangle o start p b g2 W Fo Sz E Hf) as U.
  intros v m Rp. destruct g as [nds es]. destruct (Fg v m Rp) as [_ Ch]. apply Ch. apply (alike_below _ _ _ Al).
  destruct (b_info b) eqn:Bi.
  - apply (max_stack_ends g2 Wg U _ Hm). rewrite (alike_count _ _ Al). eapply reported_lt. exact Rp.
  - exfalso. unfold finish in R. rewrite Hf in R. cbn [bind] in R. rewrite Bi in R. cbn [max_stack negb bind] in R. apply bind_Ret in R. destruct R as [g4 [R1 R2]]. injection R2 as -> _.
    unfold shorten in R1. apply bind_Ret in R1. destruct R1 as [nds' [R3 R4]]. injection R4 as <- _. pose proof (shorten_nodes_max _ _ _ _ R3) as Sh.
    destruct Rp as [nd [K1 K2]]. cbn [gnodes] in K1.
    assert (Mx : map nmax nds' = map nmax (gnodes g2)) by (clear - Sh; induction Sh as [|a c l l' [S1 _] S IH]; [reflexivity | cbn; rewrite S1, IH; reflexivity]).
    assert (K : nth_error (map nmax nds') v = Some (Some m)) by (rewrite nth_error_map, K1; cbn; now rewrite K2). rewrite Mx, nth_error_map in K.
    destruct (nth_error (gnodes g2) v) as [x|] eqn:Ex; [|discriminate K]. cbn in K. rewrite (Fr x (nth_error_In _ _ Ex)) in K. discriminate K.
Qed.

Lemma debug_bounds demangle o start p g cs : wf_prog p -> fair o -> proper_tags (pg_tags p) -> sizes_u64 p -> report_d demangle o start p = Ret (g, cs) ->
  exists ks, length ks = node_count g /\
    (forall k i n nd, nth_error ks k = Some (KReal i) -> nth_error (gnodes g) k = Some nd -> nmax nd = Some (MExact n) ->
       forall l, runs p i l -> (forall x, In x l -> covered_fn p x) -> exists d, depth p l d /\ (d <= n)%N) /\
    (no_start demangle p start -> forall i, i < length (pg_defined p) -> nth_error ks i = Some (KReal i)) /\
    (forall s k, start = Some s -> denotes demangle p s k -> nth_error ks 0 = Some k) /\
    (forall k key nd, nth_error ks k = Some key -> nth_error (gnodes g) k = Some nd -> shows demangle p key nd).
Proof.
  intros W Fo T Sz H. destruct (debug_right demangle o start p g cs W Fo T Sz H) as [R Ch]. unfold report in R. apply bind_Ret in R. destruct R as [b [E R]].
  destruct (report_charged demangle o p b W Fo E start g cs R) as [ks [K1 [K2 K3]]]. exists ks. split; [exact K1|]. split; [|exact K3].
  intros k i n nd A1 A2 A3 l Rn C. apply (K2 k i n n nd A1 A2 A3); [|exact (runs_covered p i l Rn C)]. apply (Ch k (MExact n)); [exists nd; exact (conj A2 A3) | reflexivity].
Qed.
Lemma debug_machine p lay : layout p lay ->
  forall demangle o start g cs, wf_prog p -> fair o -> proper_tags (pg_tags p) -> sizes_u64 p -> report_d demangle o start p = Ret (g, cs) ->
  exists ks, length ks = node_count g /\
    (forall k i n nd, nth_error ks k = Some (KReal i) -> nth_error (gnodes g) k = Some nd -> nmax nd = Some (MExact n) ->
       forall fs, executes p lay i fs -> (forall f, In f fs -> trusted p lay (fr_fn f)) -> (in_use fs <= n)%N) /\
    (no_start demangle p start -> forall i, i < length (pg_defined p) -> nth_error ks i = Some (KReal i)) /\
    (forall s k, start = Some s -> denotes demangle p s k -> nth_error ks 0 = Some k) /\
    (forall k key nd, nth_error ks k = Some key -> nth_error (gnodes g) k = Some nd -> shows demangle p key nd).
Proof.
  intros La demangle o start g cs W Fo T Sz H. destruct (debug_right demangle o start p g cs W Fo T Sz H) as [R _]. unfold report in R. apply bind_Ret in R. destruct R as [b [E _]].
  destruct (debug_bounds demangle o start p g cs W Fo T Sz H) as [ks [K1 [K2 K3]]]. exists ks. split; [exact K1|]. split; [|exact K3].
  intros k i n nd A1 A2 A3 fs. exact (bounded_machine p lay La demangle o b W E i n fs (K2 k i n nd A1 A2 A3)).
Qed.

Lemma wrapping_debug : wf_graph wrapping /\ usages_u64 wrapping /\ fresh wrapping /\ max_stack true wrapping = Ret wrapping_done /\ ~ below_2_64 wrapping 0 /\
  max_stack_d true wrapping = Panic "attempt to add with overflow".
Proof.
  destruct wrapping_ok as [W [U [M [_ [B _]]]]]. split; [exact W|]. split; [exact U|]. split; [|split; [exact M | split; [exact B | vm_compute; reflexivity]]].
  intros nd [<- | [<- | []]]; reflexivity.
Qed.
Lemma m_sizes : sizes_u64 m_p.
Proof. apply Forall_u64. vm_compute. reflexivity. Qed.

(** * Usages that do not fit, and executions *)
Lemma big_covered : covered big_p.
Proof.
  intros i. constructor.
  - intros _ j L. exfalso. apply live_find in L. destruct j as [|[|j]]; try (vm_compute in L; discriminate L). cbn [nth_error pg_defined big_p] in L. destruct j; exact L.
  - intros f j B L. apply body_in in B. destruct B as [n [d [I K]]]. cbn in I. each I; injection I as <- <-; cbn in K; each K; discriminate K.
  - intros _ f n j B I L. exfalso. apply body_in in B. destruct B as [m [d [K1 K2]]]. cbn in K1. each K1; injection K1 as <- <-; cbn in K2; each K2; try discriminate K2; injection K2 as <-; inversion I; discriminate.
  - intros s' j s r B. exfalso. apply body_in in B. destruct B as [n [d [I K]]]. cbn in I. each I; injection I as <- <-; cbn in K; each K; discriminate K.
  - intros _ s' B. exfalso. apply body_in in B. destruct B as [n [d [I K]]]. cbn in I. each I; injection I as <- <-; cbn in K; each K; discriminate K.
  - intros s' j s B. exfalso. apply body_in in B. destruct B as [n [d [I K]]]. cbn in I. each I; injection I as <- <-; cbn in K; each K; discriminate K.
  - apply all_read. vm_compute. reflexivity.
  - intros T. discriminate T.
  - intros [[c B] _]. apply body_in in B. destruct B as [n [d [I K]]]. cbn in I. each I; injection I as <- <-; cbn in K; each K; discriminate K.
Qed.
Lemma big_sizes : sizes_u64 big_p.
Proof. apply Forall_u64. vm_compute. reflexivity. Qed.
Lemma big_runs : runs big_p 0 [0; 1] /\ depth big_p [0; 1] (2 ^ 64).
Proof.
  split.
  - apply runs_call with 1; [|constructor; cbn; lia]. apply iv_direct with (lit "leaf"); [body_tac | | live_tac]. intros [r K]. discriminate K.
  - change (2 ^ 64)%N with (9223372036854775808 + (9223372036854775808 + 0))%N. constructor; [|constructor; [|constructor]].
    + apply us_llvm; [left; reflexivity|]. exists (lit "main"). split; [apply chosen_find; vm_compute; reflexivity | cbn; left; reflexivity].
    + apply us_llvm; [left; reflexivity|]. exists (lit "leaf"). split; [apply chosen_find; vm_compute; reflexivity | cbn; right; left; reflexivity].
Qed.
Lemma big_exceeds : exists demangle o p g cs nd l d, wf_prog p /\ fair o /\ sizes_u64 p /\ covered p /\ report demangle o None p = Ret (g, cs) /\
  nth_error (gnodes g) 0 = Some nd /\ nmax nd = Some (MExact 0) /\ runs p 0 l /\ depth p l d /\ (0 < d)%N.
Proof.
  destruct big_release as [g [cs [nd [H1 [H2 H3]]]]]. destruct big_runs as [R D]. exists idd, o_id, big_p, g, cs, nd, [0; 1], (2 ^ 64)%N.
  split; [exact big_wf|]. split; [exact o_id_fair|]. split; [exact big_sizes|]. split; [exact big_covered|]. split; [exact H1|]. split; [exact H2|]. split; [exact H3|]. split; [exact R|]. split; [exact D | reflexivity].
Qed.
