(** Reports below a start point: lemmas for C98. *)
From Coq Require Import Permutation.
From Verif Require Import M_base M_stack M_graph M_analysis M_filter M_names M_render M_thumb M_ty M_parse M_build M_run S_names S_graph S_filter S_sig S_build S_run L_base L_names L_ir2 L_trav L_kosaraju L_maxprops L_filter2 L_build1 L_build2 L_build3 L_build4 L_build5 L_build6 L_build7 L_run L_report L_debug6 S_part.

Lemma shorten_some demangle m : forall (l : list node) l' ids r, shorten_nodes demangle m l = Ret l' -> (forall k v, nth_error ids k = Some v -> nth_error r k = nth_error l v) -> length r = length ids -> (forall v, In v ids -> v < length l) ->
  exists r', shorten_nodes demangle m r = Ret r' /\ length r' = length ids /\ forall k v, nth_error ids k = Some v -> nth_error r' k = nth_error l' v.
Proof.
  intros l l' ids r Sh. assert (N : forall v nd, nth_error l v = Some nd -> exists nd', shorten_node demangle m nd = Ret nd' /\ nth_error l' v = Some nd').
  { revert l' Sh. induction l as [|x l IH]; intros l' Sh v nd Ev; [destruct v; discriminate Ev|]. cbn [shorten_nodes] in Sh. destruct (bind_inv _ _ _ Sh) as [x' [S1 S2]]. destruct (bind_inv _ _ _ S2) as [l2 [S3 S4]]. injection S4 as <-.
    destruct v as [|v]; [injection Ev as <-; exists x'; split; [exact S1 | reflexivity] | exact (IH l2 S3 v nd Ev)]. }
  revert ids. induction r as [|x r IH]; intros [|i ids] H L B; try discriminate L; [exists []; split; [reflexivity|]; split; [reflexivity | intros k v K; destruct k; discriminate K]|].
  pose proof (H 0 i eq_refl) as Hx. cbn [nth_error] in Hx. destruct (N i x (eq_sym Hx)) as [x' [X1 X2]].
  destruct (IH ids (fun k v K => H (S k) v K) (f_equal pred L) (fun v I => B v (or_intror I))) as [r' [R1 [R2 R3]]]. exists (x' :: r'). cbn [shorten_nodes]. rewrite X1. cbn [bind]. rewrite R1. split; [reflexivity|].
  split; [cbn [length]; rewrite R2; reflexivity|]. intros [|k] v K; [injection K as <-; exact (eq_sym X2) | exact (R3 k v K)].
Qed.
Lemma node_eq (a b : node) : face a = face b -> nmax a = nmax b -> a = b.
Proof. destruct a, b. unfold face. cbn. intros E ->. injection E as -> -> ->. reflexivity. Qed.
Lemma face_nth g g' v : map face (gnodes g') = map face (gnodes g) -> option_map face (nth_error (gnodes g') v) = option_map face (nth_error (gnodes g) v).
Proof. intros H. rewrite <- !nth_error_map, H. reflexivity. Qed.

Lemma nodup_parts {A} (a b : list A) : NoDup (a ++ b) -> NoDup a /\ NoDup b.
Proof.
  induction a as [|x a IH]; cbn [app]; intros N; [split; [constructor | exact N]|]. inversion N as [|y l H K]; subst. destruct (IH K) as [P Q]. split; [|exact Q]. constructor; [|exact P]. intros I. apply H. apply in_or_app. now left.
Qed.
Lemma nodup_in {A} (l : list (list A)) c : NoDup (concat l) -> In c l -> NoDup c.
Proof. induction l as [|d l IH]; cbn [concat]; intros N I; [destruct I|]. apply nodup_parts in N. destruct N as [P Q]. destruct I as [<-|I]; [exact P | exact (IH Q I)]. Qed.

Section Part.
Variables (g : graph node) (i : nat) (g2 : graph node) (ids : list nat) (info : bool) (g' : graph node) (cs : list (list nat)).
Hypotheses (Wf : wf_graph g) (U : usages_u64 g) (R : restricted g i g2 ids) (M : max_stack info g = Ret (g', cs)).
Lemma ids_lt k v : nth_error ids k = Some v -> k < node_count g2 /\ v < node_count g.
Proof.
  intros K. assert (L : k < node_count g2) by (rewrite <- (rs_count _ _ _ _ R); apply nth_error_Some; congruence). split; [exact L|]. unfold node_count. apply nth_error_Some. rewrite <- (rs_nodes _ _ _ _ R k v K). apply nth_error_Some. exact L.
Qed.
Lemma max_part : exists g2' cs2, max_stack info g2 = Ret (g2', cs2) /\ gedges g2' = gedges g2 /\ length (gnodes g2') = length ids /\ (forall k v, nth_error ids k = Some v -> nth_error (gnodes g2') k = nth_error (gnodes g') v) /\
  groups_below ids cs cs2.
Proof.
  destruct info.
  - pose proof (rs_wf _ _ _ _ R) as W2. destruct (all_reported g2 W2) as [g2' [cs2 [M2 [E2 [F2 A2]]]]]. exists g2', cs2. split; [exact M2|]. split; [exact E2|].
    assert (L2 : length (gnodes g2') = length ids) by (apply (f_equal (@length _)) in F2; rewrite !map_length in F2; rewrite F2; symmetry; exact (rs_count _ _ _ _ R)). split; [exact L2|].
    pose proof (max_faces true g g' cs Wf M) as F1. split.
    + intros k v K. destruct (ids_lt k v K) as [Lk Lv]. destruct (A2 k Lk) as [mx Mk]. pose proof (proj1 (filter_keeps_maxima g i g2 ids g' cs g2' cs2 Wf U R M M2 k v mx K) Mk) as Mv.
      pose proof (face_nth _ _ k F2) as X2. pose proof (face_nth _ _ v F1) as X1. rewrite (rs_nodes _ _ _ _ R k v K), <- X1 in X2. destruct Mk as [a [Ea Ma]]. destruct Mv as [b [Eb Mb]].
      rewrite Ea, Eb in *. cbn [option_map] in X2. f_equal. apply node_eq; [|congruence]. set (fa := face a) in *. set (fb := face b) in *. clearbody fa fb. congruence.
    + destruct (clusters_exact g g' cs Wf M) as [D1 [N1 [R1 C1]]]. destruct (clusters_exact g2 g2' cs2 W2 M2) as [D2 [N2 [R2 C2]]].
      assert (Lt2 : forall c x, In c cs2 -> In x c -> x < node_count g2).
      { intros c x Ic Ix. assert (Rx : recursive g2 x) by (apply R2; apply in_concat; exists c; split; assumption). destruct Rx as [y [Cx _]]. exact (proj1 (W2 x y Cx)). }
      assert (Nth : forall k, k < node_count g2 -> nth_error ids k = Some (nth k ids 0)) by (intros k L; apply nth_error_nth'; rewrite (rs_count _ _ _ _ R); exact L).
      assert (Pm : forall c c' k, In c cs -> In c' cs2 -> In k c' -> In (nth k ids 0) c -> Permutation (map (fun k => nth k ids 0) c') c).
      { intros c c' k Ic Ic' Ik Iv. apply NoDup_Permutation.
        - assert (Nc : NoDup c') by exact (nodup_in cs2 c' D2 Ic').
          pose proof (fun x => Lt2 c' x Ic') as Lc. clear - R Nc Lc. induction Nc as [|x l X Nc IH]; [constructor|]. cbn [map]. constructor; [|apply IH; intros y I; apply Lc; now right].
          intros I. apply in_map_iff in I. destruct I as [y [E Iy]]. apply X. rewrite <- (rs_inj g g2 i ids R y x (Lc y (or_intror Iy)) (Lc x (or_introl eq_refl)) E). exact Iy.
        - exact (nodup_in cs c D1 Ic).
        - intros y. split; intros Iy.
          + apply in_map_iff in Iy. destruct Iy as [l [<- Il]]. apply (C1 c (nth k ids 0) _ Ic Iv). apply (rs_mutual g g2 i ids R k l (Lt2 c' k Ic' Ik) (Lt2 c' l Ic' Il)). apply (C2 c' k l Ic' Ik). exact Il.
          + apply (C1 c (nth k ids 0) y Ic Iv) in Iy. destruct Iy as [Y1 Y2]. destruct (rs_reach_bwd g g2 i ids R _ _ Y1 k (Lt2 c' k Ic' Ik) eq_refl) as [l [Ll [El Rl]]].
            apply in_map_iff. exists l. split; [exact El|]. apply (C2 c' k l Ic' Ik). apply (rs_mutual g g2 i ids R k l (Lt2 c' k Ic' Ik) Ll). rewrite El. split; assumption. }
      constructor.
      * intros c' Ic'. destruct c' as [|k l] eqn:Ec; [destruct (N2 [] Ic' eq_refl)|]. rewrite <- Ec in *. assert (Ik : In k c') by (rewrite Ec; now left). pose proof (Lt2 c' k Ic' Ik) as Lk.
        assert (Rk : recursive g2 k) by (apply R2; apply in_concat; exists c'; split; assumption). apply (rs_recursive g g2 i ids R k Lk) in Rk. apply R1 in Rk. apply in_concat in Rk. destruct Rk as [c [Ic Iv]].
        exists c. split; [exact Ic | exact (Pm c c' k Ic Ic' Ik Iv)].
      * intros c v Ic Iv Ii. apply In_nth_error in Ii. destruct Ii as [k K]. destruct (ids_lt k v K) as [Lk _]. assert (Ev : nth k ids 0 = v) by (apply nth_error_nth; exact K).
        assert (Rv : recursive g v) by (apply R1; apply in_concat; exists c; split; assumption). rewrite <- Ev in Rv. apply (rs_recursive g g2 i ids R k Lk) in Rv. apply R2 in Rv. apply in_concat in Rv. destruct Rv as [c' [Ic' Ik]].
        exists c'. split; [exact Ic'|]. apply (Pm c c' k Ic Ic' Ik). rewrite Ev. exact Iv.
  - cbn in M. injection M as <- <-. exists g2, []. split; [reflexivity|]. split; [reflexivity|]. split; [symmetry; exact (rs_count _ _ _ _ R)|]. split; [exact (rs_nodes _ _ _ _ R)|]. constructor; [intros c' [] | intros c v []].
Qed.
End Part.

Theorem report_part demangle o p g cs s k : wf_prog p -> fair o -> sizes_u64 p -> report demangle o None p = Ret (g, cs) -> denotes demangle p s k ->
  exists g' cs' ids v nd, report demangle o (Some s) p = Ret (g', cs') /\ restricted g v g' ids /\ nth_error (gnodes g) v = Some nd /\ shows demangle p k nd /\ groups_below ids cs cs'.
Proof.
  intros W Fo Sz Rp Dk. unfold report in Rp. destruct (bind_inv _ _ _ Rp) as [b [E H]]. clear Rp. destruct (report_graph demangle o p b W Fo E None g cs H) as [ks1 [void1 Pi]].
  pose proof H as H0. unfold finish in H. destruct (bind_inv _ _ _ H) as [g1 [H1 H']]. clear H. injection H1 as <-. destruct (bind_inv _ _ _ H') as [[g3 cs3] [H2 H]]. clear H'. destruct (bind_inv _ _ _ H) as [g4 [H3 H4]]. clear H. injection H4 as <- <-.
  unfold shorten in H3. destruct (bind_inv _ _ _ H3) as [nds [H4 H5]]. injection H5 as <-.
  destruct (build_spec _ _ _ _ W Fo E) as [ks [void [G [_ [_ [Hi _]]]]]]. pose proof (graph_wf p ks void _ G) as Wf. pose proof (filtered_u64 demangle o None p b _ W Fo Sz E eq_refl) as Uu.
  destruct (resolve_start demangle (b_indices b) s) as [i0|] eqn:Rs; [|destruct (proj1 (resolve_none demangle o p b W Fo E ks void G Hi s) Rs k Dk)].
  pose proof (resolve_key demangle o p b W Fo E ks void G Hi s i0 k Rs Dk) as Ki.
  assert (Li : i0 < node_count (b_g b)) by (unfold node_count; rewrite <- (Forall2_len _ _ _ (go_show _ _ _ _ G)); apply nth_error_Some; congruence).
  destruct (filter_restricts demangle (b_indices b) s i0 (b_g b) Wf Rs Li) as [g2 [ids [F Rr]]].
  destruct (max_part (b_g b) i0 g2 ids (b_info b) g3 cs3 Wf Uu Rr H2) as [g2' [cs2 [M2 [E2 [L2 [N2 Gr]]]]]].
  pose proof (max_faces _ _ _ _ Wf H2) as F3. assert (L3 : length (gnodes g3) = length (gnodes (b_g b))) by (apply (f_equal (@length _)) in F3; rewrite !map_length in F3; exact F3).
  destruct (shorten_some demangle (b_ambiguous b) (gnodes g3) nds ids (gnodes g2') H4 N2 L2) as [r' [S1 [S2 S3]]].
  { intros v I. apply In_nth_error in I. destruct I as [j J]. rewrite L3. exact (proj2 (ids_lt _ _ _ _ Rr j v J)). }
  pose proof (shorten_nodes_max _ _ _ _ H4) as Sh. pose proof (Forall2_len _ _ _ Sh) as Ln. pose proof (max_edges _ _ _ _ Wf H2) as Ed.
  assert (Nv : exists nd, nth_error nds i0 = Some nd) by (destruct (nth_error nds i0) as [nd|] eqn:X; [now exists nd | apply nth_error_None in X; unfold node_count in Li; lia]). destruct Nv as [nd Nv].
  exists (mkG r' (gedges g2')), cs2, ids, i0, nd. split; [unfold report; rewrite E; cbn [bind]; unfold finish; rewrite F; cbn [bind]; rewrite M2; cbn [bind]; unfold shorten; rewrite S1; reflexivity|].
  split; [|split; [exact Nv|]; split; [|exact Gr]].
  - assert (Rch : forall a c, reach (mkG nds (gedges g3)) a c <-> reach (b_g b) a c) by (intros a c; unfold reach, calls; cbn [gedges]; rewrite Ed; reflexivity).
    constructor; cbn [gnodes gedges].
    + exact (rs_nodup _ _ _ _ Rr).
    + exact (rs_start _ _ _ _ Rr).
    + intros v. rewrite Rch. exact (rs_reach _ _ _ _ Rr v).
    + unfold node_count. cbn [gnodes]. symmetry. exact S2.
    + exact S3.
    + intros u v I. cbn [gedges] in I. unfold calls in I. cbn [gedges] in I. rewrite E2 in I. unfold node_count. cbn [gnodes]. rewrite S2, (rs_count _ _ _ _ Rr). exact (rs_wf _ _ _ _ Rr u v I).
    + rewrite E2, Ed. exact (rs_edges _ _ _ _ Rr).
  - assert (K0 : forall j key n, nth_error ks j = Some key -> nth_error (gnodes (b_g b)) j = Some n -> node_of p void key n).
    { intros j key n K1 K2. destruct (key_at _ _ _ _ G _ _ K2) as [x [X1 X2]]. congruence. }
    pose proof (shown_nodes demangle p void _ _ _ _ (gnodes (b_g b)) H4 F3 K0) as Sn. exact (Sn i0 k nd Ki Nv).
Qed.
Theorem report_whole demangle o p s : wf_prog p -> fair o -> no_start demangle p (Some s) -> report demangle o (Some s) p = report demangle o None p.
Proof.
  intros W Fo N. unfold report. destruct (build demangle o p) as [b| | |] eqn:E; [|reflexivity..]. cbn [bind]. destruct (build_spec _ _ _ _ W Fo E) as [ks [void [G [_ [_ [Hi _]]]]]].
  unfold finish. rewrite (filter_unresolved demangle (b_indices b) s (b_g b)); [reflexivity|]. apply (resolve_none demangle o p b W Fo E ks void G Hi s). intros k K. exact (N s k eq_refl K).
Qed.
