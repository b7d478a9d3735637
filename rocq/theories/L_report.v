(** What the finished graph shows of the program. *)
From Coq Require Import Permutation.
From Verif Require Import M_base M_stack M_graph M_analysis M_filter M_names M_render M_thumb M_ty M_parse M_build M_run S_names S_graph S_filter S_sig S_build S_run L_base L_names L_ir2 L_trav L_kosaraju L_maxprops L_filter2 L_build1 L_build2 L_build3 L_build4 L_build5 L_build6 L_build7 L_run.
From Verif Require S_calls L_build9 L_calls4 L_exact.

Lemma max_edges info g g' cs : wf_graph g -> max_stack info g = Ret (g', cs) -> gedges g' = gedges g.
Proof.
  intros Wf M. destruct info; [|cbn in M; injection M as <- <-; reflexivity]. destruct (all_reported g Wf) as [g1 [cs1 [H1 [H2 _]]]]. rewrite M in H1. injection H1 as <- <-. exact H2.
Qed.
Lemma star_mono (E F : nat -> nat -> Prop) u v : (forall a b, E a b -> F a b) -> star E u v -> star F u v.
Proof. intros H S. induction S as [|a b c X S IH]; [constructor | econstructor; [apply H; exact X | exact IH]]. Qed.

(** Edges of a restriction. *)
Lemma restricted_edge g i g2 ids k l u v : restricted g i g2 ids -> nth_error ids k = Some u -> nth_error ids l = Some v -> (In (k, l) (gedges g2) <-> In (u, v) (gedges g)).
Proof. intros R K L. rewrite !(count_occ_In edge_dec). rewrite (rs_edges _ _ _ _ R k l u v K L). reflexivity. Qed.
Lemma restricted_reach g i g2 ids v : wf_graph g -> restricted g i g2 ids -> forall u, star (calls g) u v -> reach g i u ->
  forall a b, nth_error ids a = Some u -> nth_error ids b = Some v -> star (calls g2) a b.
Proof.
  intros Wf R u S. induction S as [v|u w v E S IH]; intros Ru a b A B.
  - assert (a = b) by (apply (proj1 (NoDup_nth_error ids) (rs_nodup _ _ _ _ R)); [apply nth_error_Some; rewrite A; discriminate | congruence]). subst. constructor.
  - assert (Rw : reach g i w) by exact (star_snoc _ _ _ _ Ru E). pose proof (proj2 (rs_reach _ _ _ _ R w) Rw) as Iw. apply In_nth_error in Iw. destruct Iw as [c C].
    apply star_step with c; [apply (restricted_edge _ _ _ _ _ _ _ _ R A C); exact E|]. exact (IH Rw c b C B).
Qed.

Lemma count_times e l : count_occ edge_dec l e = S_calls.times e l.
Proof.
  unfold S_calls.times. induction l as [|[x y] l IH]; [reflexivity|]. destruct e as [a c]. cbn [count_occ filter fst snd]. destruct (edge_dec (x, y) (a, c)) as [X|X].
  - injection X as -> ->. rewrite !Nat.eqb_refl. cbn [andb length]. now rewrite IH.
  - destruct (Nat.eqb_spec x a) as [->|N1]; [|exact IH]. destruct (Nat.eqb_spec y c) as [->|N2]; [now destruct X | exact IH].
Qed.

Section Report.
Variables (demangle : str -> str) (o : orders) (p : prog) (b : built).
Hypothesis (W : wf_prog p) (Fo : fair o) (E : build demangle o p = Ret b).

Theorem report_placed start g cs : finish demangle start b = Ret (g, cs) -> exists ks void, pictures demangle p start ks void (gnodes g) (gedges g) /\
  exists ks0 g2, graph_of p ks0 void (b_g b) /\ filter_start demangle (b_indices b) start (b_g b) = Ret g2 /\
  (g2 = b_g b /\ ks = ks0 \/ exists i0 ids, restricted (b_g b) i0 g2 ids /\ forall k key, nth_error ks k = Some key -> exists v, nth_error ids k = Some v /\ nth_error ks0 v = Some key).
Proof.
  intros H. unfold finish in H. destruct (bind_inv _ _ _ H) as [g2 [H1 H']]. clear H. destruct (bind_inv _ _ _ H') as [[g3 cs3] [H2 H]]. clear H'. destruct (bind_inv _ _ _ H) as [g4 [H3 H4]]. clear H. injection H4 as <- <-.
  destruct (L_calls4.build_counted _ _ _ _ W Fo E) as [tr [ks [void [T [G [Ct Hi]]]]]]. pose proof (graph_wf p ks void _ G) as Wf.
  destruct (L_exact.arrow_graph p tr W T ks void _ G Ct) as [_ Cl]. pose proof (fun u v k l => L_exact.arrow_times p tr W T ks void _ u v k l G Ct) as Tm.
  assert (Tr : forall t, trace p (pg_defines p) t -> t = tr) by (intros t Tt; exact (L_build9.trace_same p W _ _ _ Tt T)).
  unfold shorten in H3. destruct (bind_inv _ _ _ H3) as [nds [H4 H5]]. injection H5 as <-. pose proof (shorten_nodes_max _ _ _ _ H4) as Sh. cbn [gnodes gedges].
  pose proof (Forall2_len _ _ _ (go_show _ _ _ _ G)) as Lk. pose proof (Forall2_len _ _ _ Sh) as Ln.
  assert (K0 : forall k key nd, nth_error ks k = Some key -> nth_error (gnodes (b_g b)) k = Some nd -> node_of p void key nd).
  { intros k key nd K1 K2. destruct (key_at _ _ _ _ G _ _ K2) as [x [X1 X2]]. congruence. }
  destruct (filtered demangle o p b W E start ks void g2 G Hi H1) as [[-> Hs] | [s [i0 [ids [-> [Hr R]]]]]].
  - exists ks, void. split; [|exists ks, (b_g b); split; [exact G|]; split; [exact H1|]; left; split; reflexivity]. pose proof (max_faces _ _ _ _ Wf H2) as F. pose proof (max_edges _ _ _ _ Wf H2) as Ed. assert (L3 : length (gnodes g3) = length (gnodes (b_g b))) by (apply (f_equal (@length _)) in F; rewrite !map_length in F; exact F).
    rewrite Ed. constructor.
    + split; [exact (go_keys _ _ _ _ G) | congruence].
    + intros k I. apply (go_nodes _ _ _ _ G). exact I.
    + exact (go_void _ _ _ _ G).
    + exact (shown_nodes _ _ _ _ _ _ _ _ H4 F K0).
    + intros _ k I. apply (go_nodes _ _ _ _ G). exact I.
    + intros s k -> Cs. exfalso. exact (proj1 (resolve_none demangle o p b W Fo E ks void G Hi s) (Hs s eq_refl) k Cs).
    + exact (go_wf _ _ _ _ G).
    + intros k l _. exact (go_must _ _ _ _ G k l).
    + exact (go_may _ _ _ _ G).
    + intros t Tt. rewrite (Tr t Tt). exact Tm.
    + intros t Tt k l _. rewrite (Tr t Tt). apply Cl.
  - set (key_of := fun v => nth v ks (KReal 0)). exists (map key_of ids), void.
    pose proof (max_faces _ _ _ _ (rs_wf _ _ _ _ R) H2) as F. pose proof (max_edges _ _ _ _ (rs_wf _ _ _ _ R) H2) as Ed. assert (L3 : length (gnodes g3) = length (gnodes g2)) by (apply (f_equal (@length _)) in F; rewrite !map_length in F; exact F).
    assert (Lv : forall k v, nth_error ids k = Some v -> v < length ks).
    { intros k v Ev. rewrite Lk. apply nth_error_Some. rewrite <- (rs_nodes _ _ _ _ R k v Ev). apply nth_error_Some. pose proof (rs_count _ _ _ _ R) as Rc. unfold node_count in Rc. rewrite <- Rc. apply nth_error_Some. rewrite Ev. discriminate. }
    assert (Kv : forall k key, nth_error (map key_of ids) k = Some key -> exists v, nth_error ids k = Some v /\ nth_error ks v = Some key).
    { intros k key K. rewrite nth_error_map in K. destruct (nth_error ids k) as [v|] eqn:Ev; [|discriminate K]. cbn in K. injection K as K. exists v. split; [reflexivity|].
      rewrite (nth_error_nth' ks (KReal 0) (Lv k v Ev)). f_equal. exact K. }
    assert (Vk : forall k v key, nth_error ids k = Some v -> nth_error ks v = Some key -> nth_error (map key_of ids) k = Some key).
    { intros k v key Ev K. rewrite nth_error_map, Ev. cbn. f_equal. unfold key_of. apply nth_error_nth. exact K. }
    split; [|exists ks, g2; split; [exact G|]; split; [exact H1|]; right; exists i0, ids; split; [exact R | exact Kv]].
    assert (Li : length (map key_of ids) = length (gnodes g2)) by (rewrite map_length; exact (rs_count _ _ _ _ R)).
    rewrite Ed. constructor.
    + split; [|congruence]. apply NoDup_nth_error. intros x y Lx Exy. destruct (nth_error (map key_of ids) x) as [kx|] eqn:Kx; [|apply nth_error_None in Kx; lia]. symmetry in Exy.
      destruct (Kv _ _ Kx) as [v [V1 V2]]. destruct (Kv _ _ Exy) as [v' [V1' V2']].
      assert (v = v') by (apply (proj1 (NoDup_nth_error ks) (go_keys _ _ _ _ G)); [exact (Lv _ _ V1) | congruence]). subst v'.
      apply (proj1 (NoDup_nth_error ids) (rs_nodup _ _ _ _ R)); [rewrite map_length in Lx; exact Lx | congruence].
    + intros k I. apply In_nth_error in I. destruct I as [n I]. destruct (Kv _ _ I) as [v [_ V]]. apply (go_nodes _ _ _ _ G). exact (nth_error_In _ _ V).
    + exact (go_void _ _ _ _ G).
    + apply (shown_nodes demangle p void _ _ _ _ (gnodes g2) H4 F). intros k key nd K1 K2. destruct (Kv _ _ K1) as [v [V1 V2]]. apply (K0 v key nd V2). rewrite <- (rs_nodes _ _ _ _ R k v V1). exact K2.
    + intros X. exfalso. assert (Y : resolve_start demangle (b_indices b) s = None) by (apply (resolve_none demangle o p b W Fo E ks void G Hi); intros k K; exact (X s k eq_refl K)). congruence.
    + intros s' key X Cs. injection X as <-. pose proof (resolve_key demangle o p b W Fo E ks void G Hi s i0 key Hr Cs) as Kk. split.
      * exact (Vk 0 i0 key (rs_start _ _ _ _ R) Kk).
      * intros v L. rewrite map_length in L. destruct (nth_error ids v) as [w|] eqn:Ew; [|apply nth_error_None in Ew; lia].
        apply (restricted_reach (b_g b) i0 g2 ids w Wf R i0 (proj1 (rs_reach _ _ _ _ R w) (nth_error_In _ _ Ew)) (star_refl _ _)); [exact (rs_start _ _ _ _ R) | exact Ew].
    + intros u v I. rewrite Li. exact (rs_wf _ _ _ _ R u v I).
    + intros k l I M. apply In_nth_error in I. destruct I as [a A]. destruct (Kv _ _ A) as [x [X1 X2]]. destruct (go_must _ _ _ _ G k l M) as [u [v [U [V Uv]]]].
      assert (u = x) by (apply (proj1 (NoDup_nth_error ks) (go_keys _ _ _ _ G)); [apply nth_error_Some; rewrite U; discriminate | congruence]). subst u.
      pose proof (proj1 (rs_reach _ _ _ _ R x) (nth_error_In _ _ X1)) as Rx. pose proof (proj2 (rs_reach _ _ _ _ R v) (star_snoc _ _ _ _ Rx Uv)) as Iv. apply In_nth_error in Iv. destruct Iv as [c C].
      exists a, c. split; [exact A|]. split; [exact (Vk c v l C V)|]. apply (restricted_edge _ _ _ _ _ _ _ _ R X1 C). exact Uv.
    + intros u v k l I K L. destruct (Kv _ _ K) as [x [X1 X2]]. destruct (Kv _ _ L) as [y [Y1 Y2]]. apply (go_may _ _ _ _ G x y k l); [|exact X2 | exact Y2]. apply (restricted_edge _ _ _ _ _ _ _ _ R X1 Y1). exact I.
    + intros t Tt u v k l K L. rewrite (Tr t Tt). destruct (Kv _ _ K) as [x [X1 X2]]. destruct (Kv _ _ L) as [y [Y1 Y2]]. rewrite <- count_times, (rs_edges _ _ _ _ R u v x y X1 Y1), count_times. exact (Tm x y k l X2 Y2).
    + intros t Tt k l I A. rewrite (Tr t Tt) in A. pose proof (Cl k l A) as Il. apply In_nth_error in I, Il. destruct I as [a Ka]. destruct Il as [y Ky]. destruct (Kv _ _ Ka) as [x [X1 X2]].
      assert (Uv : In (x, y) (gedges (b_g b))) by (apply (proj1 (L_exact.arrow_graph p tr W T ks void _ G Ct)); now exists k, l).
      pose proof (proj1 (rs_reach _ _ _ _ R x) (nth_error_In _ _ X1)) as Rx. pose proof (proj2 (rs_reach _ _ _ _ R y) (star_snoc _ _ _ _ Rx Uv)) as Iv. apply In_nth_error in Iv. destruct Iv as [c Cc].
      exact (nth_error_In _ _ (Vk c y l Cc Ky)).
Qed.
Theorem report_graph start g cs : finish demangle start b = Ret (g, cs) -> exists ks void, pictures demangle p start ks void (gnodes g) (gedges g).
Proof. intros H. destruct (report_placed start g cs H) as [ks [void [P _]]]. exists ks, void. exact P. Qed.
(** The groups. *)
Lemma report_groups start g cs : finish demangle start b = Ret (g, cs) -> b_info b = true ->
  NoDup (concat cs) /\ (forall c, In c cs -> c <> []) /\ (forall v, recursive g v <-> In v (concat cs)) /\ (forall c x y, In c cs -> In x c -> (In y c <-> mutual g x y)).
Proof.
  intros H Bi. unfold finish in H. destruct (bind_inv _ _ _ H) as [g2 [H1 H']]. clear H. destruct (bind_inv _ _ _ H') as [[g3 cs3] [H2 H]]. clear H'. destruct (bind_inv _ _ _ H) as [g4 [H3 H4]]. clear H. injection H4 as <- <-.
  destruct (build_spec _ _ _ _ W Fo E) as [ks [void [G [_ [Hc [Hi Hb]]]]]]. pose proof (graph_wf p ks void _ G) as Wf.
  assert (W2 : wf_graph g2) by (destruct (filtered demangle o p b W E start ks void g2 G Hi H1) as [[-> Hs] | [s [i0 [ids [-> [Hr R]]]]]]; [exact Wf | exact (rs_wf _ _ _ _ R)]).
  unfold shorten in H3. destruct (bind_inv _ _ _ H3) as [nds [H4 H5]]. injection H5 as <-.
  pose proof (max_edges _ _ _ _ W2 H2) as Ed. rewrite Bi in H2. destruct (clusters_exact g2 g3 cs3 W2 H2) as [C1 [C2 [C3 C4]]].
  split; [exact C1|]. split; [exact C2|]. unfold recursive, mutual, reach, calls in *. cbn [gedges]. rewrite Ed. split; [exact C3 | exact C4].
Qed.
End Report.

(** ** The figures depend on the usages and the edges only *)
Definition alike (g g' : graph node) : Prop := gedges g = gedges g' /\ map nlocal (gnodes g) = map nlocal (gnodes g').
Section Alike.
Variables g g' : graph node.
Hypothesis A : alike g g'.
Lemma alike_local v : local_of g v = local_of g' v.
Proof. destruct A as [_ H]. unfold local_of. rewrite <- !nth_error_map. rewrite H. reflexivity. Qed.
Lemma alike_known v n : known g v n <-> known g' v n.
Proof. unfold known. rewrite alike_local. reflexivity. Qed.
Lemma alike_usage v : known_usage g v = known_usage g' v.
Proof. unfold known_usage. rewrite alike_local. reflexivity. Qed.
Lemma alike_calls u v : calls g u v <-> calls g' u v.
Proof. destruct A as [H _]. unfold calls. rewrite H. reflexivity. Qed.
Lemma alike_count : node_count g = node_count g'.
Proof. destruct A as [_ H]. apply (f_equal (@length _)) in H. rewrite !map_length in H. exact H. Qed.
Lemma alike_reach u v : reach g u v <-> reach g' u v.
Proof. unfold reach. split; apply star_mono; intros a b; apply alike_calls. Qed.
Lemma alike_recursive v : recursive g v <-> recursive g' v.
Proof. unfold recursive. split; intros [w [H1 H2]]; exists w; (split; [apply alike_calls; exact H1 | apply alike_reach; exact H2]). Qed.
Lemma alike_mutual u v : mutual g u v <-> mutual g' u v.
Proof. unfold mutual. rewrite !alike_reach. reflexivity. Qed.
Lemma alike_total l : total (known_usage g) l = total (known_usage g') l.
Proof. induction l as [|x l IH]; [reflexivity|]. cbn. rewrite alike_usage, IH. reflexivity. Qed.
Lemma alike_sum : sum_known g = sum_known g'.
Proof. unfold sum_known. rewrite alike_total, alike_count. reflexivity. Qed.
End Alike.
Lemma alike_sym g g' : alike g g' -> alike g' g.
Proof. intros [H1 H2]. split; congruence. Qed.
Lemma alike_chain g g' v l : alike g g' -> chain g v l -> chain g' v l.
Proof. intros A C. induction C as [v L|v w l K C IH]; [constructor; rewrite <- (alike_count _ _ A); exact L | econstructor; [apply (alike_calls _ _ A); exact K | exact IH]]. Qed.
Lemma alike_group g g' l : alike g g' -> one_per_group g l -> one_per_group g' l.
Proof. intros A C. induction C as [|v q H C IH]; constructor; [|exact IH]. intros u I M. apply (H u I). apply (alike_mutual _ _ A). exact M. Qed.
Lemma alike_charge g g' v n : alike g g' -> charge g v n -> charge g' v n.
Proof.
  intros A [[P [Q [H1 [H2 [H3 H4]]]]] H5]. split.
  - exists P, Q. split; [exact (alike_chain _ _ _ _ A H1)|]. split; [exact H2|]. split; [exact (alike_group _ _ _ A H3) | rewrite <- (alike_total _ _ A); exact H4].
  - intros P' Q' C S O. rewrite <- (alike_total _ _ A). apply (H5 P' Q'); [exact (alike_chain _ _ _ _ (alike_sym _ _ A) C) | exact S | exact (alike_group _ _ _ (alike_sym _ _ A) O)].
Qed.
Lemma alike_below g g' v : alike g g' -> below_2_64 g v <-> below_2_64 g' v.
Proof.
  assert (H : forall a b, alike a b -> below_2_64 a v -> below_2_64 b v).
  { intros a b A B p q Hp Hs Ho. rewrite <- (alike_total _ _ A). apply (B p q); [exact (alike_chain _ _ _ _ (alike_sym _ _ A) Hp) | exact Hs | exact (alike_group _ _ _ (alike_sym _ _ A) Ho)]. }
  intros A. split; apply H; [exact A | exact (alike_sym _ _ A)].
Qed.

Section Report2.
Variables (demangle : str -> str) (o : orders) (p : prog) (b : built).
Hypothesis (W : wf_prog p) (Fo : fair o) (E : build demangle o p = Ret b).
Lemma report_figures start g cs : finish demangle start b = Ret (g, cs) ->
  figures (gnodes g) (gedges g) /\ (measured p -> forall nd, In nd (gnodes g) -> nmax nd <> None) /\ (~ measured p -> cs = [] /\ forall nd, In nd (gnodes g) -> nmax nd = None).
Proof.
  intros H. unfold finish in H. destruct (bind_inv _ _ _ H) as [g2 [H1 H']]. clear H. destruct (bind_inv _ _ _ H') as [[g3 cs3] [H2 H]]. clear H'. destruct (bind_inv _ _ _ H) as [g4 [H3 H4]]. clear H. injection H4 as <- <-.
  destruct (build_spec _ _ _ _ W Fo E) as [ks [void [G [Hb [Hc [Hi Ha]]]]]]. pose proof (graph_wf p ks void _ G) as Wf.
  assert (N0 : forall nd, In nd (gnodes (b_g b)) -> nmax nd = None).
  { intros nd I. apply In_nth_error in I. destruct I as [k K]. destruct (key_at _ _ _ _ G _ _ K) as [x [_ X2]]. inversion X2; reflexivity. }
  assert (W2 : wf_graph g2 /\ forall nd, In nd (gnodes g2) -> nmax nd = None).
  { destruct (filtered demangle o p b W E start ks void g2 G Hi H1) as [[-> Hs] | [s [i0 [ids [-> [Hr R]]]]]]; [split; [exact Wf | exact N0]|]. split; [exact (rs_wf _ _ _ _ R)|].
    intros nd I. apply In_nth_error in I. destruct I as [k K]. destruct (nth_error ids k) as [v|] eqn:Ev.
    - rewrite (rs_nodes _ _ _ _ R k v Ev) in K. apply N0. exact (nth_error_In _ _ K).
    - apply nth_error_None in Ev. pose proof (rs_count _ _ _ _ R) as Rc. unfold node_count in Rc. assert (nth_error (gnodes g2) k <> None) by congruence. apply nth_error_Some in H. lia. }
  destruct W2 as [W2 N2].
  unfold shorten in H3. destruct (bind_inv _ _ _ H3) as [nds [H4 H5]]. injection H5 as <-. pose proof (shorten_nodes_max _ _ _ _ H4) as Sh. cbn [gnodes gedges].
  pose proof (max_edges _ _ _ _ W2 H2) as Ed. pose proof (max_faces _ _ _ _ W2 H2) as F.
  assert (L3 : length (gnodes g3) = length (gnodes g2)) by (apply (f_equal (@length _)) in F; rewrite !map_length in F; exact F).
  assert (Mx : map nmax nds = map nmax (gnodes g3)) by (clear - Sh; induction Sh as [|a c l l' [S1 _] S IH]; [reflexivity | cbn; rewrite S1, IH; reflexivity]).
  assert (Lo : map nlocal nds = map nlocal (gnodes g3)) by (clear - Sh; induction Sh as [|a c l l' [_ [S1 _]] S IH]; [reflexivity | cbn; rewrite S1, IH; reflexivity]).
  assert (Lf : map nlocal (gnodes g3) = map nlocal (gnodes g2)).
  { apply (f_equal (map (fun x => snd (fst x)))) in F. rewrite !map_map in F. exact F. }
  assert (Al : alike g2 (mkG nds (gedges g3))) by (split; cbn [gedges gnodes]; congruence).
  assert (Rp : forall v m, reported (mkG nds (gedges g3)) v m -> reported g3 v m).
  { intros v m [nd [K1 K2]]. cbn [gnodes] in K1. assert (K : nth_error (map nmax nds) v = Some (Some m)) by (rewrite nth_error_map, K1; cbn; f_equal; exact K2). rewrite Mx, nth_error_map in K. destruct (nth_error (gnodes g3) v) as [n3|] eqn:E3; [|discriminate K]. injection K as K. exists n3. split; [exact E3 | exact K]. }
  assert (Pn : forall nd, In nd nds -> exists n3, In n3 (gnodes g3) /\ nmax n3 = nmax nd).
  { intros nd I. apply (in_map nmax) in I. rewrite Mx in I. apply in_map_iff in I. destruct I as [n3 [I1 I2]]. exists n3. split; [exact I2 | exact I1]. }
  assert (Md : b_info b = true <-> measured p) by exact Ha.
  destruct (b_info b) eqn:Bi.
  - split; [|split; [|intros X; exfalso; apply X; apply Md; reflexivity]].
    + unfold figures. cbv zeta. intros v m R. apply Rp in R. split.
      * rewrite (exact_iff _ _ _ _ _ W2 H2 R). split; intros [X1 X2]; split; intros u Ru.
        -- apply (alike_reach _ _ Al) in Ru. destruct (X1 u Ru) as [n X]. exists n. apply (alike_known _ _ Al). exact X.
        -- intros Rr. apply (alike_reach _ _ Al) in Ru. apply (alike_recursive _ _ Al) in Rr. apply (alike_known _ _ Al). exact (X2 u Ru Rr).
        -- apply (alike_reach _ _ Al) in Ru. destruct (X1 u Ru) as [n X]. exists n. apply (alike_known _ _ Al). exact X.
        -- intros Rr. apply (alike_reach _ _ Al) in Ru. apply (alike_recursive _ _ Al) in Rr. apply (alike_known _ _ Al). exact (X2 u Ru Rr).
      * intros Su n. apply (alike_below _ _ _ Al) in Su. destruct (number_is_charge _ _ _ _ _ W2 Su H2 R) as [C1 C2]. split.
        -- intros C. apply C2. exact (alike_charge _ _ _ _ (alike_sym _ _ Al) C).
        -- intros ->. exact (alike_charge _ _ _ _ Al C1).
    + intros _ nd I. destruct (Pn nd I) as [n3 [I3 K3]]. apply In_nth_error in I3. destruct I3 as [k I3]. destruct (all_reported g2 W2) as [g1 [cs1 [X1 [_ [_ X]]]]]. rewrite H2 in X1. injection X1 as <- <-.
      destruct (X k) as [m [n3' [Y1 Y2]]]; [unfold node_count; rewrite <- L3; apply nth_error_Some; congruence|]. congruence.
  - cbn in H2. injection H2 as <- <-.
    assert (Nn : forall nd, In nd nds -> nmax nd = None) by (intros nd I; destruct (Pn nd I) as [n3 [I3 K3]]; rewrite <- K3; exact (N2 n3 I3)).
    split; [|split; [intros X; exfalso; apply Md in X; discriminate X | intros _; split; [reflexivity | exact Nn]]].
    unfold figures. cbv zeta. intros v m [nd [K1 K2]]. exfalso. rewrite (Nn nd (nth_error_In _ _ K1)) in K2. discriminate K2.
Qed.
End Report2.

(** ** Chains of calls in the report *)
Lemma finish_alike demangle start b g2 g cs : wf_graph g2 -> filter_start demangle (b_indices b) start (b_g b) = Ret g2 -> finish demangle start b = Ret (g, cs) -> alike g2 g.
Proof.
  intros W2 Hf H. unfold finish in H. rewrite Hf in H. cbn [bind] in H. apply bind_Ret in H. destruct H as [[g3 cs3] [H2 H]]. apply bind_Ret in H. destruct H as [g4 [H3 H4]]. injection H4 as <- <-.
  unfold shorten in H3. apply bind_Ret in H3. destruct H3 as [nds [H4 H5]]. injection H5 as <-. pose proof (shorten_nodes_max _ _ _ _ H4) as Sh.
  pose proof (max_edges _ _ _ _ W2 H2) as Ed. pose proof (max_faces _ _ _ _ W2 H2) as F.
  assert (Lo : map nlocal nds = map nlocal (gnodes g3)) by (clear - Sh; induction Sh as [|a c l l' [_ [S1 _]] S IH]; [reflexivity | cbn; rewrite S1, IH; reflexivity]).
  assert (Lf : map nlocal (gnodes g3) = map nlocal (gnodes g2)).
  { apply (f_equal (map (fun x => snd (fst x)))) in F. rewrite !map_map in F. exact F. }
  split; cbn [gedges gnodes]; congruence.
Qed.
(** If all is certain below [v], then no chain from [v] uses more than its charge. *)
Lemma certain_bound g v n : (forall u, reach g v u -> recursive g u -> known g u 0%N) -> charge g v n -> forall P, chain g v P -> (total (known_usage g) P <= n)%N.
Proof.
  intros Z [_ Up] P C. rewrite <- total_nz. apply (Up P); [exact C | apply sublist_filter|]. apply (chain_nz_opg g v P C). intros x Hx Hr.
  specialize (Z x (L_charge.chain_reach g v P C x Hx) Hr). unfold known_usage. now rewrite Z.
Qed.
Lemma restricted_down g i0 g2 ids k v : restricted g i0 g2 ids -> nth_error ids k = Some v ->
  (forall P, chain g v P -> exists Q, chain g2 k Q /\ total (known_usage g2) Q = total (known_usage g) P) /\
  (forall u, reach g v u -> exists l, reach g2 k l /\ local_of g2 l = local_of g u).
Proof.
  intros R K. assert (L : k < node_count g2) by (rewrite <- (rs_count _ _ _ _ R); apply nth_error_Some; rewrite K; discriminate).
  assert (F : nth k ids 0 = v) by (apply nth_error_nth; exact K). split.
  - intros P C. destruct (rs_chain_bwd g g2 i0 ids R v P C k L F) as [Q [C2 M]]. exists Q. split; [exact C2|]. rewrite <- M.
    symmetry. apply (rs_total g g2 i0 ids R). intros x Hx. exact (L_charge.chain_lt g2 (rs_wf _ _ _ _ R) k Q C2 x Hx).
  - intros u Ru. destruct (rs_reach_bwd g g2 i0 ids R v u Ru k L F) as [l [L1 [L2 L3]]]. exists l. split; [exact L3|]. rewrite (rs_local g g2 i0 ids R l L1), L2. reflexivity.
Qed.
Section Report3.
Variables (demangle : str -> str) (o : orders) (p : prog) (b : built).
Hypothesis (W : wf_prog p) (Fo : fair o) (E : build demangle o p = Ret b).
(** The report, as far as the maxima are concerned. *)
Lemma report_charged start g cs : finish demangle start b = Ret (g, cs) ->
  exists ks, length ks = node_count g /\
    (forall k i n m nd, nth_error ks k = Some (KReal i) -> nth_error (gnodes g) k = Some nd -> nmax nd = Some (MExact n) -> charge g k m ->
       forall l, runs_noticed p i l -> exists d, depth p l d /\ (d <= m)%N) /\
    (no_start demangle p start -> forall i, i < length (pg_defined p) -> nth_error ks i = Some (KReal i)) /\
    (forall s k, start = Some s -> denotes demangle p s k -> nth_error ks 0 = Some k) /\
    (forall k key nd, nth_error ks k = Some key -> nth_error (gnodes g) k = Some nd -> shows demangle p key nd).
Proof.
  intros H. pose proof (proj1 (report_figures demangle o p b W Fo E start g cs H)) as Fg. pose proof H as H0. unfold finish in H. destruct (bind_inv _ _ _ H) as [g2 [H1 H']]. clear H.
  destruct (build_spec _ _ _ _ W Fo E) as [ks [void [G [_ [Hc [Hi Hb]]]]]]. pose proof (graph_wf p ks void _ G) as Wf. pose proof (Forall2_len _ _ _ (go_show _ _ _ _ G)) as Lk.
  assert (W2 : wf_graph g2) by (destruct (filtered demangle o p b W E start ks void g2 G Hi H1) as [[-> Hs] | [s [i0 [ids [-> [Hr R]]]]]]; [exact Wf | exact (rs_wf _ _ _ _ R)]).
  pose proof (finish_alike _ _ _ _ _ _ W2 H1 H0) as Al. clear H0. destruct (bind_inv _ _ _ H') as [[g3 cs3] [H2 H]]. clear H'. destruct (bind_inv _ _ _ H) as [g4 [H3 H4]]. clear H. injection H4 as <- <-.
  unfold shorten in H3. destruct (bind_inv _ _ _ H3) as [nds [H4 H5]]. injection H5 as <-. cbn [gnodes gedges] in *.
  pose proof (alike_count _ _ Al) as Nc. pose proof (max_faces _ _ _ _ W2 H2) as F0.
  (* the bound, for a node of the report that stands for the node [v] of the graph that was built *)
  assert (Bd : forall k v, (forall P, chain (b_g b) v P -> exists Q, chain g2 k Q /\ total (known_usage g2) Q = total (known_usage (b_g b)) P) ->
     (forall u, reach (b_g b) v u -> exists l, reach g2 k l /\ local_of g2 l = local_of (b_g b) u) ->
     forall n m nd, nth_error nds k = Some nd -> nmax nd = Some (MExact n) -> charge (mkG nds (gedges g3)) k m -> forall l, runs_noticed p v l -> exists d, depth p l d /\ (d <= m)%N).
  { intros k v Dc Dr n m nd K1 K2 Cg l Rn. destruct (Fg k (MExact n)) as [Ex _]; [exists nd; split; [exact K1 | exact K2]|]. destruct (proj1 Ex Logic.I) as [Kn Rz]. clear Ex.
    assert (A : all_known (b_g b) v).
    { intros u Ru. destruct (Dr u Ru) as [x [X1 X2]]. destruct (Kn x) as [q Km]; [apply (alike_reach _ _ Al); exact X1|]. exists q. unfold known. rewrite <- X2. apply (alike_known _ _ Al). exact Km. }
    destruct (runs_chain p ks void _ G v l Rn A) as [P [d [P1 [P2 P3]]]]. exists d. split; [exact P2|]. rewrite P3. destruct (Dc P P1) as [Q [Q1 Q2]]. rewrite <- Q2, (alike_total _ _ Al).
    apply (certain_bound _ k m Rz Cg). exact (alike_chain _ _ _ _ Al Q1). }
  assert (K0 : forall k key nd, nth_error ks k = Some key -> nth_error (gnodes (b_g b)) k = Some nd -> node_of p void key nd).
  { intros k key nd K1 K2. destruct (key_at _ _ _ _ G _ _ K2) as [x [X1 X2]]. congruence. }
  destruct (filtered demangle o p b W E start ks void g2 G Hi H1) as [[-> Hs] | [s [i0 [ids [-> [Hr R]]]]]].
  - exists ks. split; [rewrite <- Nc; exact Lk|]. split; [|split; [|split]].
    + intros k i n m nd K1. pose proof (real_idx p ks void _ G _ _ K1). subst k. apply Bd; [intros P X; exists P; split; [exact X | reflexivity] | intros u X; exists u; split; [exact X | reflexivity]].
    + intros _ i L. exact (go_real _ _ _ _ G i L).
    + intros s k -> Cs. exfalso. exact (proj1 (resolve_none demangle o p b W Fo E ks void G Hi s) (Hs s eq_refl) k Cs).
    + exact (shown_nodes _ _ _ _ _ _ _ _ H4 F0 K0).
  - assert (Lv : forall k v, nth_error ids k = Some v -> v < length ks).
    { intros k v Ev. rewrite Lk. apply nth_error_Some. rewrite <- (rs_nodes _ _ _ _ R k v Ev). apply nth_error_Some. pose proof (rs_count _ _ _ _ R) as Rc. unfold node_count in Rc. rewrite <- Rc. apply nth_error_Some. rewrite Ev. discriminate. }
    assert (Kv : forall k key, nth_error (map (fun v => nth v ks (KReal 0)) ids) k = Some key -> exists v, nth_error ids k = Some v /\ nth_error ks v = Some key).
    { intros k key K. rewrite nth_error_map in K. destruct (nth_error ids k) as [v|] eqn:Ev; [|discriminate K]. cbn in K. injection K as K. exists v. split; [reflexivity|].
      rewrite (nth_error_nth' ks (KReal 0) (Lv k v Ev)). f_equal. exact K. }
    exists (map (fun v => nth v ks (KReal 0)) ids). split; [rewrite map_length, (rs_count _ _ _ _ R); exact Nc|]. split; [|split; [|split]].
    + intros k i n m nd K1. destruct (Kv _ _ K1) as [v [V1 V2]]. pose proof (real_idx p ks void _ G _ _ V2). subst v. destruct (restricted_down _ _ _ _ _ _ R V1) as [D1 D2]. exact (Bd k i D1 D2 n m nd).
    + intros X. exfalso. assert (Y : resolve_start demangle (b_indices b) s = None) by (apply (resolve_none demangle o p b W Fo E ks void G Hi); intros k K; exact (X s k eq_refl K)). congruence.
    + intros s' k X Cs. injection X as <-. rewrite nth_error_map, (rs_start _ _ _ _ R). cbn. f_equal. apply nth_error_nth. exact (resolve_key demangle o p b W Fo E ks void G Hi s i0 k Hr Cs).
    + apply (shown_nodes demangle p void _ _ _ _ (gnodes g2) H4 F0). intros k key nd K1 K2. destruct (Kv _ _ K1) as [v [V1 V2]]. apply (K0 v key nd V2). rewrite <- (rs_nodes _ _ _ _ R k v V1). exact K2.
Qed.
Theorem report_bounds start g cs : finish demangle start b = Ret (g, cs) ->
  exists ks, length ks = node_count g /\
    (forall k i n nd, nth_error ks k = Some (KReal i) -> nth_error (gnodes g) k = Some nd -> nmax nd = Some (MExact n) -> below_2_64 g k ->
       forall l, runs_noticed p i l -> exists d, depth p l d /\ (d <= n)%N) /\
    (no_start demangle p start -> forall i, i < length (pg_defined p) -> nth_error ks i = Some (KReal i)) /\
    (forall s k, start = Some s -> denotes demangle p s k -> nth_error ks 0 = Some k) /\
    (forall k key nd, nth_error ks k = Some key -> nth_error (gnodes g) k = Some nd -> shows demangle p key nd).
Proof.
  intros H. destruct (report_charged start g cs H) as [ks [K1 [K2 K3]]]. exists ks. split; [exact K1|]. split; [|exact K3].
  intros k i n nd A1 A2 A3 Bl. apply (K2 k i n n nd A1 A2 A3). destruct g as [nds es].
  apply (proj2 (proj1 (report_figures demangle o p b W Fo E start _ cs H) k (MExact n) (ex_intro _ nd (conj A2 A3)))); [exact Bl | reflexivity].
Qed.
(** The functions that run need to be covered, and no others. *)
Theorem covered_bounds start g cs : finish demangle start b = Ret (g, cs) ->
  exists ks, length ks = node_count g /\
    (forall k i n nd, nth_error ks k = Some (KReal i) -> nth_error (gnodes g) k = Some nd -> nmax nd = Some (MExact n) -> below_2_64 g k ->
       forall l, runs p i l -> (forall x, In x l -> covered_fn p x) -> exists d, depth p l d /\ (d <= n)%N) /\
    (no_start demangle p start -> forall i, i < length (pg_defined p) -> nth_error ks i = Some (KReal i)) /\
    (forall s k, start = Some s -> denotes demangle p s k -> nth_error ks 0 = Some k) /\
    (forall k key nd, nth_error ks k = Some key -> nth_error (gnodes g) k = Some nd -> shows demangle p key nd).
Proof.
  intros H. destruct (report_bounds start g cs H) as [ks [K1 [K2 K3]]]. exists ks. split; [exact K1|]. split; [|exact K3].
  intros k i n nd A1 A2 A3 A4 l R C. exact (K2 k i n nd A1 A2 A3 A4 l (runs_covered p i l R C)).
Qed.
(** Small sizes are a reason for the chains of the report to fit. *)
Lemma report_fits start g cs : fits p -> finish demangle start b = Ret (g, cs) -> forall v, below_2_64 g v.
Proof.
  intros Ft H v. pose proof H as H0. unfold finish in H. destruct (bind_inv _ _ _ H) as [g2 [H1 H']]. clear H H'.
  destruct (build_spec _ _ _ _ W Fo E) as [ks [void [G [_ [Hc [Hi Hb]]]]]]. pose proof (graph_wf p ks void _ G) as Wf. pose proof (fits_sum p ks void _ G Ft) as Sm.
  assert (W2 : wf_graph g2 /\ (sum_known g2 < two64)%N).
  { destruct (filtered demangle o p b W E start ks void g2 G Hi H1) as [[-> Hs] | [s [i0 [ids [-> [Hr R]]]]]]; [exact (conj Wf Sm)|]. split; [exact (rs_wf _ _ _ _ R)|]. pose proof (rs_sum (b_g b) g2 i0 ids R). lia. }
  destruct W2 as [W2 S2]. apply (alike_below _ _ _ (finish_alike _ _ _ _ _ _ W2 H1 H0)). exact (L_analysis.sum_below g2 v W2 S2).
Qed.
End Report3.
