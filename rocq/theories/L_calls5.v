(** Lemmas: what the order of the definitions changes. *)
From Coq Require Import Permutation.
From Verif Require Import M_base M_stack M_graph M_analysis M_filter M_names M_thumb M_ty M_parse M_build S_graph S_names S_build S_calls L_base L_names L_build1 L_build2 L_build3 L_build4 L_build5 L_build6 L_build7 L_build9 L_calls4.

Section Same.
Variables (p q : prog).
Hypothesis (S : same_prog p q).
Lemma s_made tr n : made p tr n <-> made q tr n.
Proof. unfold made. setoid_rewrite (s_live p q S). setoid_rewrite (s_chosen p q S). reflexivity. Qed.
Lemma s_leads tr st l : leads p tr st l -> leads q tr st l.
Proof.
  intros H. destruct H as [f j A B C|f A B C|f n j A B C|f n A B C D].
  - apply le_direct; [exact A | now apply (s_live p q S)|]. intros Ef. destruct (C Ef) as [K|K]; [left; now apply (s_chosen p q S) | right; now apply s_made].
  - apply le_extern; [exact A | |]; [intros j K; apply (B j); now apply (s_live p q S) | intros Ef; apply s_made; exact (C Ef)].
  - apply (le_mem _ _ f n); [rewrite (sp_target _ _ S); exact A | exact B | now apply (s_chosen p q S)].
  - apply (le_mem_extern _ _ f n); [rewrite (sp_target _ _ S); exact A | exact B | | now apply s_made]. intros j K. apply (C j). now apply (s_chosen p q S).
Qed.
Lemma s_calls_tr tr i l : calls p tr i l -> calls q tr i l.
Proof. intros [[a [st [b [E K]]]]|[j [E K]]]; [left; exists a, st, b; split; [exact E | now apply s_leads] | right; exists j; split; [exact E | now apply (s_jumps p q S)]]. Qed.
Lemma s_once tr void k l : once p tr void k l -> once q tr void k l.
Proof.
  intros H. destruct H as [i l H|i H|i s H|s j H1 H2|s H1 H2].
  - apply on_call. now apply s_calls_tr.
  - apply on_blind. now apply (s_blind p q S).
  - apply on_pointer. now apply (s_calls p q S).
  - apply on_pointee; [now apply (s_called p q S) | now apply (s_pointee p q S)].
  - apply on_outside; [now apply (s_called p q S) | now apply (s_untyped p q S)].
Qed.
Lemma s_target f l : cast_target p f l -> cast_target q f l.
Proof. intros [[j [A B]]|[A B]]; [left; exists j; split; [now apply (s_chosen p q S) | exact B] | right; split; [intros j K; apply (A j); now apply (s_chosen p q S) | exact B]]. Qed.
Lemma s_trace ds tr : trace p ds tr -> trace q ds tr.
Proof. intros H. induction H; [constructor | apply tr_removed; [intros j K; apply (H j); now apply (s_live p q S) | assumption] | apply tr_kept; [now apply (s_live p q S) | assumption]]. Qed.
End Same.
Lemma s_counted p q tr ks void g : same_prog p q -> counted_edges p tr ks void g -> counted_edges q tr ks void g.
Proof.
  intros S [C [O [A [B [D F]]]]]. exists C, O. split; [exact A|]. split; [exact B|]. split.
  - intros u v. rewrite D. split; intros [k [l [K1 [K2 K3]]]]; exists k, l; (split; [exact K1|]); (split; [exact K2|]); [exact (s_once p q S _ _ _ _ K3) | exact (s_once q p (same_sym _ _ S) _ _ _ _ K3)].
  - clear -F S. induction F as [|a b l0 C0 [F1 [l [F2 F3]]] F IH]; constructor; [|exact IH]. split; [exact F1|]. exists l. split; [exact F2 | exact (s_target p q S _ _ F3)].
Qed.
Lemma trace_perm p : forall ds ds', Permutation ds ds' -> forall t, trace p ds t -> exists t', trace p ds' t' /\ Permutation t t'.
Proof.
  intros ds ds' P. induction P as [|x ds ds' P IH|x y ds|ds d2 d3 P1 IH1 P2 IH2]; intros t T.
  - exists t. now split.
  - inversion T as [|n d ? ? N T'|n d j ? l L T']; subst; destruct (IH _ T') as [t' [A B]].
    + exists t'. split; [now apply tr_removed | exact B].
    + exists (map (pair j) (d_stmts d) ++ t'). split; [now apply tr_kept | now apply Permutation_app_head].
  - inversion T as [|n d ? ? N T'|n d j ? l L T']; subst; inversion T' as [|n' d' ? ? N' T2|n' d' j' ? l' L' T2]; subst.
    + exists t. split; [apply tr_removed; [exact N' | now apply tr_removed] | reflexivity].
    + exists (map (pair j') (d_stmts d') ++ l'). split; [apply tr_kept; [exact L' | now apply tr_removed] | reflexivity].
    + exists (map (pair j) (d_stmts d) ++ l). split; [apply tr_removed; [exact N' | now apply tr_kept] | reflexivity].
    + exists (map (pair j') (d_stmts d') ++ map (pair j) (d_stmts d) ++ l'). split; [apply tr_kept; [exact L' | now apply tr_kept]|].
      rewrite !app_assoc. apply Permutation_app_tail. apply Permutation_app_comm.
  - destruct (IH1 _ T) as [t1 [A1 B1]]. destruct (IH2 _ A1) as [t2 [A2 B2]]. exists t2. split; [exact A2 | now rewrite B1].
Qed.
Lemma wf_same p q : wf_prog p -> same_prog p q -> wf_prog q.
Proof.
  intros W S. constructor.
  - apply (Permutation_NoDup (Permutation_map fst (Permutation_sym (sp_defines _ _ S)))). exact (wf_defines _ W).
  - intros n d I. apply (wf_def_names _ W). exact (Permutation_in _ (sp_defines _ _ S) I).
  - apply (Permutation_NoDup (Permutation_map fst (Permutation_sym (sp_declares _ _ S)))). exact (wf_declares _ W).
  - apply (Permutation_NoDup (Permutation_map fst (Permutation_sym (sp_sizes _ _ S)))). exact (wf_sizes _ W).
  - rewrite (sp_defined _ _ S). exact (wf_addrs _ W).
  - rewrite (sp_defined _ _ S). exact (wf_names _ W).
Qed.
Lemma casts_same p q t1 t2 : wf_prog p -> same_prog p q -> trace p (pg_defines p) t1 -> trace q (pg_defines q) t2 -> Permutation (casts t1) (casts t2).
Proof.
  intros W S T1 T2. destruct (trace_perm p _ _ (Permutation_sym (sp_defines _ _ S)) _ T1) as [t [A B]].
  rewrite (trace_same p W _ _ _ (s_trace q p (same_sym _ _ S) _ _ T2) A). now apply Permutation_flat_map.
Qed.
Lemma Forall2_map_r {A B C} (R : A -> B -> Prop) (R' : A -> C -> Prop) (h : B -> C) a : forall b c, (forall x y z, In x a -> R x y -> R' x z -> z = h y) -> Forall2 R a b -> Forall2 R' a c -> c = map h b.
Proof.
  induction a as [|x a IH]; intros b c F X Y; inversion X as [|? y ? b' X1 X2]; subst; inversion Y as [|? z ? c' Y1 Y2]; subst; [reflexivity|]. cbn [map]. f_equal; [apply (F x y z); [now left | exact X1 | exact Y1]|].
  apply IH; [|exact X2 | exact Y2]. intros x' y' z' I. apply F. now right.
Qed.
Lemma NoDup_map_in {A B} (h : A -> B) l : (forall x y, In x l -> In y l -> h x = h y -> x = y) -> NoDup l -> NoDup (map h l).
Proof.
  intros H N. induction N as [|x l I N IH]; cbn [map]; constructor.
  - intros K. apply in_map_iff in K. destruct K as [y [E K]]. apply I. rewrite (H x y); [exact K | now left | now right | now symmetry].
  - apply IH. intros a b Ia Ib. apply H; now right.
Qed.

(** The nodes correspond to each other, also by the names under which they are found. *)
Theorem same_calls_matched d1 d2 o1 o2 p q b1 b2 t1 t2 : wf_prog p -> same_prog p q -> fair o1 -> fair o2 -> one_void p ->
  build d1 o1 p = Ret b1 -> build d2 o2 q = Ret b2 -> trace p (pg_defines p) t1 -> trace q (pg_defines q) t2 ->
  (forall i l, calls p t1 i l <-> calls q t2 i l) -> exists f f', matched (length (pg_defined p)) (b_g b1) (b_g b2) f f' /\
    forall n u, sget (b_indices b1) n = Some u <-> sget (b_indices b2) n = Some (f u).
Proof.
  intros W S F1 F2 Ov E1 E2 T1 T2 Same. pose proof (wf_same _ _ W S) as Wq.
  destruct (counted_here _ _ _ _ _ W F1 E1 T1) as [k1 [v1 [G1 [Ct1 Ix1]]]]. destruct (counted_here _ _ _ _ _ Wq F2 E2 T2) as [k2 [v2 [G2' [Ct2 Ix2]]]].
  pose proof (same_graph_of _ _ _ _ _ S G2') as G2. apply (s_counted q p _ _ _ _ (same_sym _ _ S)) in Ct2. pose proof (void_same p _ _ _ _ _ _ Ov G1 G2) as <-. clear G2'.
  pose proof (casts_same _ _ _ _ W S T1 T2) as Cs.
  assert (Same' : forall i l, calls p t1 i l <-> calls p t2 i l).
  { intros i l. rewrite Same. split; [apply (s_calls_tr q p (same_sym _ _ S)) | apply (s_calls_tr p q S)]. }
  assert (On : forall k l, once p t1 v1 k l <-> once p t2 v1 k l).
  { intros k l. split; intros H; destruct H as [i l H|i H|i s H|s j H H'|s H H']; try (apply on_call; now apply Same'); [now apply on_blind | now apply on_pointer | now apply on_pointee | now apply on_outside
      | now apply on_blind | now apply on_pointer | now apply on_pointee | now apply on_outside]. }
  set (g1 := b_g b1) in *. set (g2 := b_g b2) in *. clearbody g1 g2. clear E1 E2 Same Same'.
  assert (P : Permutation k1 k2).
  { apply NoDup_Permutation; [exact (go_keys _ _ _ _ G1) | exact (go_keys _ _ _ _ G2)|]. intros k. rewrite (go_nodes _ _ _ _ G1), (go_nodes _ _ _ _ G2). reflexivity. }
  destruct (proj1 (Permutation_nth_error _ _) P) as [Ln [f' [_ Hf']]]. destruct (proj1 (Permutation_nth_error _ _) (Permutation_sym P)) as [_ [f [_ Hf]]].
  exists f, f'. pose proof (Forall2_len _ _ _ (go_show _ _ _ _ G1)) as L1. pose proof (Forall2_len _ _ _ (go_show _ _ _ _ G2)) as L2.
  assert (Nd : forall ka ga kb gb v w, graph_of p ka v1 ga -> graph_of p kb v1 gb -> nth_error ka v = nth_error kb w -> nth_error (gnodes ga) v = nth_error (gnodes gb) w).
  { intros ka ga kb gb v w Ga Gb Ee. destruct (nth_error ka v) as [k|] eqn:Ek.
    - destruct (show_at _ _ _ _ Ga _ _ Ek) as [x [X1 X2]]. symmetry in Ee. destruct (show_at _ _ _ _ Gb _ _ Ee) as [y [Y1 Y2]].
      rewrite X1, Y1. f_equal. exact (node_of_fun _ _ _ _ _ W X2 Y2).
    - symmetry in Ee. apply nth_error_None in Ek, Ee. rewrite (Forall2_len _ _ _ (go_show _ _ _ _ Ga)) in Ek. rewrite (Forall2_len _ _ _ (go_show _ _ _ _ Gb)) in Ee.
      apply nth_error_None in Ek, Ee. congruence. }
  assert (Inv : forall v, v < node_count g1 -> f' (f v) = v).
  { intros v Hv. unfold node_count in Hv. destruct (nth_error k1 v) as [k|] eqn:Ev; [|apply nth_error_None in Ev; lia].
    pose proof (Hf v) as X. rewrite Ev in X. pose proof (Hf' (f v)) as Y. rewrite <- X in Y. symmetry in Y. exact (key_inj _ _ _ _ G1 _ _ _ Y Ev). }
  split; [split; [|split; [|split; [exact Inv | split]]]|].
  - intros v Hv. pose proof (Hf v) as X. rewrite (go_real _ _ _ _ G1 v Hv) in X. symmetry in X. exact (key_inj _ _ _ _ G2 _ _ _ X (go_real _ _ _ _ G2 v Hv)).
  - intros v. split; [apply (Nd k2 g2 k1 g1); [exact G2 | exact G1 | symmetry; apply Hf] | apply (Nd k1 g1 k2 g2); [exact G1 | exact G2 | symmetry; apply Hf']].
  - intros v Hv. unfold node_count in Hv. destruct (nth_error k2 v) as [k|] eqn:Ev; [|apply nth_error_None in Ev; lia].
    pose proof (Hf' v) as X. rewrite Ev in X. pose proof (Hf (f' v)) as Y. rewrite <- X in Y. symmetry in Y. exact (key_inj _ _ _ _ G2 _ _ _ Y Ev).
  - destruct Ct1 as [C1 [O1 [P1 [N1 [I1 A1]]]]]. destruct Ct2 as [C2 [O2 [P2 [N2 [I2 A2]]]]]. set (h := fun e : nat * nat => (f (fst e), f (snd e))) in *.
    rewrite P1, P2, map_app. assert (Lf : forall v k, nth_error k1 v = Some k -> v < node_count g1) by (intros v k K; unfold node_count; rewrite <- L1; apply nth_error_Some; rewrite K; discriminate).
    apply Permutation_app.
    + destruct (Permutation_Forall2 Cs A1) as [C1' [Q1 Q2]]. rewrite Q1. replace (map h C1') with C2; [reflexivity|].
      apply (Forall2_map_r _ _ h _ _ _) with (2 := Q2) (3 := A2). intros [j g] [x y] [x' y'] I [X1 [l [X2 X3]]] [Y1 [l' [Y2 Y3]]]. cbn [fst snd] in *. subst x x'. unfold h. cbn [fst snd].
      rewrite (target_fun _ _ _ _ W Y3 X3) in Y2. f_equal.
      * symmetry. assert (Lj : j < length (pg_defined p)).
        { apply (Permutation_in _ (Permutation_sym Cs)) in I. apply casts_In in I. apply (trace_stmts p t1 W T1) in I. destruct I as [m [d [_ [Lm _]]]]. exact (live_lt _ _ _ Lm). }
        pose proof (Hf j) as X. rewrite (go_real _ _ _ _ G1 j Lj) in X. symmetry in X. exact (key_inj _ _ _ _ G2 _ _ _ X (go_real _ _ _ _ G2 j Lj)).
      * pose proof (Hf y) as X. rewrite X2 in X. symmetry in X. exact (key_inj _ _ _ _ G2 _ _ _ Y2 X).
    + apply NoDup_Permutation; [|exact N2|].
      * apply NoDup_map_in; [|exact N1]. intros [x y] [x' y'] Ia Ib Ee. unfold h in Ee. cbn [fst snd] in Ee. injection Ee as Ex Ey. apply I1 in Ia, Ib. destruct Ia as [? [? [U1 [U2 _]]]]. destruct Ib as [? [? [V1 [V2 _]]]].
        rewrite <- (Inv x (Lf _ _ U1)), <- (Inv y (Lf _ _ U2)), Ex, Ey, (Inv x' (Lf _ _ V1)), (Inv y' (Lf _ _ V2)). reflexivity.
      * intros [x y]. rewrite in_map_iff, I2. split.
        -- intros [[u v] [Ee I]]. unfold h in Ee. cbn [fst snd] in Ee. injection Ee as <- <-. apply I1 in I. destruct I as [k [l [K1 [K2 K3]]]]. exists k, l. pose proof (Hf u) as X. pose proof (Hf v) as Y. rewrite K1 in X. rewrite K2 in Y. split; [now symmetry|]. split; [now symmetry | now apply On].
        -- intros [k [l [K1 [K2 K3]]]]. exists (f' x, f' y). pose proof (Hf' x) as X. pose proof (Hf' y) as Y. rewrite K1 in X. rewrite K2 in Y. symmetry in X, Y. split.
           ++ unfold h. cbn [fst snd]. f_equal; [exact (key_inj _ _ _ _ G2 _ _ _ (eq_trans (eq_sym (eq_trans (eq_sym X) (Hf (f' x)))) eq_refl) K1) | exact (key_inj _ _ _ _ G2 _ _ _ (eq_trans (eq_sym (eq_trans (eq_sym Y) (Hf (f' y)))) eq_refl) K2)].
           ++ apply I1. exists k, l. split; [exact X|]. split; [exact Y | now apply On].
  - intros n u. rewrite Ix1, Ix2, <- (Hf u). setoid_rewrite (s_chosen p q S). reflexivity.
Qed.
Theorem same_calls_same_graph d1 d2 o1 o2 p q b1 b2 t1 t2 : wf_prog p -> same_prog p q -> fair o1 -> fair o2 -> one_void p ->
  build d1 o1 p = Ret b1 -> build d2 o2 q = Ret b2 -> trace p (pg_defines p) t1 -> trace q (pg_defines q) t2 ->
  (forall i l, calls p t1 i l <-> calls q t2 i l) -> same_counted (length (pg_defined p)) (b_g b1) (b_g b2).
Proof. intros W S F1 F2 Ov E1 E2 T1 T2 C. destruct (same_calls_matched d1 d2 o1 o2 p q b1 b2 t1 t2 W S F1 F2 Ov E1 E2 T1 T2 C) as [f [f' [M _]]]. now exists f, f'. Qed.

Lemma made_created p tr done n : wf_prog p -> trace p (pg_defines p) tr -> incl done tr -> made p done n -> created p n.
Proof.
  intros W T I [[i [A B]]|[i [A B]]]; [left | right]; exists i; (split; [apply (trace_stmts p tr W T); apply I; exact A | exact B]).
Qed.
Lemma stable_calls p q t1 t2 : wf_prog p -> same_prog p q -> stable p -> trace p (pg_defines p) t1 -> trace q (pg_defines q) t2 -> forall i l, calls p t1 i l -> calls q t2 i l.
Proof.
  intros W S St T1 T2 i l [[a [st [b [E K]]]]|[j [E K]]]; [|right; exists j; split; [exact E | now apply (s_jumps p q S)]].
  left. assert (B : body p i st) by (apply (trace_stmts p t1 W T1); rewrite E; apply in_or_app; right; now left).
  apply (s_body p q S) in B. apply (trace_stmts q t2 (wf_same _ _ W S) T2) in B. destruct (in_split _ _ B) as [a' [b' E']]. exists a', st, b'. split; [exact E'|].
  assert (M : forall n, made p a n -> n <> memcmp /\ forall f, ~ lowers f n).
  { intros n M. apply St. apply (made_created p t1 a n W T1); [|exact M]. rewrite E. intros x Ix. apply in_or_app. now left. }
  apply (s_leads p q S). destruct K as [f j A B' C|f A B' C|f n j A B' C|f n A B' C D].
  - apply le_direct; [exact A | exact B'|]. intros Ef. left. destruct (C Ef) as [K|K]; [exact K|]. destruct (M _ K) as [K' _]. now destruct K'.
  - apply le_extern; [exact A | exact B'|]. intros Ef. destruct (M _ (C Ef)) as [K' _]. now destruct K'.
  - now apply (le_mem _ _ f n).
  - destruct (M _ D) as [_ K']. now destruct (K' f).
Qed.
Theorem stable_matched d1 d2 o1 o2 p q b1 b2 : wf_prog p -> same_prog p q -> fair o1 -> fair o2 -> stable p -> one_void p ->
  build d1 o1 p = Ret b1 -> build d2 o2 q = Ret b2 -> exists f f', matched (length (pg_defined p)) (b_g b1) (b_g b2) f f' /\
    forall n u, sget (b_indices b1) n = Some u <-> sget (b_indices b2) n = Some (f u).
Proof.
  intros W S F1 F2 St O E1 E2. pose proof (wf_same _ _ W S) as Wq.
  destruct (build_counted _ _ _ _ W F1 E1) as [t1 [? [? [T1 _]]]]. destruct (build_counted _ _ _ _ Wq F2 E2) as [t2 [? [? [T2 _]]]].
  apply (same_calls_matched d1 d2 o1 o2 p q b1 b2 t1 t2); try assumption. intros i l. split; [now apply (stable_calls p q t1 t2)|].
  assert (Sq : stable q).
  { intros n K. apply St. destruct K as [[j [A B]]|[j [A B]]]; [left | right]; exists j; (split; [now apply (s_body p q S)|]).
    - destruct B as [B1 [B2 B3]]. split; [exact B1|]. split; [exact B2|]. intros y K. apply (B3 y). now apply (s_live p q S).
    - intros y K. apply (B y). now apply (s_chosen p q S). }
  exact (stable_calls q p t2 t1 Wq (same_sym _ _ S) Sq T2 T1 i l).
Qed.
Theorem stable_same_graph d1 d2 o1 o2 p q b1 b2 : wf_prog p -> same_prog p q -> fair o1 -> fair o2 -> stable p -> one_void p ->
  build d1 o1 p = Ret b1 -> build d2 o2 q = Ret b2 -> same_counted (length (pg_defined p)) (b_g b1) (b_g b2).
Proof. intros W S F1 F2 St O E1 E2. destruct (stable_matched d1 d2 o1 o2 p q b1 b2 W S F1 F2 St O E1 E2) as [f [f' [M _]]]. now exists f, f'. Qed.

Lemma counted_same n g1 g2 : wf_graph g1 -> same_counted n g1 g2 -> same_graph n g1 g2.
Proof.
  intros Wg [f [f' [A [B [C [D P]]]]]]. exists f, f'. split; [exact A|]. split; [exact B|]. split; [exact C|]. split; [exact D|].
  intros u v Hu Hv. split; intros I.
  - apply (Permutation_in _ P). apply in_map_iff. exists (u, v). now split.
  - apply (Permutation_in _ (Permutation_sym P)) in I. apply in_map_iff in I. destruct I as [[x y] [E I]]. cbn [fst snd] in E. injection E as Ex Ey.
    destruct (Wg _ _ I) as [Hx Hy]. rewrite <- (C u Hu), <- (C v Hv), <- Ex, <- Ey, (C x Hx), (C y Hy). exact I.
Qed.
