(** From the program to the reported maxima. *)
From Coq Require Import Permutation.
From Verif Require Import M_base M_stack M_graph M_analysis M_filter M_names M_render M_thumb M_ty M_parse M_build M_run S_names S_graph S_filter S_sig S_build S_run L_base L_names L_ir2 L_trav L_kosaraju L_maxprops L_filter2 L_build1 L_build2 L_build3 L_build4 L_build5 L_build6 L_build7.

Section Chains.
Variables (p : prog) (ks : list key) (void : option str) (g : graph node).
Hypothesis (W : wf_prog p) (G : graph_of p ks void g).
Let w := known_usage g.

Lemma typed_chosen i s : typed p i s -> i < length (pg_defined p).
Proof. intros [[ns [n [d [[x [N _]] _]]]] | [ns [n [[x [N _]] _]]]]; apply nth_error_Some; rewrite N; discriminate. Qed.
Lemma known_usage_of i : i < length (pg_defined p) -> (exists n, known g i n) -> exists k, usage p i (LExact k) /\ w i = k.
Proof.
  intros Hi [k K]. destruct (show_at _ _ _ _ G _ _ (go_real _ _ _ _ G i Hi)) as [nd [X1 X2]]. inversion X2; subst. unfold known, local_of in K. rewrite X1 in K. cbn in K. injection K as ->.
  exists k. split; [assumption|]. unfold w, known_usage, local_of. rewrite X1. reflexivity.
Qed.
Definition all_known u := forall v, reach g u v -> exists n, known g v n.
Lemma all_known_calls u v : all_known u -> calls g u v -> all_known v.
Proof. intros H E x R. apply H. exact (star_step _ _ _ _ E R). Qed.
(** A call is one or two edges. *)
Lemma invokes_edges i j : all_known i -> i < length (pg_defined p) -> j < length (pg_defined p) -> noticed p i j ->
  calls g i j \/ exists d, calls g i d /\ calls g d j /\ w d = 0%N.
Proof.
  intros A Li Lj I.
  assert (Ptr : forall s' s, body p i (IndirectCall s') -> sig_matches s s' -> typed_by_def p j s \/ typed_by_decl p j s /\ (forall r, s <> fmt_sig (TAlias r)) -> exists d, calls g i d /\ calls g d j /\ w d = 0%N).
  { intros s' s B L T0. assert (T : typed p j s) by (destruct T0 as [T|[T _]]; [left | right]; exact T). assert (P : pointee p void s j).
    { clear T. destruct T0 as [T | [T Nf]].
      - destruct void as [v|]; [destruct (sig_eqb s (fmt_sig (TAlias v))) eqn:Es|].
        + apply sig_eqb_eq in Es. subst s. left. exists v. split; [reflexivity|]. split; [reflexivity|]. exists (TAlias v). exact T.
        + right. split; [intros v' X Y; injection X as <-; apply sig_eqb_eq in Y; congruence | left; exact T].
        + right. split; [intros v X; discriminate X | left; exact T].
      - right. split; [intros v _; exact (Nf v) | right; exact T]. }
    destruct (pointer_path p ks void g G i s' s j B L P (ex_intro _ j T)) as [d [nd [E1 [E2 [E3 E4]]]]]. exists d. split; [exact E1|]. split; [exact E2|].
    destruct (key_at _ _ _ _ G _ _ E3) as [k [_ K]]. unfold w, known_usage, local_of. rewrite E3. inversion K; subst; cbn in E4; try discriminate E4. reflexivity. }
  assert (Unk : forall s, calls_sig p i s -> untyped p -> False).
  { intros s S U. destruct (unknown_callee p ks void g G i s S U) as [d [x [D1 [D2 D3]]]]. destruct (A x) as [k K]; [exact (star_step _ _ _ _ D1 (star_step _ _ _ _ D2 (star_refl _ _)))|].
    unfold known, unknown in *. congruence. }
  destruct I as [f B N L Mc | f B L | f n T B M L | s' s B L T | s U S | J | B].
  - left. apply (must_real p ks void g G). eapply ed_direct; [exact B | exact N | exact L|]. intros X. left. exact (Mc X).
  - left. apply (must_real p ks void g G). eapply ed_cast; [exact B | exact L].
  - left. apply (must_real p ks void g G). eapply ed_mem; eassumption.
  - right. exact (Ptr s' s B L T).
  - exfalso. exact (Unk s S (ex_intro _ j U)).
  - left. apply (must_real p ks void g G). apply ed_code. exact J.
  - exfalso. destruct (must_from p ks void g G i (KCode i) (ed_blind _ _ _ _ B)) as [v [V1 V2]]. destruct (A v) as [k K]; [exact (star_step _ _ _ _ V2 (star_refl _ _))|].
    destruct (show_at _ _ _ _ G _ _ V1) as [nd [X1 X2]]. inversion X2; subst. unfold known, local_of in K. rewrite X1 in K. discriminate K.
Qed.
Lemma calls_sig_lt i s : calls_sig p i s -> i < length (pg_defined p).
Proof. intros [_ [s' [[n [d [_ [L _]]]] _]]]. exact (live_lt p _ _ L). Qed.
(** A function that is covered makes no other calls. *)
Lemma typed_bears j s : typed p j s -> bears p j s.
Proof.
  intros [[ns [n [d [Nm [Fi [I E]]]]]]|[ns [n [Nm [_ [Fi I]]]]]]; exists n; (split; [exists ns; split; [exact Nm | exact (proj1 (first_In _ _ _ Fi))]|]); [left; exists d; split; assumption | right; exact I].
Qed.
Lemma covered_noticed i j : covered_fn p i -> invokes p i j -> noticed p i j.
Proof.
  intros C I. destruct I as [f B N L | f B L | f n T B M L | s' s B T L | s' B U | J | B | Un | As].
  - eapply nt_direct; [exact B | exact N | exact L|]. intros ->. exact (cv_memcmp _ _ C B j L).
  - eapply nt_cast; [exact B | exact (cv_cast _ _ C _ _ B L)].
  - destruct (is_thumb (pg_target p)) eqn:Th.
    + destruct T as [T|T]; [discriminate T|]. destruct (cv_text _ _ C Th T f n j B M L).
    + destruct (cv_mem _ _ C Th _ _ _ B M L) as [X1 X2]. eapply nt_mem; eassumption.
  - destruct (cv_types _ _ C s' j s B T L) as [t [T' L']]. eapply nt_pointer; [exact B | exact L'|]. destruct T' as [T'|T']; [left; exact T' | right; split; [exact T'|]; intros r; exact (cv_fmt _ _ C _ _ _ r B T' L')].
  - destruct (cv_pointer _ _ C (ex_intro _ j U) s' B) as [s S]. eapply nt_untyped; eassumption.
  - apply nt_code. exact J.
  - apply nt_blind. exact B.
  - destruct (cv_read _ _ C Un).
  - destruct (cv_asm _ _ C As).
Qed.
Lemma runs_covered i l : runs p i l -> (forall x, In x l -> covered_fn p x) -> runs_noticed p i l.
Proof.
  intros H. induction H as [i Hi | i j l I R IH]; intros C; [constructor; exact Hi|].
  eapply rn_call; [apply covered_noticed; [apply C; now left | exact I] | apply IH; intros x X; apply C; now right].
Qed.
Lemma noticed_lt i l : runs_noticed p i l -> i < length (pg_defined p).
Proof.
  intros H. destruct H as [i H | i j l H _]; [exact H|].
  assert (Bd : forall st, body p i st -> i < length (pg_defined p)) by (intros st [n [d [_ [L _]]]]; exact (live_lt p _ _ L)).
  assert (An : forall addr size a, analysed p i addr size a -> i < length (pg_defined p)) by (intros addr size a [_ [x1 [x2 [x3 [x4 [_ [K _]]]]]]]; apply nth_error_Some; rewrite K; discriminate).
  destruct H; try (eapply Bd; eassumption).
  - eapply calls_sig_lt. eassumption.
  - destruct H as [x1 [x2 [x3 [x4 _]]]]. exact (An _ _ _ x4).
  - destruct H as [[x1 [x2 [x3 [x4 _]]]] _]. exact (An _ _ _ x4).
Qed.
Lemma runs_lt i l : runs p i l -> i < length (pg_defined p).
Proof.
  intros H. destruct H as [i H | i j l H _]; [exact H|].
  assert (Bd : forall st, body p i st -> i < length (pg_defined p)) by (intros st [n [d [_ [L _]]]]; exact (live_lt p _ _ L)).
  assert (An : forall addr size a, analysed p i addr size a -> i < length (pg_defined p)) by (intros addr size a [_ [x1 [x2 [x3 [x4 [_ [K _]]]]]]]; apply nth_error_Some; rewrite K; discriminate).
  destruct H; try (eapply Bd; eassumption).
  - destruct H as [x1 [x2 [x3 [x4 _]]]]. exact (An _ _ _ x4).
  - destruct H as [[x1 [x2 [x3 [x4 _]]]] _]. exact (An _ _ _ x4).
  - exact (proj1 H).
  - destruct H as [[c B] _]. exact (Bd _ B).
Qed.
Lemma runs_chain i l : runs_noticed p i l -> all_known i -> exists P d, chain g i P /\ depth p l d /\ (d = total w P)%N.
Proof.
  intros H. induction H as [i Hi | i j l I R IH]; intros A.
  - destruct (known_usage_of i Hi (A i (star_refl _ _))) as [k [U K]]. exists [i], (k + 0)%N. split; [|split].
    + constructor. unfold node_count. rewrite <- (Forall2_len _ _ _ (go_show _ _ _ _ G)). apply nth_error_Some. rewrite (go_real _ _ _ _ G i Hi). discriminate.
    + constructor; [exact U | constructor].
    + cbn [total]. rewrite K. reflexivity.
  - pose proof (noticed_lt _ _ (rn_call p i j l I R)) as Hi. pose proof (noticed_lt _ _ R) as Hj. destruct (known_usage_of i Hi (A i (star_refl _ _))) as [k [U K]].
    destruct (invokes_edges i j A Hi Hj I) as [E | [x [E1 [E2 Z]]]].
    + destruct (IH (all_known_calls _ _ A E)) as [P [d [H1 [H2 H3]]]]. exists (i :: P), (k + d)%N. split; [exact (chain_call _ _ _ _ E H1)|]. split; [constructor; assumption|].
      cbn [total]. rewrite K, H3. reflexivity.
    + destruct (IH (all_known_calls _ _ (all_known_calls _ _ A E1) E2)) as [P [d [H1 [H2 H3]]]]. exists (i :: x :: P), (k + d)%N. split; [exact (chain_call _ _ _ _ E1 (chain_call _ _ _ _ E2 H1))|]. split; [constructor; assumption|].
      cbn [total]. rewrite K, H3, Z. reflexivity.
Qed.

Lemma total_app u a b : total u (a ++ b) = (total u a + total u b)%N.
Proof. induction a as [|x a IH]; cbn [app total]; [reflexivity|]. rewrite IH. lia. Qed.
Lemma total_le u v l : (forall x, In x l -> (u x <= v x)%N) -> (total u l <= total v l)%N.
Proof. induction l as [|x l IH]; intros H; cbn [total]; [lia|]. pose proof (H x (or_introl eq_refl)). assert (total u l <= total v l)%N by (apply IH; intros y I; apply H; right; exact I). lia. Qed.
Lemma total_zero u l : (forall x, In x l -> u x = 0%N) -> total u l = 0%N.
Proof. induction l as [|x l IH]; intros H; cbn [total]; [reflexivity|]. rewrite (H x (or_introl eq_refl)), IH; [reflexivity|]. intros y I; apply H; right; exact I. Qed.
Lemma fits_sum : fits p -> (sum_known g < two64)%N.
Proof.
  intros [u [U F]]. unfold sum_known. pose proof (Forall2_len _ _ _ (go_show _ _ _ _ G)) as L.
  assert (Le : length (pg_defined p) <= node_count g).
  { unfold node_count. rewrite <- L. destruct (length (pg_defined p)) as [|m] eqn:E; [lia|]. pose proof (go_real _ _ _ _ G m ltac:(lia)) as K.
    assert (m < length ks) by (apply nth_error_Some; rewrite K; discriminate). lia. }
  replace (node_count g) with (length (pg_defined p) + (node_count g - length (pg_defined p))) by lia. rewrite seq_app, total_app, (total_zero _ (seq (0 + _) _)).
  - assert (X : (total (known_usage g) (seq 0 (length (pg_defined p))) <= total u (seq 0 (length (pg_defined p))))%N).
    { apply total_le. intros i I. apply in_seq in I. unfold known_usage. destruct (local_of g i) as [[k|]|] eqn:E; try lia.
      destruct (known_usage_of i ltac:(lia) (ex_intro _ k E)) as [k' [X Y]]. rewrite (U i k' X), <- Y. unfold w, known_usage. rewrite E. lia. }
    change two64 with (2 ^ 64)%N. lia.
  - intros i I. apply in_seq in I. unfold known_usage, local_of. destruct (nth_error (gnodes g) i) as [nd|] eqn:E; [|reflexivity]. cbn.
    destruct (key_at _ _ _ _ G _ _ E) as [k [K1 K2]]. inversion K2; subst; cbn; try reflexivity.
    pose proof (real_idx p ks void g G _ _ K1). pose proof (real_lt p ks void g G _ _ K1). lia.
Qed.
End Chains.

Lemma shorten_nodes_max demangle m nds : forall nds', shorten_nodes demangle m nds = Ret nds' -> Forall2 (fun a b => nmax a = nmax b /\ nlocal a = nlocal b /\ ndashed a = ndashed b) nds nds'.
Proof.
  induction nds as [|nd nds IH]; intros nds' E; cbn [shorten_nodes] in E; [injection E as <-; constructor|].
  destruct (bind_inv _ _ _ E) as [nd' [E1 E']]. destruct (bind_inv _ _ _ E') as [r [E2 E3]]. injection E3 as <-. constructor; [|exact (IH r E2)].
  unfold shorten_node in E1. destruct (bind_inv _ _ _ E1) as [d [_ E4]]. destruct d as [d|]; [|injection E4 as <-; repeat split]. destruct (sget m d) as [n|]; [|discriminate E4].
  destruct (Nat.eqb n 1); injection E4 as <-; repeat split.
Qed.
Lemma Forall2_nth_r {A B} (P : A -> B -> Prop) l1 l2 : Forall2 P l1 l2 -> forall k b, nth_error l2 k = Some b -> exists a, nth_error l1 k = Some a /\ P a b.
Proof. intros H. induction H; intros [|k] z E; cbn in E; try discriminate. - injection E as <-. exists x. split; [reflexivity | assumption]. - exact (IHForall2 k z E). Qed.

Lemma resolve_in demangle ind s i : resolve_start demangle ind s = Some i -> exists n, In (n, i) ind.
Proof.
  unfold resolve_start. destruct (sget ind s) as [j|] eqn:E.
  - intros H. injection H as <-. exists s. clear - E. induction ind as [|[a b] m IH]; cbn [sget] in E; [discriminate|]. destruct (str_eqb a s) eqn:K; [apply str_eqb_eq in K; subst; injection E as ->; left; reflexivity | right; exact (IH E)].
  - set (l := filter _ ind). assert (S : incl l ind) by (intros x I; apply filter_In in I; apply I). destruct l as [|[n k] [|? ?]]; try discriminate. intros H. injection H as <-. exists n. apply S. left. reflexivity.
Qed.

(** The map from names to nodes has distinct keys. *)
Lemma ofold_inv {S X} (P : S -> Prop) (f : S -> X -> outcome S) l : (forall s x s', f s x = Ret s' -> P s -> P s') -> forall s s', ofold f l s = Ret s' -> P s -> P s'.
Proof.
  intros H. induction l as [|x l IH]; intros s s' E Ps; cbn [ofold] in E; [injection E as <-; exact Ps|]. destruct (bind_inv _ _ _ E) as [s1 [E1 E2]]. exact (IH s1 s' E2 (H _ _ _ E1 Ps)).
Qed.
Definition ikeys (e : edgest) : Prop := NoDup (map fst (e_indices e)).
Lemma call_once_idx a c e : e_indices (call_once a c e) = e_indices e.
Proof. unfold call_once. destruct (add_once a c (e_g e, e_seen e)). reflexivity. Qed.
Lemma exec_stmt_ikeys p al c i e st e' : exec_stmt p al c i e st = Ret e' -> ikeys e -> ikeys e'.
Proof.
  unfold ikeys. intros E H. destruct st as [s|[sym|]|f|sg| | |]; cbn [exec_stmt] in E; try (injection E as <-; exact H); try discriminate E.
  - destruct (sget (e_indices e) sym); [injection E as <-; exact H|]. cbn in E. injection E as <-. cbn. apply sput_nodup. exact H.
  - destruct (classify (is_thumb (pg_target p)) f) as [|names| |]; try (injection E as <-; exact H); try discriminate E.
    + injection E as <-. revert e H. induction names as [|n names IH]; intros e H; [exact H|]. cbn [fold_left]. apply IH. destruct (sget (e_indices e) n); [rewrite call_once_idx|]; exact H.
    + destruct (str_eqb f (lit "memcmp") && negb (shas (e_indices e) f)); [injection E as <-; exact H|]. destruct (bind_inv _ _ _ E) as [[e1 callee] [E1 E2]]. injection E2 as <-. rewrite call_once_idx.
      destruct (sget al f) as [c'|]; [destruct (sget (e_indices e) c'); [injection E1 as <- _; exact H | discriminate E1]|]. destruct (negb (smem f (pg_undefined p))); [discriminate E1|].
      destruct (sget (e_indices e) f); [injection E1 as <- _; exact H|]. cbn in E1. injection E1 as <- _. cbn. apply sput_nodup. exact H.
Qed.
Lemma ir_edges_ikeys p n e : ir_edges p n = Ret e -> NoDup (map fst (n_indices n)) -> ikeys e.
Proof.
  unfold ir_edges. intros E H. revert E. intros E. refine (ofold_inv ikeys _ _ _ _ _ E H). clear. intros s d s' E H. unfold exec_define in E. destruct (sget (n_aliases n) (d_name d)); [|injection E as <-; exact H].
  cbv zeta in E. destruct (sget (e_indices _) s0); [|discriminate E]. refine (ofold_inv ikeys _ _ _ _ _ E H). intros ? ? ?. apply exec_stmt_ikeys.
Qed.
Lemma build_ikeys demangle o p b : wf_prog p -> build demangle o p = Ret b -> NoDup (map fst (b_indices b)).
Proof.
  intros W E. unfold build in E. apply bind_inv in E. destruct E as [? [_ E]]. destruct (bind_inv _ _ _ E) as [n [E1 E']]. destruct (bind_inv _ _ _ E') as [e [E2 E'']]. destruct (bind_inv _ _ _ E'') as [g [E3 E4]]. injection E4 as <-. cbn [b_indices].
  exact (ir_edges_ikeys _ _ _ E2 (rn_ikeys _ _ _ _ (real_nodes_spec _ _ _ W E1))).
Qed.
(** The table of short names is made from the chosen names. *)
Lemma build_ambiguous demangle o p b : wf_prog p -> build demangle o p = Ret b ->
  exists names, Forall2 (chosen p) (seq 0 (length (pg_defined p))) names /\ note_names demangle [] names = Ret (b_ambiguous b).
Proof.
  intros W E. unfold build in E. apply bind_inv in E. destruct E as [? [_ E]]. destruct (bind_inv _ _ _ E) as [n [E1 E']]. destruct (bind_inv _ _ _ E') as [e [E2 E'']]. destruct (bind_inv _ _ _ E'') as [g [E3 E4]]. injection E4 as <-. cbn [b_ambiguous].
  pose proof (real_nodes_spec _ _ _ W E1) as R. exists (map nname (gnodes (n_g n))). split; [|exact (rn_ambiguous _ _ _ _ R)]. rewrite <- (rn_len _ _ _ _ R).
  assert (K : forall k l, (forall i nd, nth_error l i = Some nd -> chosen p (k + i) (nname nd)) -> Forall2 (chosen p) (seq k (length l)) (map nname l)).
  { intros k l. revert k. induction l as [|nd l IH]; intros k H; cbn [length seq map]; constructor.
    - pose proof (H 0 nd eq_refl) as X. rewrite Nat.add_0_r in X. exact X.
    - apply IH. intros i nd' X. pose proof (H (S i) nd' X) as Y. rewrite Nat.add_succ_r in Y. exact Y. }
  apply K. intros i nd X. destruct (rn_node _ _ _ _ R i nd X) as [c [C1 ->]]. rewrite upto_all in C1. exact C1.
Qed.

Lemma max_nodes_len g g' cs : wf_graph g -> max_stack true g = Ret (g', cs) -> length (gnodes g') = length (gnodes g).
Proof.
  intros Wf M. destruct (all_reported g Wf) as [g1 [cs1 [H1 [_ [H2 _]]]]]. rewrite M in H1. injection H1 as <- <-. apply (f_equal (@length _)) in H2. rewrite !map_length in H2. exact H2.
Qed.

Lemma short_name_cases demangle m c : short_name demangle m c = c \/ has_hash (demangle c) (short_name demangle m c).
Proof.
  unfold short_name. destruct (dehash_spec (demangle c)) as [[x|] [-> Hb]]; [|now left]. destruct (Nat.eqb (table_get m x) 1); [|now left]. right. now apply Hb.
Qed.
Definition face (nd : node) := (nname nd, nlocal nd, ndashed nd).
Lemma max_faces info g g' cs : wf_graph g -> max_stack info g = Ret (g', cs) -> map face (gnodes g') = map face (gnodes g).
Proof.
  intros Wf M. destruct info; [|cbn in M; injection M as <- <-; reflexivity]. destruct (all_reported g Wf) as [g1 [cs1 [H1 [_ [H2 _]]]]]. rewrite M in H1. injection H1 as <- <-. exact H2.
Qed.
Lemma shown_nodes demangle p void m nds3 nds ks nds2 :
  shorten_nodes demangle m nds3 = Ret nds -> map face nds3 = map face nds2 ->
  (forall k key nd, nth_error ks k = Some key -> nth_error nds2 k = Some nd -> node_of p void key nd) ->
  forall k key nd, nth_error ks k = Some key -> nth_error nds k = Some nd -> shows demangle p key nd.
Proof.
  intros S F H k key nd K N. rewrite (shorten_nodes_spec _ _ _ _ S), nth_error_map in N. destruct (nth_error nds3 k) as [n3|] eqn:E3; [|discriminate N]. cbn in N. injection N as <-.
  assert (X : nth_error (map face nds3) k = Some (face n3)) by (rewrite nth_error_map, E3; reflexivity). rewrite F, nth_error_map in X. destruct (nth_error nds2 k) as [n2|] eqn:E2; [|discriminate X].
  cbn in X. injection X as X1 X2 X3. exists void, n2. split; [exact (H k key n2 K E2)|]. cbn. split; [congruence|]. split; [congruence|]. rewrite X1. apply short_name_cases.
Qed.

Section Report.
Variables (demangle : str -> str) (o : orders) (p : prog) (b : built).
Hypothesis (W : wf_prog p) (Fo : fair o) (E : build demangle o p = Ret b).

Lemma shown_iff n : In n (map fst (b_indices b)) <-> shown_name p n.
Proof.
  destruct (build_spec demangle o p b W Fo E) as [ks [void [G [_ [_ [Hi _]]]]]]. pose proof (build_ikeys _ _ _ _ W E) as ND. split.
  - intros K. apply in_map_iff in K. destruct K as [[n' u] [<- K]]. cbn [fst]. apply (sget_In _ _ _ ND) in K. apply Hi in K. destruct K as [[j [C _]]|K]; [left; exists j; exact C|].
    right. apply nth_error_In in K. apply (go_nodes _ _ _ _ G) in K. inversion K; subst. assumption.
  - intros [[i C]|C].
    + assert (K : In (KReal i) ks) by (apply (go_nodes _ _ _ _ G); apply in_real; exact (live_lt p _ _ (chosen_live p _ _ C))). apply In_nth_error in K. destruct K as [u K].
      assert (Y : sget (b_indices b) n = Some u) by (apply Hi; left; exists i; split; assumption). apply (sget_In _ _ _ ND) in Y. apply (in_map fst) in Y. exact Y.
    + assert (K : In (KSym n) ks) by (apply (go_nodes _ _ _ _ G); apply in_sym; exact C). apply In_nth_error in K. destruct K as [u K].
      assert (Y : sget (b_indices b) n = Some u) by (apply Hi; right; exact K). apply (sget_In _ _ _ ND) in Y. apply (in_map fst) in Y. exact Y.
Qed.
Lemma sget_shown n : (exists u, sget (b_indices b) n = Some u) <-> shown_name p n.
Proof.
  rewrite <- shown_iff. pose proof (build_ikeys _ _ _ _ W E) as ND. split.
  - intros [u K]. apply (sget_In _ _ _ ND) in K. apply (in_map fst) in K. exact K.
  - intros K. apply in_map_iff in K. destruct K as [[n' u] [<- K]]. exists u. apply (sget_In _ _ _ ND). exact K.
Qed.
Definition hits (s : str) : list (str * nat) := filter (fun kv => starts_with (s ++ lit "::h") (demangle (fst kv))) (b_indices b).
Lemma hits_iff s n : In n (map fst (hits s)) <-> shown_name p n /\ hashed_start demangle s n.
Proof.
  unfold hits, hashed_start. rewrite <- shown_iff. split.
  - intros K. apply in_map_iff in K. destruct K as [[n' u] [<- K]]. apply filter_In in K. destruct K as [K1 K2]. cbn [fst] in *. split; [apply (in_map fst) in K1; exact K1|].
    apply starts_with_inv in K2. destruct K2 as [r K2]. exists r. rewrite K2, <- app_assoc. reflexivity.
  - intros [K [r D]]. apply in_map_iff in K. destruct K as [[n' u] [<- K]]. apply in_map_iff. exists (n', u). split; [reflexivity|]. apply filter_In. split; [exact K|]. cbn [fst] in *. rewrite D, app_assoc. apply starts_with_refl.
Qed.
Lemma hits_nodup s : NoDup (map fst (hits s)).
Proof.
  pose proof (build_ikeys _ _ _ _ W E) as ND. unfold hits. revert ND. generalize (b_indices b) as l. induction l as [|[n u] l IH]; intros ND; cbn [filter map fst] in *; [constructor|]. inversion ND; subst.
  destruct (starts_with _ _); cbn [map fst]; [constructor|]; auto. intros K. apply H1. apply in_map_iff in K. destruct K as [y [Ey K]]. apply filter_In in K. destruct K as [K _]. apply in_map_iff. exists y. split; assumption.
Qed.
Section Keys.
Variables (ks : list key) (void : option str).
Hypothesis (G : graph_of p ks void (b_g b)).
Hypothesis (Hi : forall n u, sget (b_indices b) n = Some u <-> (exists j, chosen p j n /\ nth_error ks u = Some (KReal j)) \/ nth_error ks u = Some (KSym n)).
Lemma index_key n u : sget (b_indices b) n = Some u <-> exists k, ((exists i, chosen p i n /\ k = KReal i) \/ created p n /\ k = KSym n) /\ nth_error ks u = Some k.
Proof.
  rewrite Hi. split.
  - intros [[j [C K]]|K]; [exists (KReal j); split; [left; exists j; split; [exact C | reflexivity] | exact K]|]. exists (KSym n). split; [|exact K]. right. split; [|reflexivity].
    apply nth_error_In in K. apply (go_nodes _ _ _ _ G) in K. inversion K; subst. assumption.
  - intros [k [[[i [C ->]]|[_ ->]] K]]; [left; exists i; split; assumption | right; exact K].
Qed.
Lemma resolve_denotes s u : resolve_start demangle (b_indices b) s = Some u <-> exists k, denotes demangle p s k /\ nth_error ks u = Some k.
Proof.
  unfold resolve_start. cbv zeta. fold (hits s). pose proof (sget_shown s) as Sh. pose proof (index_key s) as Ik. destruct (sget (b_indices b) s) as [i|] eqn:Es.
  - assert (S : shown_name p s) by (apply Sh; exists i; reflexivity). split.
    + intros X. injection X as <-. destruct (proj1 (Ik i) eq_refl) as [k [K1 K2]]. exists k. split; [|exact K2]. exists s. split; [left; split; [exact S | reflexivity] | exact K1].
    + intros [k [[n [[[_ ->]|[N _]] K1]] K2]]; [|contradiction]. apply Ik. exists k. split; assumption.
  - assert (N : ~ shown_name p s) by (intros K; apply Sh in K; destruct K as [v K]; discriminate K). pose proof (hits_iff s) as HI. pose proof (hits_nodup s) as HN. pose proof (build_ikeys _ _ _ _ W E) as ND. destruct (hits s) as [|[n1 u1] [|[n2 u2] l]] eqn:Eh.
    + split; [discriminate|]. intros [k [[n [[[K _]|[_ K]] _]] _]]; [contradiction|]. exfalso. exact (proj2 (HI n) (proj2 (K n) eq_refl)).
    + assert (I1 : sget (b_indices b) n1 = Some u1).
      { apply (sget_In _ _ _ ND). assert (X : In (n1, u1) (hits s)) by (rewrite Eh; left; reflexivity). unfold hits in X. apply filter_In in X. apply X. }
      assert (U : forall m, shown_name p m /\ hashed_start demangle s m <-> m = n1) by (intros m; rewrite <- HI; cbn; split; [intros [->|[]]; reflexivity | intros ->; left; reflexivity]).
      split.
      * intros X. injection X as <-. apply index_key in I1. destruct I1 as [k [K1 K2]]. exists k. split; [|exact K2]. exists n1. split; [right; split; assumption | exact K1].
      * intros [k [[n [[[K _]|[_ K]] K1]] K2]]; [contradiction|]. assert (n = n1) by (apply U; apply K; reflexivity). subst n.
        assert (X : sget (b_indices b) n1 = Some u) by (apply index_key; exists k; split; assumption). congruence.
    + split; [discriminate|]. intros [k [[n [[[K _]|[_ K]] _]] _]]; [contradiction|]. exfalso. cbn [map fst] in HI, HN.
      assert (X1 : n1 = n) by (apply K, HI; left; reflexivity). assert (X2 : n2 = n) by (apply K, HI; right; left; reflexivity). inversion HN as [|? ? H _]; subst. apply H. left. reflexivity.
Qed.
Lemma resolve_none s : resolve_start demangle (b_indices b) s = None <-> forall k, ~ denotes demangle p s k.
Proof.
  pose proof (resolve_denotes s) as R. destruct (resolve_start demangle (b_indices b) s) as [u|]; split.
  - discriminate.
  - intros N. destruct (proj1 (R u) eq_refl) as [k [K _]]. destruct (N k K).
  - intros _ k K. assert (I : In k ks).
    { apply (go_nodes _ _ _ _ G). destruct K as [n [_ [[i [C ->]]|[C ->]]]]; [apply in_real; exact (live_lt p _ _ (chosen_live p _ _ C)) | apply in_sym; exact C]. }
    apply In_nth_error in I. destruct I as [u I]. assert (X : None = Some u) by (apply R; exists k; split; assumption). discriminate X.
  - reflexivity.
Qed.
Lemma resolve_key s u k : resolve_start demangle (b_indices b) s = Some u -> denotes demangle p s k -> nth_error ks u = Some k.
Proof.
  intros R K. assert (I : In k ks).
  { apply (go_nodes _ _ _ _ G). destruct K as [n [_ [[i [C ->]]|[C ->]]]]; [apply in_real; exact (live_lt p _ _ (chosen_live p _ _ C)) | apply in_sym; exact C]. }
  apply In_nth_error in I. destruct I as [v I]. assert (X : resolve_start demangle (b_indices b) s = Some v) by (apply resolve_denotes; exists k; split; assumption). congruence.
Qed.
End Keys.
(** Keys of the nodes after filtering. *)
Lemma filtered start ks void g2 : graph_of p ks void (b_g b) -> (forall n u, sget (b_indices b) n = Some u <-> (exists j, chosen p j n /\ nth_error ks u = Some (KReal j)) \/ nth_error ks u = Some (KSym n)) ->
  filter_start demangle (b_indices b) start (b_g b) = Ret g2 ->
  (g2 = b_g b /\ (forall s, start = Some s -> resolve_start demangle (b_indices b) s = None)) \/
  exists s i ids, start = Some s /\ resolve_start demangle (b_indices b) s = Some i /\ restricted (b_g b) i g2 ids.
Proof.
  intros G Hi F. destruct start as [s|]; [|injection F as <-; left; split; [reflexivity | intros s X; discriminate X]].
  destruct (resolve_start demangle (b_indices b) s) as [i|] eqn:R.
  - right. assert (L : i < node_count (b_g b)).
    { destruct (resolve_in _ _ _ _ R) as [n I]. apply (sget_In _ _ _ (build_ikeys _ _ _ _ W E)) in I. apply Hi in I. destruct I as [[j [_ I]] | I]; exact (key_idx p ks void _ G _ _ I). }
    destruct (filter_restricts demangle (b_indices b) s i (b_g b) (graph_wf p ks void _ G) R L) as [g2' [ids [K1 K2]]]. rewrite F in K1. injection K1 as <-. exists s, i, ids. split; [reflexivity | split; [exact R | exact K2]].
  - left. cbn [filter_start] in F. rewrite R in F. injection F as <-. split; [reflexivity|]. intros s' X. injection X as <-. exact R.
Qed.

End Report.
(** Where the machine code is read, that of every function is. *)
Lemma code_read demangle o p b i : wf_prog p -> build demangle o p = Ret b -> is_thumb (pg_target p) = true -> pg_text p <> None -> ~ unread p i.
Proof. intros W E T X [L [_ N]]. destruct (checked_code _ _ _ _ W E i T X L) as [addr [size [a [A _]]]]. exact (N addr size a A). Qed.
