(** Other stack sizes for the same code. *)
From Coq Require Import Permutation.
From Verif Require Import M_base M_stack M_graph M_analysis M_filter M_names M_thumb M_ty M_parse M_render M_build M_run
  S_names S_sig L_base L_ir2 L_trav L_driver3 L_filter2 S_calls S_build S_run S_below S_graph S_mono S_fewer S_resize L_build1 L_build3 L_build4 L_build5 L_build6 L_build7 L_build9 L_calls4 L_run L_analysis L_maxprops L_mono L_report L_exact L_debug6 L_below.


Section Resized.
Variables (p : prog) (l : list (str * N)).
Notation q := (with_sizes p l).
Hypothesis (Sk : same_known p l).
Lemma fw_chosen i n : chosen q i n <-> chosen p i n.
Proof. apply Sk. Qed.
Lemma fw_unchosen n : (forall j, ~ chosen q j n) <-> (forall j, ~ chosen p j n).
Proof. split; intros H j C; apply (H j); apply fw_chosen; exact C. Qed.
Lemma fw_untyped : untyped q <-> untyped p.
Proof. split; intros [i [ns [n [N [C H]]]]]; exists i, ns, n; (split; [exact N|]); (split; [apply fw_chosen; exact C | exact H]). Qed.
Lemma fw_created n : created q n <-> created p n.
Proof. unfold created. split; (intros [H|[i [B N]]]; [left; exact H | right; exists i; split; [exact B | apply fw_unchosen; exact N]]). Qed.
Lemma fw_node k : is_node q k <-> is_node p k.
Proof.
  split; intros H; destruct H; try (constructor; assumption).
  - apply in_sym, fw_created. assumption.
  - apply in_ext; [assumption | apply fw_untyped; assumption].
  - apply in_sym, fw_created. assumption.
  - apply in_ext; [assumption | apply fw_untyped; assumption].
Qed.
Lemma fw_made done n : made q done n <-> made p done n.
Proof. unfold made. split; (intros [H|[i [B N]]]; [left; exact H | right; exists i; split; [exact B | apply fw_unchosen; exact N]]). Qed.
Lemma fw_leads done st k : S_calls.leads q done st k <-> S_calls.leads p done st k.
Proof.
  split; intros H; destruct H as [f j A L M|f A L M|f n j T L C|f n T L C M].
  - apply le_direct; [exact A | exact L|]. intros X. destruct (M X) as [C|Y]; [left; apply fw_chosen; exact C | right; apply fw_made; exact Y].
  - apply le_extern; [exact A | exact L|]. intros X. apply fw_made. exact (M X).
  - eapply le_mem; [exact T | exact L | apply fw_chosen; exact C].
  - eapply le_mem_extern; [exact T | exact L | apply fw_unchosen; exact C | apply fw_made; exact M].
  - apply le_direct; [exact A | exact L|]. intros X. destruct (M X) as [C|Y]; [left; apply fw_chosen; exact C | right; apply fw_made; exact Y].
  - apply le_extern; [exact A | exact L|]. intros X. apply fw_made. exact (M X).
  - eapply le_mem; [exact T | exact L | apply fw_chosen; exact C].
  - eapply le_mem_extern; [exact T | exact L | apply fw_unchosen; exact C | apply fw_made; exact M].
Qed.
Lemma fw_arrow tr void k m : arrow q tr void k m <-> arrow p tr void k m.
Proof.
  unfold arrow, cast_target. split; (intros [H|[i [f [-> [I C]]]]]; [left|right; exists i, f; split; [reflexivity|]; split; [exact I|]]).
  - destruct H as [i m [[a [st [c [Et K]]]]|H]|i B|i s C|s j C P|s C U]; [apply on_call; left; exists a, st, c; split; [exact Et | apply fw_leads; exact K] | apply on_call; right; exact H | apply on_blind; exact B | apply on_pointer; exact C | apply on_pointee; assumption | apply on_outside; [exact C | apply fw_untyped; exact U]].
  - destruct C as [[j [C ->]]|[N ->]]; [left; exists j; split; [apply fw_chosen; exact C | reflexivity] | right; split; [apply fw_unchosen; exact N | reflexivity]].
  - destruct H as [i m [[a [st [c [Et K]]]]|H]|i B|i s C|s j C P|s C U]; [apply on_call; left; exists a, st, c; split; [exact Et | apply fw_leads; exact K] | apply on_call; right; exact H | apply on_blind; exact B | apply on_pointer; exact C | apply on_pointee; assumption | apply on_outside; [exact C | apply fw_untyped; exact U]].
  - destruct C as [[j [C ->]]|[N ->]]; [left; exists j; split; [apply fw_chosen; exact C | reflexivity] | right; split; [apply fw_unchosen; exact N | reflexivity]].
Qed.
Lemma fw_trace ds tr : trace p ds tr -> trace q ds tr.
Proof. intros T. induction T as [|n d ds tr N T IH|n d i ds tr N T IH]; [constructor | apply tr_removed; [exact N | exact IH] | apply tr_kept; [exact N | exact IH]]. Qed.
End Resized.

Section Built.
Variables (demangle : str -> str) (o o' : orders) (p : prog) (l : list (str * N)) (b b' : built).
Notation q := (with_sizes p l).
Hypothesis (W : wf_prog p) (W' : wf_prog q) (Sk : same_known p l) (Fo : fair o) (Fo' : fair o') (Sz' : sizes_u64 q) (Ov : one_void p).
Hypothesis (E : build demangle o p = Ret b) (E' : build demangle o' q = Ret b').
(** The graph of the program with the other sizes, with the nodes in the order of the first graph. *)
Lemma built_resized g3' c3' : max_stack true (b_g b') = Ret (g3', c3') -> exists ks void g, graph_of p ks void (b_g b) /\ graph_of q ks void g /\ gedges g = gedges (b_g b) /\ usages_u64 g /\
  exists ga ca, max_stack true g = Ret (ga, ca) /\ forall i m', i < length (pg_defined p) -> reported g3' i m' -> reported ga i m'.
Proof.
  intros X'. destruct (build_counted _ _ _ _ W Fo E) as [tr [_ [_ [T _]]]]. pose proof (fw_trace p l _ _ T) as T'.
  destruct (arrow_edge demangle o p b tr W Fo E T) as [ks [void [G [Ed _]]]], (arrow_edge demangle o' q b' tr W' Fo' E' T') as [ks' [void' [G' [Ed' _]]]].
  assert (Ev : void' = void) by (apply (same_void p q); [exact Ov | intros v; reflexivity | exact (go_void _ _ _ _ G) | exact (go_void _ _ _ _ G')]). subst void'.
  assert (Ik : forall k, In k ks <-> In k ks') by (intros k; rewrite (go_nodes _ _ _ _ G), (go_nodes _ _ _ _ G'), (fw_node p l Sk); reflexivity).
  set (dm := mkNode [] LUnknown None false). set (gn := map (fun k => nth (place k ks') (gnodes (b_g b')) dm) ks). set (g := mkG gn (gedges (b_g b))).
  pose proof (Forall2_len _ _ _ (go_show _ _ _ _ G)) as Lg. pose proof (graph_wf p ks void _ G) as Wf. pose proof (graph_wf q ks' void _ G') as Wf'.
  assert (Nc : node_count g = node_count (b_g b)) by (unfold node_count, g, gn; cbn [gnodes]; rewrite map_length; exact Lg).
  assert (At : forall u k, nth_error ks u = Some k -> exists nd, nth_error (gnodes g) u = Some nd /\ node_of q void k nd /\ forall w, nth_error ks' w = Some k -> nth_error (gnodes (b_g b')) w = Some nd).
  { intros u k K. pose proof (place_at k ks' (proj1 (Ik k) (nth_error_In _ _ K))) as P. destruct (show_at q ks' void _ G' _ _ P) as [nd [N1 N2]]. exists nd.
    split; [unfold g, gn; cbn [gnodes]; rewrite nth_error_map, K; cbn [option_map]; f_equal; exact (nth_error_nth _ _ _ N1)|]. split; [exact N2|]. intros w Kw. rewrite (key_inj q ks' void _ G' _ _ _ Kw P). exact N1. }
  assert (Wg : wf_graph g) by (intros a c C; rewrite Nc; exact (Wf a c C)).
  assert (Pl : forall u, u < node_count g -> exists k, nth_error ks u = Some k) by (intros u Lu; destruct (nth_error ks u) as [k|] eqn:K; [exists k; reflexivity | apply nth_error_None in K; unfold node_count in Lu, Nc; lia]).
  assert (Kl : forall u n, local_of g u = Some n -> exists k, nth_error ks u = Some k).
  { intros u n K. unfold local_of in K. destruct (nth_error (gnodes g) u) as [nd|] eqn:N; [|discriminate K]. apply Pl. unfold node_count. apply nth_error_Some. congruence. }
  set (to := fun u => match nth_error ks u with Some k => place k ks' | None => 0 end).
  assert (To : forall u k, nth_error ks u = Some k -> nth_error ks' (to u) = Some k) by (intros u k K; unfold to; rewrite K; apply place_at, Ik; exact (nth_error_In _ _ K)).
  pose proof (filtered_u64 demangle o' None q b' _ W' Fo' Sz' E' eq_refl) as Uu'.
  assert (Ug : usages_u64 g).
  { intros u n K. destruct (Kl u _ K) as [k Ku]. destruct (At u k Ku) as [nd [N1 [_ N2]]]. apply (Uu' (to u) n). unfold known, local_of in *. rewrite (N2 _ (To u k Ku)). rewrite N1 in K. exact K. }
  assert (Lt : forall i, i < length (pg_defined p) -> i < node_count g) by (intros i Hi; rewrite Nc; unfold node_count; rewrite <- Lg; apply nth_error_Some; rewrite (go_real _ _ _ _ G i Hi); discriminate).
  assert (Ti : forall i, i < length (pg_defined p) -> to i = i) by (intros i Hi; pose proof (To i _ (go_real _ _ _ _ G i Hi)) as K; exact (real_idx q ks' void _ G' _ _ K)).
  assert (Vw : forall i, i < length (pg_defined p) -> same_view g (b_g b') to i).
  { intros i Hi. pose proof (Lt i Hi) as Li.
    assert (Rk : forall a, reach g i a -> exists k, nth_error ks a = Some k).
    { intros a R. apply Pl. assert (Y : forall x z, star (calls g) x z -> x < node_count g -> z < node_count g) by (clear - Wg; intros x z S; induction S as [|x y z C S IH]; intros Lx; [exact Lx | apply IH; exact (proj2 (Wg _ _ C))]). exact (Y i a R Li). }
    constructor.
    - intros a c Ra Rc X0. destruct (Rk a Ra) as [k Ka], (Rk c Rc) as [k2 Kc]. pose proof (To a k Ka) as Ta. pose proof (To c k2 Kc) as Tc. rewrite X0, Tc in Ta. injection Ta as <-. exact (key_inj p ks void _ G _ _ _ Ka Kc).
    - intros a Ra. destruct (Rk a Ra) as [k Ka]. destruct (At a k Ka) as [nd [N1 [_ N2]]]. unfold local_of. rewrite N1, (N2 _ (To a k Ka)). reflexivity.
    - intros a c _ C. unfold calls in C. cbn [gedges g] in C. apply Ed in C. destruct C as [k [k2 [K1 [K2 A]]]]. apply Ed'. exists k, k2. split; [exact (To _ _ K1)|]. split; [exact (To _ _ K2) | apply (fw_arrow p l Sk); exact A].
    - intros a y Ra C. destruct (Rk a Ra) as [k Ka]. apply Ed' in C. destruct C as [k' [k2 [K1 [K2 A]]]]. rewrite (To a k Ka) in K1. injection K1 as <-. apply (fw_arrow p l Sk) in A.
      destruct (In_nth_error _ _ (proj2 (Ik k2) (nth_error_In _ _ K2))) as [c Kc]. exists c. split; [apply Ed; exists k, k2; split; [exact Ka|]; split; [exact Kc | exact A] | exact (key_inj q ks' void _ G' _ _ _ K2 (To c k2 Kc))]. }
  assert (Gq : graph_of q ks void g).
  { constructor.
    - exact (go_keys _ _ _ _ G).
    - intros k. rewrite Ik. exact (go_nodes _ _ _ _ G' k).
    - exact (go_real _ _ _ _ G).
    - unfold g, gn. cbn [gnodes]. assert (Al : forall k, In k ks -> node_of q void k (nth (place k ks') (gnodes (b_g b')) dm)).
      { intros k I. pose proof (place_at k ks' (proj1 (Ik k) I)) as P. destruct (show_at q ks' void _ G' _ _ P) as [nd [N1 N2]]. rewrite (nth_error_nth _ _ dm N1). exact N2. }
      clear - Al. induction ks as [|k r IH]; constructor; [apply Al; left; reflexivity | apply IH; intros x I; apply Al; right; exact I].
    - exact (go_void _ _ _ _ G').
    - exact (go_wf _ _ _ _ G).
    - intros k k2 A. destruct (go_must _ _ _ _ G' _ _ A) as [u [v [U [V I]]]]. apply Ed' in I. destruct I as [x [y [X1 [X2 Ar]]]]. rewrite U in X1. rewrite V in X2. injection X1 as <-. injection X2 as <-. apply (fw_arrow p l Sk) in Ar.
      destruct (In_nth_error _ _ (proj2 (Ik k) (nth_error_In _ _ U))) as [u' U'], (In_nth_error _ _ (proj2 (Ik k2) (nth_error_In _ _ V))) as [v' V']. exists u', v'. split; [exact U'|]. split; [exact V'|]. apply Ed. exists k, k2. split; [exact U'|]. split; [exact V' | exact Ar].
    - intros u v k k2 I U V. apply Ed in I. destruct I as [x [y [X1 [X2 Ar]]]]. rewrite U in X1. rewrite V in X2. injection X1 as <-. injection X2 as <-. apply (fw_arrow p l Sk) in Ar.
      apply (go_may _ _ _ _ G' (to u) (to v)); [|exact (To _ _ U) | exact (To _ _ V)]. apply Ed'. exists k, k2. split; [exact (To _ _ U)|]. split; [exact (To _ _ V) | exact Ar]. }
  exists ks, void, g. split; [exact G|]. split; [exact Gq|]. split; [reflexivity|]. split; [exact Ug|].
  destruct (max_stack_correct g Wg) as [ga [ca [Ha [_ Hr]]]]. exists ga, ca. split; [exact Ha|]. intros i m' Hi M'. destruct (Hr i (Lt i Hi)) as [mg [Mg _]].
    assert (mg = m') by (apply (view_decides g (b_g b') to i ga g3' ca c3' mg m' Wg Wf' Ug Uu' (Vw i Hi) Ha X' Mg); rewrite (Ti i Hi); exact M'). subst mg. exact Mg.
Qed.
End Built.
