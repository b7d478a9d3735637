(** The report is finished; it does not depend on iteration orders; counterexamples. *)
From Coq Require Import Permutation.
From Verif Require Import M_base M_stack M_graph M_analysis M_filter M_names M_render M_thumb M_ty M_parse M_build M_run S_names S_graph S_filter S_sig S_build S_run L_base L_names L_ir2 L_trav L_maxprops L_mono L_filter2 L_build1 L_build2 L_build3 L_build4 L_build5 L_build6 L_build7 L_build8 X_build L_u64 L_run.
Local Open Scope string_scope.
Local Open Scope list_scope.

Lemma leads_mono (E1 E2 : key -> key -> Prop) k l : (forall a b, E1 a b -> E2 a b) -> leads E1 k l -> leads E2 k l.
Proof. intros M H. induction H as [k|k l m A _ IH]; [apply leads_refl | exact (leads_step _ _ _ _ (M _ _ A) IH)]. Qed.
Lemma known_dec demangle p names h : (forall c, In c names <-> exists i, chosen p i c) ->
  (exists i c, chosen p i c /\ has_hash (demangle c) h) \/ forall c, In c names -> ~ has_hash (demangle c) h.
Proof.
  intros Nm. assert (D : (exists c, In c names /\ has_hash (demangle c) h) \/ forall c, In c names -> ~ has_hash (demangle c) h).
  { clear Nm. induction names as [|c l IH]; [right; intros c []|]. assert (Y : has_hash (demangle c) h \/ ~ has_hash (demangle c) h) by (destruct (has_hash_dec (demangle c)) as [[b B]|B]; [|right; apply B]; destruct (str_eqb b h) eqn:Q; [apply str_eqb_eq in Q; subst; left; exact B | right; intros B'; rewrite (has_hash_unique _ _ _ B B'), str_eqb_refl in Q; discriminate Q]).
    destruct Y as [Y|N]; [left; exists c; split; [left; reflexivity | exact Y]|].
    destruct IH as [[c' [I Y]]|X]; [left; exists c'; split; [right; exact I | exact Y] | right]. intros c' [<-|I]; [exact N | exact (X c' I)]. }
  destruct D as [[c [I Y]]|X]; [|right; exact X]. left. apply Nm in I. destruct I as [i C]. exists i, c. split; assumption.
Qed.

(** The report is finished exactly if the names in view are known. *)
Theorem report_exact demangle o p b : wf_prog p -> fair o -> build demangle o p = Ret b ->
  exists void (E : key -> key -> Prop), void_type p void /\ (forall k l, edge p (fun _ => False) void k l -> E k l) /\ (forall k l, E k l -> edge p (created p) void k l) /\
  forall start, ((exists g cs, report demangle o start p = Ret (g, cs)) <->
    forall k nd, is_node p k -> in_view demangle p E start k -> node_of p void k nd -> known_name demangle p nd).
Proof.
  intros W Fo E. destruct (build_spec _ _ _ _ W Fo E) as [ks [void [G [_ [Hc [Hi Hb]]]]]]. pose proof (graph_wf p ks void _ G) as Wf.
  destruct (build_ambiguous _ _ _ _ W E) as [names [Nm Am]].
  set (Ed := fun k l => exists u v, nth_error ks u = Some k /\ nth_error ks v = Some l /\ In (u, v) (gedges (b_g b))).
  exists void, Ed. split; [exact (go_void _ _ _ _ G)|]. split; [intros k l; exact (go_must _ _ _ _ G k l)|]. split; [intros k l [u [v [U [V I]]]]; exact (go_may _ _ _ _ G u v k l I U V)|].
  assert (Names : forall c, In c names <-> exists i, chosen p i c).
  { intros c. split.
    - clear - Nm. induction Nm as [|x y l l' P F IH]; [intros []|]. intros [<-|I]; [exists x; exact P | exact (IH I)].
    - intros [i C]. pose proof (live_lt p _ _ (chosen_live p _ _ C)) as L. clear - Nm C L W.
      assert (K : forall k m l, Forall2 (chosen p) (seq k m) l -> k <= i < k + m -> In c l).
      { intros k m. revert k. induction m as [|m IH]; intros k l F B; [lia|]. cbn [seq] in F. inversion F as [|? y ? l' F1 F2]; subst. destruct (Nat.eq_dec k i) as [-> | N]; [left; exact (chosen_fun p _ _ _ F1 C)|]. right. apply (IH (S k) l' F2). lia. }
      apply (K 0 _ _ Nm). lia. }
  assert (Inj : forall u v k, nth_error ks u = Some k -> nth_error ks v = Some k -> u = v).
  { intros u v k U V. apply (proj1 (NoDup_nth_error ks) (go_keys _ _ _ _ G)); [apply nth_error_Some; rewrite U; discriminate | congruence]. }
  assert (Star : forall u v, star (calls (b_g b)) u v -> forall k l, nth_error ks u = Some k -> nth_error ks v = Some l -> leads Ed k l).
  { intros u v H. induction H as [v|u v w A _ IH]; intros k l U V; [rewrite U in V; injection V as ->; apply leads_refl|].
    destruct (go_wf _ _ _ _ G u v A) as [_ Lv]. destruct (nth_error ks v) as [m|] eqn:Em; [|apply nth_error_None in Em; lia]. apply leads_step with m; [exists u, v; repeat split; assumption | exact (IH m l eq_refl V)]. }
  assert (Lead : forall k l, leads Ed k l -> forall u v, nth_error ks u = Some k -> nth_error ks v = Some l -> star (calls (b_g b)) u v).
  { intros k l H. induction H as [k|k l m A _ IH]; intros u v U V; [rewrite (Inj _ _ _ U V); apply star_refl|]. destruct A as [u' [v' [U' [V' A]]]]. rewrite (Inj _ _ _ U U'). apply star_step with v'; [exact A | exact (IH v' v V' V)]. }
  intros start. unfold report. rewrite E. cbn [bind]. unfold finish.
  assert (F : exists g2, filter_start demangle (b_indices b) start (b_g b) = Ret g2).
  { destruct start as [s|]; [|exists (b_g b); reflexivity]. destruct (resolve_start demangle (b_indices b) s) as [i|] eqn:R; [|exists (b_g b); cbn [filter_start]; rewrite R; reflexivity].
    assert (L : i < node_count (b_g b)).
    { destruct (resolve_in _ _ _ _ R) as [n I]. apply (sget_In _ _ _ (build_ikeys _ _ _ _ W E)) in I. apply Hi in I. destruct I as [[j [_ I]] | I]; exact (key_idx p ks void _ G _ _ I). }
    destruct (filter_restricts demangle (b_indices b) s i (b_g b) Wf R L) as [g2 [ids [K _]]]. exists g2. exact K. }
  destruct F as [g2 F]. rewrite F. cbn [bind].
  (* the nodes of the filtered graph are the nodes in view *)
  assert (View : forall nd, In nd (gnodes g2) <-> exists k, is_node p k /\ in_view demangle p Ed start k /\ node_of p void k nd).
  { destruct (filtered demangle o p b W E start ks void g2 G Hi F) as [[-> Hs] | [s [i0 [ids [-> [Hr R]]]]]]; intros nd; split.
    - intros I. apply In_nth_error in I. destruct I as [u I]. destruct (key_at _ _ _ _ G _ _ I) as [k [K1 K2]]. exists k. split; [apply (go_nodes _ _ _ _ G); exact (nth_error_In _ _ K1)|]. split; [|exact K2].
      intros s r -> D. exfalso. exact (proj1 (resolve_none demangle o p b W Fo E ks void G Hi s) (Hs s eq_refl) r D).
    - intros [k [Nk [_ K]]]. apply (go_nodes _ _ _ _ G) in Nk. apply In_nth_error in Nk. destruct Nk as [u Hu]. destruct (show_at _ _ _ _ G _ _ Hu) as [nd' [Hn K']]. rewrite <- (node_of_fun p void k nd' nd W K' K). exact (nth_error_In _ _ Hn).
    - intros I. apply In_nth_error in I. destruct I as [k I].
      destruct (nth_error ids k) as [v|] eqn:Ev; [|exfalso; apply nth_error_None in Ev; rewrite (rs_count _ _ _ _ R) in Ev; assert (k < node_count g2) by (apply nth_error_Some; rewrite I; discriminate); lia].
      rewrite (rs_nodes _ _ _ _ R k v Ev) in I. destruct (key_at _ _ _ _ G _ _ I) as [key [K1 K2]]. exists key. split; [apply (go_nodes _ _ _ _ G); exact (nth_error_In _ _ K1)|]. split; [|exact K2].
      intros s' r X D. injection X as <-. pose proof (resolve_key demangle o p b W Fo E ks void G Hi s i0 r Hr D) as Kr. apply (Star i0 v); [|exact Kr | exact K1]. exact (proj1 (rs_reach _ _ _ _ R v) (nth_error_In _ _ Ev)).
    - intros [key [Nk [V K]]]. apply (go_nodes _ _ _ _ G) in Nk. apply In_nth_error in Nk. destruct Nk as [u Hu]. destruct (show_at _ _ _ _ G _ _ Hu) as [nd' [Hn K']]. rewrite <- (node_of_fun p void key nd' nd W K' K).
      destruct (proj1 (resolve_denotes demangle o p b W Fo E ks void G Hi s i0) Hr) as [r [D Kr]]. pose proof (Lead _ _ (V s r eq_refl D) i0 u Kr Hu) as Rc. apply (rs_reach _ _ _ _ R) in Rc. apply In_nth_error in Rc. destruct Rc as [n Rc].
      apply nth_error_In with n. rewrite (rs_nodes _ _ _ _ R n u Rc). exact Hn. }
  assert (Wf2 : wf_graph g2).
  { destruct (filtered demangle o p b W E start ks void g2 G Hi F) as [[-> _] | [s [i0 [ids [-> [Hr R]]]]]]; [exact Wf | exact (rs_wf _ _ _ _ R)]. }
  assert (M : exists g3 cs, max_stack (b_info b) g2 = Ret (g3, cs) /\ map nname (gnodes g3) = map nname (gnodes g2)).
  { destruct (b_info b); [|exists g2, []; split; reflexivity]. destruct (all_reported g2 Wf2) as [g3 [cs [M1 [_ [M2 _]]]]]. exists g3, cs. split; [exact M1|].
    apply (f_equal (map (fun x : str * M_stack.local * bool => fst (fst x)))) in M2. rewrite !map_map in M2. exact M2. }
  destruct M as [g3 [cs [M1 M2]]]. rewrite M1. cbn [bind]. split.
  - intros [g [cs' R]] k nd Nk V K h Hh. apply bind_Ret in R. destruct R as [g4 [Sh _]].
    assert (I : In (nname nd) (map nname (gnodes g3))) by (rewrite M2; apply in_map; apply View; exists k; split; [exact Nk | split; [exact V | exact K]]).
    apply in_map_iff in I. destruct I as [nd3 [N3 I3]]. destruct (known_dec demangle p names h Names) as [Y|X]; [exact Y|].
    exfalso. rewrite <- N3 in Hh. destruct (shorten_panics demangle g3 _ names nd3 h Am I3 Hh X) as [msg Q]. rewrite Q in Sh. discriminate Sh.
  - intros H. destruct (shorten_total demangle g3 (b_ambiguous b) names Am) as [g4 [S _]].
    + intros nd h I Hh. assert (X : exists nd', In nd' (gnodes g2) /\ nname nd' = nname nd).
      { apply (in_map nname) in I. rewrite M2 in I. apply in_map_iff in I. destruct I as [nd' [X1 X2]]. exists nd'. split; [exact X2 | exact X1]. }
      destruct X as [nd' [I' Nn]]. rewrite <- Nn in Hh. apply View in I'. destruct I' as [k [Nk [V K]]]. destruct (H k nd' Nk V K h Hh) as [i [c [C1 C2]]]. exists c. split; [apply Names; exists i; exact C1 | exact C2].
    + rewrite S. cbn [bind]. exists g4, cs. reflexivity.
Qed.
Lemma report_finishes demangle o start p b : wf_prog p -> fair o -> build demangle o p = Ret b ->
  names_known demangle p start -> exists g cs, report demangle o start p = Ret (g, cs).
Proof.
  intros W Fo E H. destruct (report_exact demangle o p b W Fo E) as [void [Ed [V [_ [May K]]]]]. apply K. intros k nd Nk Vk Kn. apply (H void k nd V Nk); [|exact Kn].
  intros s r Es D. exact (leads_mono Ed _ r k May (Vk s r Es D)).
Qed.
Lemma report_iff demangle o start p b : wf_prog p -> fair o -> one_void p -> start = None \/ stable p -> build demangle o p = Ret b ->
  ((exists g cs, report demangle o start p = Ret (g, cs)) <-> names_known demangle p start).
Proof.
  intros W Fo Ov St E. split; [|exact (report_finishes demangle o start p b W Fo E)]. destruct (report_exact demangle o p b W Fo E) as [void' [Ed [V' [Must [_ K]]]]]. rewrite (K start). intros H void k nd V Nk Vk Kn.
  assert (void' = void). { destruct void as [v|], void' as [v'|]; [f_equal; exact (Ov _ _ V' V) | destruct (V' _ V) | destruct (V _ V') | reflexivity]. } subst void'.
  apply (H k nd Nk); [|exact Kn]. intros s r Es D. destruct St as [->|St]; [discriminate Es|]. apply (leads_mono (edge p (created p) void)); [|exact (Vk s r Es D)]. intros a c X. apply Must. exact (edge_stable p void a c St X).
Qed.

(** * Iteration orders *)
Lemma reports_agree d1 d2 o1 o2 p q b1 b2 g1 g2 c1 c2 i m1 m2 : wf_prog p -> same_prog p q -> fair o1 -> fair o2 -> stable p -> one_void p -> sizes_u64 p ->
  build d1 o1 p = Ret b1 -> build d2 o2 q = Ret b2 -> max_stack true (b_g b1) = Ret (g1, c1) -> max_stack true (b_g b2) = Ret (g2, c2) ->
  i < length (pg_defined p) -> reported g1 i m1 -> reported g2 i m2 -> m1 = m2.
Proof.
  intros W S F1 F2 St O Fi E1 E2 M1 M2 Hi R1 R2.
  assert (Wq : wf_prog q).
  { constructor.
    - apply (Permutation_NoDup (Permutation_map fst (Permutation_sym (sp_defines _ _ S)))). exact (wf_defines _ W).
    - intros n d I. apply (wf_def_names _ W). exact (Permutation_in _ (sp_defines _ _ S) I).
    - apply (Permutation_NoDup (Permutation_map fst (Permutation_sym (sp_declares _ _ S)))). exact (wf_declares _ W).
    - apply (Permutation_NoDup (Permutation_map fst (Permutation_sym (sp_sizes _ _ S)))). exact (wf_sizes _ W).
    - rewrite (sp_defined _ _ S). exact (wf_addrs _ W).
    - rewrite (sp_defined _ _ S). exact (wf_names _ W). }
  destruct (build_spec _ _ _ _ W F1 E1) as [k1 [v1 [G1 _]]]. destruct (build_spec _ _ _ _ Wq F2 E2) as [k2 [v2 [G2 _]]].
  pose proof (same_graph_of _ _ _ _ _ S G2) as G2'.
  destruct (c43_same d1 d2 o1 o2 p q b1 b2 W S F1 F2 St O E1 E2) as [f [f' [K0 [K1 [K2 [K3 K4]]]]]].
  assert (RN : renumbering (b_g b1) (b_g b2) f f').
  { constructor.
    - intros v Hv. unfold node_count in *. apply nth_error_Some. rewrite (proj1 (K1 v)). apply nth_error_Some. exact Hv.
    - intros v Hv. unfold node_count in *. apply nth_error_Some. rewrite (proj2 (K1 v)). apply nth_error_Some. exact Hv.
    - exact K2.
    - exact K3.
    - intros v _. unfold local_of. rewrite (proj1 (K1 v)). reflexivity.
    - exact K4. }
  apply (renumbering_invariant (b_g b1) (b_g b2) f f' g1 g2 c1 c2 i m1 m2 (graph_wf p k1 v1 _ G1) (graph_wf q k2 v2 _ G2) (graph_u64 p k1 v1 _ G1 Fi) RN M1 M2 R1).
  rewrite (K0 i Hi). exact R2.
Qed.

(** * Counterexamples for C21 *)
Lemma label_panics : exists p b, wf_prog p /\ build idd o_id p = Ret b /\ pg_undefined p = [] /\ exists msg, report idd o_id None p = Panic msg.
Proof.
  exists p_hasher. eexists. split; [apply wf_progb_sound; vm_compute; reflexivity|]. split; [vm_compute; reflexivity|]. split; [reflexivity|]. eexists. vm_compute. reflexivity.
Qed.
Lemma extern_panics : exists p b, wf_prog p /\ build idd o_id p = Ret b /\ exists msg, report idd o_id None p = Panic msg.
Proof.
  exists p_hash_extern. eexists. split; [apply wf_progb_sound; vm_compute; reflexivity|]. split; [vm_compute; reflexivity|]. eexists. vm_compute. reflexivity.
Qed.

(** * Examples *)
Lemma body_in p i st : body p i st -> exists n d, In (n, d) (pg_defines p) /\ In st (d_stmts d).
Proof. intros [n [d [H [_ K]]]]. exists n, d. split; assumption. Qed.
Ltac each H := repeat (destruct H as [H | H]); try contradiction.
Lemma p3_wf : wf_prog p3.
Proof. apply wf_progb_sound. vm_compute. reflexivity. Qed.
Lemma p3_chosen i n : chosen p3 i n -> choose_b p3 i = Some n.
Proof.
  intros C. pose proof (live_lt p3 _ _ (chosen_live p3 _ _ C)) as L. cbn in L.
  assert (K : forall m, choose_b p3 i = Some m -> choose_b p3 i = Some n) by (intros m K; rewrite K; f_equal; exact (chosen_fun p3 _ _ _ (chosen_find _ _ _ K) C)).
  destruct i as [|[|[|[|i]]]]; try lia; eapply K; vm_compute; reflexivity.
Qed.
Lemma read_def p i : match nth_error (pg_defined p) i with Some x => existsb (fun nd => smem (fst nd) (real_names x)) (pg_defines p) = true | None => True end -> ~ unread p i.
Proof.
  intros H [L [N _]]. destruct (nth_error (pg_defined p) i) as [x|] eqn:E; [|apply nth_error_None in E; lia]. apply existsb_exists in H. destruct H as [[n d] [I K]].
  apply (N n d I). apply live_find. rewrite E. exact K.
Qed.
Lemma all_read p : forallb (fun x => existsb (fun nd => smem (fst nd) (real_names x)) (pg_defines p)) (pg_defined p) = true -> forall i, ~ unread p i.
Proof. intros H i. apply read_def. destruct (nth_error (pg_defined p) i) as [x|] eqn:E; [|exact I]. apply nth_error_In in E. rewrite forallb_forall in H. exact (H x E). Qed.
Lemma p3_covered : covered p3.
Proof.
  intros i. constructor.
  - intros _ j L. exfalso. apply live_find in L. destruct j as [|[|[|[|j]]]]; try (vm_compute in L; discriminate L). cbn [nth_error pg_defined p3] in L. destruct j; exact L.
  - intros f j B L. apply body_in in B. destruct B as [n [d [I K]]]. cbn in I. each I; injection I as <- <-; cbn in K; each K; try discriminate K. injection K as <-.
    apply live_find in L. destruct j as [|[|[|[|j]]]]; try (vm_compute in L; discriminate L); [|cbn [nth_error pg_defined p3] in L; destruct j; destruct L]. apply chosen_find. vm_compute. reflexivity.
  - intros _ f n j B I L. exfalso. apply body_in in B. destruct B as [m [d [K1 K2]]]. cbn in K1. each K1; injection K1 as <- <-; cbn in K2; each K2; try discriminate K2; injection K2 as <-; inversion I; discriminate.
  - intros s' j s r _ [ns [n [_ [_ [_ []]]]]].
  - intros [j [ns [n [N [C [K _]]]]]] s' _. exfalso. apply p3_chosen in C. destruct N as [x [N ->]].
    assert (D : forall m, In m (map fst (pg_defines p3)) -> has_def p3 m).
    { intros m I. apply in_map_iff in I. destruct I as [[m' d] [<- I]]. exists d. exact I. }
    destruct j as [|[|[|[|j]]]]; [| | | |cbn in N; destruct j; discriminate N]; cbn [nth_error pg_defined p3] in N; injection N as <-; vm_compute in C; injection C as <-;
      (match goal with K : forall m, In m ?l -> _ |- _ => let l' := eval vm_compute in l in match l' with ?n :: _ => apply (proj1 (K n ltac:(cbn; left; reflexivity))); apply D; cbn; tauto end end).
  - intros s' j s _ [n [L [[d [I ->]]|[]]]] M. exists (d_sig d). split; [|exact M]. left. exists [n], n, d. apply live_find in L.
    split; [|split; [apply first_here; exists d; exact I|]; split; [exact I | reflexivity]].
    destruct j as [|[|[|[|j]]]]; cbn [nth_error pg_defined p3] in L; [..|destruct j; destruct L]; vm_compute in L; eexists; (split; [reflexivity|]); cbn in I; each I; injection I as <- <-; try discriminate L; reflexivity.
  - apply all_read. vm_compute. reflexivity.
  - intros T. discriminate T.
  - intros [[c B] _]. apply body_in in B. destruct B as [n [d [I K]]]. cbn in I. each I; injection I as <- <-; cbn in K; each K; discriminate K.
Qed.
Lemma p3_fits : fits p3.
Proof.
  exists (fun i => nth i [8; 16; 24; 2]%N 0%N). split; [|vm_compute; reflexivity]. intros i k U.
  assert (L : llvm_size p3 i (Some k)) by (inversion U; try assumption; match goal with A : analysed _ _ _ _ _ |- _ => destruct A as [A _]; discriminate A end).
  destruct L as [n [C I]]. apply p3_chosen in C. destruct i as [|[|[|[|i]]]]; vm_compute in C; try (destruct i; discriminate C); injection C as <-; cbn in I; each I; try discriminate I; injection I as <-; reflexivity.
Qed.
Lemma p3_report : exists g cs nd, report idd o_id None p3 = Ret (g, cs) /\ nth_error (gnodes g) 0 = Some nd /\ nmax nd = Some (MExact 32).
Proof. eexists. eexists. eexists. split; [vm_compute; reflexivity|]. split; reflexivity. Qed.
Lemma p3_runs : runs p3 0 [0; 2] /\ depth p3 [0; 2] 32.
Proof.
  split.
  - apply runs_call with 2; [|constructor; cbn; lia]. apply iv_pointer with bin bin; [body_tac | apply typed_bears | apply sig_loose_iff; reflexivity]. left. eexists. exists (lit "bar"). eexists. split; [eexists; split; reflexivity|].
    split; [apply first_here; eexists; cbn; right; right; left; reflexivity|]. split; [cbn; right; right; left; reflexivity | reflexivity].
  - change 32%N with (8 + (24 + 0))%N. constructor; [|constructor; [|constructor]].
    + apply us_llvm; [left; reflexivity|]. exists (lit "main"). split; [apply chosen_find; vm_compute; reflexivity | cbn; left; reflexivity].
    + apply us_llvm; [left; reflexivity|]. exists (lit "bar"). split; [apply chosen_find; vm_compute; reflexivity | cbn; right; right; left; reflexivity].
Qed.
Lemma odd_chosen i n : chosen p_odd i n -> choose_b p_odd i = Some n.
Proof.
  intros C. pose proof (live_lt p_odd _ _ (chosen_live p_odd _ _ C)) as L. cbn in L.
  assert (K : forall m, choose_b p_odd i = Some m -> choose_b p_odd i = Some n) by (intros m K; rewrite K; f_equal; exact (chosen_fun p_odd _ _ _ (chosen_find _ _ _ K) C)).
  destruct i as [|[|[|[|i]]]]; [eapply K; vm_compute; reflexivity ..|lia].
Qed.
Lemma odd_example : wf_prog p_odd /\ ~ covered p_odd /\
  (exists b g cs nd, build idd o_id p_odd = Ret b /\ finish idd None b = Ret (g, cs) /\ nth_error (gnodes g) 0 = Some nd /\ nmax nd = Some (MExact 24) /\ fits p_odd) /\
  runs p_odd 0 [0; 1] /\ runs_noticed p_odd 0 [0; 1] /\ (forall x, In x [0; 1] -> covered_fn p_odd x) /\ depth p_odd [0; 1] 24.
Proof.
  assert (Dc : body p_odd 0 (DirectCall (lit "leaf"))) by body_tac. assert (Lv : live p_odd (lit "leaf") 1) by live_tac.
  assert (Bo : forall x st, x < 2 -> body p_odd x st -> x = 0 /\ st = DirectCall (lit "leaf")).
  { intros x st L B. destruct B as [n [d [I [C K]]]]. apply live_find in C. destruct x as [|[|x]]; [| | lia]; cbn in I; each I; injection I as <- <-; try (vm_compute in C; discriminate C); cbn in K; each K; split; [reflexivity | now symmetry]. }
  split; [apply wf_progb_sound; vm_compute; reflexivity|]. split; [|split; [|split; [|split; [|split]]]].
  - intros Cv. assert (C : chosen p_odd 3 (lit "alias")) by (apply (cv_cast _ _ (Cv 2)); [eexists; eexists; split; [cbn; right; right; left; reflexivity | split; [live_tac | cbn; tauto]] | live_tac]). apply odd_chosen in C. vm_compute in C. discriminate C.
  - eexists. eexists. eexists. eexists. split; [vm_compute; reflexivity|]. split; [vm_compute; reflexivity|]. split; [reflexivity|]. split; [reflexivity|].
    exists (fun i => nth i [8; 16; 4; 1]%N 0%N). split; [|vm_compute; reflexivity]. intros i k U.
    assert (L : llvm_size p_odd i (Some k)) by (inversion U; try assumption; match goal with A : analysed _ _ _ _ _ |- _ => destruct A as [A _]; discriminate A end).
    destruct L as [n [C I]]. apply odd_chosen in C. destruct i as [|[|[|[|i]]]]; vm_compute in C; try (destruct i; discriminate C); injection C as <-; cbn in I; each I; try discriminate I; injection I as <-; reflexivity.
  - apply runs_call with 1; [|constructor; cbn; lia]. apply iv_direct with (lit "leaf"); [exact Dc | | exact Lv]. intros [r K]. discriminate K.
  - apply rn_call with 1; [|constructor; cbn; lia]. apply nt_direct with (lit "leaf"); [exact Dc | intros [r K]; discriminate K | exact Lv | discriminate].
  - assert (Cf : forall x, x < 2 -> covered_fn p_odd x).
    { intros x Lx. constructor.
      - intros B. destruct (Bo x _ Lx B) as [_ K]. discriminate K.
      - intros f j B. destruct (Bo x _ Lx B) as [_ K]. discriminate K.
      - intros _ f n j B I L. destruct (Bo x _ Lx B) as [_ K]. injection K as ->. inversion I; discriminate.
      - intros s' j s r B. destruct (Bo x _ Lx B) as [_ K]. discriminate K.
      - intros _ s' B. destruct (Bo x _ Lx B) as [_ K]. discriminate K.
      - intros s' j s B. destruct (Bo x _ Lx B) as [_ K]. discriminate K.
      - apply read_def. destruct x as [|[|x]]; [vm_compute; reflexivity.. | lia].
      - intros T. discriminate T.
      - intros [[c B] _]. destruct (Bo x _ Lx B) as [_ K]. discriminate K. }
    intros x [<- | [<- | []]]; apply Cf; lia.
  - change 24%N with (8 + (16 + 0))%N. constructor; [|constructor; [|constructor]].
    + apply us_llvm; [left; reflexivity|]. exists (lit "main"). split; [apply chosen_find; vm_compute; reflexivity | cbn; left; reflexivity].
    + apply us_llvm; [left; reflexivity|]. exists (lit "leaf"). split; [apply chosen_find; vm_compute; reflexivity | cbn; right; left; reflexivity].
Qed.
Lemma p3_sizes : sizes_u64 p3.
Proof. apply Forall_u64. vm_compute. reflexivity. Qed.
Lemma orders_example : wf_prog p3 /\ same_prog p3 p3' /\ pg_defines p3 <> pg_defines p3' /\ stable p3 /\ one_void p3 /\ sizes_u64 p3 /\
  exists b1 b2, build idd o_id p3 = Ret b1 /\ build idd o_rev p3' = Ret b2 /\ gedges (b_g b1) <> gedges (b_g b2).
Proof.
  split; [exact p3_wf|]. split; [|split; [discriminate|split; [|split; [|split; [exact p3_sizes|]]]]].
  - constructor; try reflexivity; symmetry; apply Permutation_rev.
  - assert (N : forall n, ~ created p3 n).
    { intros n [[i [B [_ [_ K]]]] | [i [B K]]].
      - apply body_in in B. destruct B as [m [d [I J]]]. cbn in I. each I; injection I as <- <-; cbn in J; each J; try discriminate J; injection J as <-.
        + apply (K 1). live_tac.
        + apply (K 3). live_tac.
      - apply body_in in B. destruct B as [m [d [I J]]]. cbn in I. each I; injection I as <- <-; cbn in J; each J; try discriminate J; injection J as <-. apply (K 3). apply chosen_find. vm_compute. reflexivity. }
    intros n C. destruct (N n C).
  - intros v w [V _]. exfalso. destruct V as [j [[ns [n [d [_ [_ [I E]]]]]] | [ns [n [_ [_ [_ []]]]]]]]. cbn in I. each I; injection I as <- <-; discriminate E.
  - eexists. eexists. split; [vm_compute; reflexivity|]. split; [vm_compute; reflexivity|]. cbn. discriminate.
Qed.
Lemma untyped_example : wf_prog p_untyped /\ untyped p_untyped /\ calls_sig p_untyped 0 bin /\
  exists b g cs, build idd o_id p_untyped = Ret b /\ max_stack true (b_g b) = Ret (g, cs) /\ reported g 0 (MLower 24).
Proof.
  split; [apply wf_progb_sound; vm_compute; reflexivity|]. split; [|split].
  - exists 2. eexists. exists (lit "asm_fn"). split; [eexists; split; reflexivity|]. split; [apply chosen_find; vm_compute; reflexivity|]. split.
    + intros m [<- | []]. split; [intros [d H]; cbn in H; each H; discriminate H | intros [d []]].
    + intros H. apply outlined_spec in H. discriminate H.
  - split; [|exists bin; split; [body_tac | apply sig_loose_iff; reflexivity]]. exists 1. left. eexists. exists (lit "foo"). eexists. split; [eexists; split; reflexivity|].
    split; [apply first_here; eexists; cbn; right; left; reflexivity|]. split; [cbn; right; left; reflexivity | reflexivity].
  - eexists. eexists. eexists. split; [vm_compute; reflexivity|]. split; [vm_compute; reflexivity|]. eexists. split; reflexivity.
Qed.
Lemma names_example : wf_prog p3 /\ one_void p3 /\ names_known idd p3 None /\ ~ names_known idd p_hasher None.
Proof.
  destruct orders_example as [W [_ [_ [_ [Ov [_ [b [_ [B _]]]]]]]]]. split; [exact W|]. split; [exact Ov|]. split.
  - apply (proj1 (report_iff idd o_id None p3 b W o_id_fair Ov (or_introl eq_refl) B)). destruct p3_report as [g [cs [nd [R _]]]]. exists g, cs. exact R.
  - intros K. assert (Wh : wf_prog p_hasher) by (apply wf_progb_sound; vm_compute; reflexivity).
    assert (E : exists b, build idd o_id p_hasher = Ret b) by (eexists; vm_compute; reflexivity). destruct E as [bh E].
    destruct (report_finishes idd o_id None p_hasher bh Wh o_id_fair E K) as [g [cs R]]. vm_compute in R. discriminate R.
Qed.
(** Function `feed` has the name `eat::h0123456789abcdef`. *)
Definition hashed (n : str) : str := if str_eqb n (lit "feed") then lit "eat::h0123456789abcdef" else n.
Lemma start_example : wf_prog p_hasher /\ one_void p_hasher /\ stable p_hasher /\ denotes idd p_hasher (lit "feed") (KReal 1) /\ denotes hashed p_hasher (lit "eat") (KReal 1) /\
  names_known idd p_hasher (Some (lit "feed")) /\ ~ names_known idd p_hasher None.
Proof.
  assert (W : wf_prog p_hasher) by (apply wf_progb_sound; vm_compute; reflexivity).
  assert (C1 : chosen p_hasher 1 (lit "feed")) by (apply chosen_find; vm_compute; reflexivity).
  assert (C0 : chosen p_hasher 0 (lit "main")) by (apply chosen_find; vm_compute; reflexivity).
  assert (No : forall n, ~ created p_hasher n).
  { intros n [[i [B _]]|[i [B _]]]; apply body_in in B; destruct B as [m [d [I J]]]; cbn in I; each I; injection I as <- <-; cbn in J; each J; discriminate J. }
  assert (Sh : forall n, shown_name p_hasher n -> n = lit "main" \/ n = lit "feed").
  { intros n [[i C]|C]; [|destruct (No _ C)]. pose proof (live_lt _ _ _ (chosen_live _ _ _ C)) as L. cbn in L. destruct i as [|[|i]]; [left; exact (chosen_fun _ _ _ _ C C0) | right; exact (chosen_fun _ _ _ _ C C1) | lia]. }
  assert (Ov : one_void p_hasher) by (intros v w [V _]; exfalso; destruct V as [j [[ns [n [d [_ [_ [I E]]]]]] | [ns [n [_ [_ [_ []]]]]]]]; cbn in I; each I; injection I as <- <-; discriminate E).
  assert (St : stable p_hasher) by (intros n C; destruct (No n C)).
  split; [exact W|]. split; [exact Ov|]. split; [exact St|]. split; [|split; [|split]].
  - exists (lit "feed"). split; [left; split; [left; exists 1; exact C1 | reflexivity] | left; exists 1; split; [exact C1 | reflexivity]].
  - exists (lit "feed"). split; [|left; exists 1; split; [exact C1 | reflexivity]]. right. split; [intros K; destruct (Sh _ K) as [X|X]; discriminate X|].
    intros m. split.
    + intros [K [r H]]. destruct (Sh _ K) as [->| ->]; [discriminate H | reflexivity].
    + intros ->. split; [left; exists 1; exact C1 | exists (lit "0123456789abcdef"); reflexivity].
  - assert (E : exists b, build idd o_id p_hasher = Ret b) by (eexists; vm_compute; reflexivity). destruct E as [b E].
    apply (report_iff idd o_id (Some (lit "feed")) p_hasher b W o_id_fair Ov (or_intror St) E). eexists. eexists. vm_compute. reflexivity.
  - apply names_example.
Qed.
