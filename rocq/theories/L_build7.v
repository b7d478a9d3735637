(** What the tool checked if the construction of the graph finished; C37-C45. *)
From Coq Require Import Permutation.
From Verif Require Import M_base M_stack M_graph M_analysis M_filter M_names M_thumb M_ty M_parse M_build S_names S_graph S_sig S_build L_base L_names L_ir2 L_maxprops L_trav L_build1 L_build2 L_build3 L_build4 L_build5 L_build6.

Lemma ofold_all {S X} (f : S -> X -> outcome S) l : forall s s', ofold f l s = Ret s' -> forall x, In x l -> exists s1 s2, f s1 x = Ret s2.
Proof.
  induction l as [|y l IH]; intros s s' E x I; [destruct I|]. cbn [ofold] in E. destruct (bind_inv _ _ _ E) as [s1 [E1 E2]].
  destruct I as [<- | I]; [exists s, s1; exact E1 | exact (IH s1 s' E2 x I)].
Qed.

Section Checked.
Variables (demangle : str -> str) (o : orders) (p : prog) (b : built).
Hypothesis (W : wf_prog p) (Fo : fair o) (E : build demangle o p = Ret b).

Lemma checked_code i : is_thumb (pg_target p) = true -> pg_text p <> None -> i < length (pg_defined p) ->
  exists addr size a, analysed p i addr size a /\
    (forall off, In off (bls a) -> exists j, at_address p j (bl_target addr off)) /\
    (forall off, In off (bs a) -> leaves addr size (b_target addr off) -> exists j, at_address p j (b_target addr off)).
Proof.
  intros T Tx Hi. unfold build in E. destruct (bind_inv _ _ _ E) as [dm [_ E0]]. destruct (bind_inv _ _ _ E0) as [n [E1 E']]. destruct (bind_inv _ _ _ E') as [e [E2 E'']]. destruct (bind_inv _ _ _ E'') as [g [E3 _]].
  pose proof (real_nodes_spec _ _ _ W E1) as R. unfold machine_edges in E3. rewrite T in E3. destruct (pg_text p) as [[stext text]|] eqn:Et; [|exfalso; exact (Tx eq_refl)].
  destruct (bind_inv _ _ _ E3) as [x [E4 _]]. destruct (nth_error (pg_defined p) i) as [s|] eqn:Es; [|apply nth_error_None in Es; lia].
  destruct (ofold_all _ _ _ _ E4 s (nth_error_In _ _ Es)) as [x1 [x2 E5]]. clear E4 E3. unfold exec_code in E5.
  destruct (sy_names (snd s)) as [|name rest]; [discriminate E5|]. destruct (sget (n_aliases n) name) as [c|]; [|discriminate E5].
  destruct (bind_inv _ _ _ E5) as [size [F1 E6]]. clear E5. destruct (bind_inv _ _ _ E6) as [code [F2 E5]]. clear E6. destruct (bind_inv _ _ _ E5) as [a [F3 E6]]. clear E5.
  destruct (sget (e_indices e) c) as [caller|]; [|discriminate E6]. destruct x1 as [g1 seen].
  destruct (bind_inv _ _ _ E6) as [l1 [_ E5]]. clear E6. destruct (bind_inv _ _ _ E5) as [l2 [_ E6]]. clear E5. cbv zeta in E6. destruct (bind_inv _ _ _ E6) as [y [F4 F5]]. clear E6.
  exists (fst s mod 2 ^ 32)%N, size, a. split; [|split].
  - split; [exact T|]. exists stext, text, s, code. split; [exact Et|]. split; [exact Es|]. split; [reflexivity|]. split; [apply code_size_iff; exact F1|]. split; [apply slice_iff; exact F2 | exact F3].
  - intros off I. destruct (ofold_all _ _ _ _ F4 off I) as [s1 [s2 F6]]. unfold add_bl in F6. destruct (bind_inv _ _ _ F6) as [callee [F7 _]]. unfold node_at in F7.
    destruct (bget (n_addr2name n) (bl_addr (fst s mod 2 ^ 32) off)) as [nm|] eqn:Eb; [|discriminate F7]. apply (rn_addr _ _ _ _ R) in Eb. rewrite upto_all in Eb.
    destruct Eb as [j [J _]]. exists j. exact J.
  - intros off I Lv. destruct (ofold_all _ _ _ _ F5 off I) as [s1 [s2 F6]]. unfold add_b in F6. cbv zeta in F6.
    destruct ((_ <=? _) && (_ <? _))%N eqn:El.
    + exfalso. apply andb_prop in El. destruct El as [L1 L2]. apply N.leb_le in L1. apply N.ltb_lt in L2. unfold leaves, b_target, b_addr in *. destruct Lv as [Lv | Lv]; lia.
    + destruct (bind_inv _ _ _ F6) as [callee [F7 _]]. unfold node_at in F7.
      destruct (bget (n_addr2name n) (b_addr (fst s mod 2 ^ 32) off)) as [nm|] eqn:Eb; [|discriminate F7]. apply (rn_addr _ _ _ _ R) in Eb. rewrite upto_all in Eb.
      destruct Eb as [j [J _]]. exists j. exact J.
Qed.

Lemma checked_body i st : body p i st ->
  match st with
  | BitcastCall n => n <> None
  | DirectCall f => (~ intrinsic f -> (exists j, live p f j) \/ In f (pg_undefined p) \/ f = memcmp) /\
                    (is_thumb (pg_target p) = false -> intrinsic f -> lowered f \/ no_call f)
  | _ => True
  end.
Proof.
  intros [n0 [d [I [L I2]]]]. unfold build in E. destruct (bind_inv _ _ _ E) as [dm [_ E0]]. destruct (bind_inv _ _ _ E0) as [n [E1 E']]. destruct (bind_inv _ _ _ E') as [e [E2 _]].
  pose proof (real_nodes_spec _ _ _ W E1) as R. unfold ir_edges in E2. destruct (ofold_all _ _ _ _ E2 d) as [s1 [s2 E3]]; [exact (in_map snd _ _ I)|].
  unfold exec_define in E3. rewrite <- (wf_def_names _ W _ _ I) in E3. destruct (live_chosen p _ _ L) as [c C].
  rewrite (proj2 (rn_aliases _ _ _ _ R n0 c)) in E3 by (rewrite upto_all; exists i; split; assumption). cbv zeta in E3.
  destruct (sget (e_indices _) c) as [caller|]; [|discriminate E3]. destruct (ofold_all _ _ _ _ E3 st I2) as [s3 [s4 E4]]. clear E3 E2.
  destruct st as [|[sym|]|f| | | |]; try exact Logic.I; [intros X; discriminate X | discriminate E4|]. cbn [exec_stmt] in E4. split.
  - intros NI. destruct (classify (is_thumb (pg_target p)) f) eqn:Ec; try (exfalso; apply NI; apply (classify_intrinsic (is_thumb (pg_target p))); rewrite Ec; discriminate).
    destruct (str_eqb f (lit "memcmp")) eqn:Em; [right; right; apply str_eqb_eq; exact Em|]. cbn [andb] in E4. destruct (bind_inv _ _ _ E4) as [x [E5 _]].
    destruct (sget (n_aliases n) f) as [k|] eqn:Ea.
    + left. apply (rn_aliases _ _ _ _ R) in Ea. rewrite upto_all in Ea. destruct Ea as [j [Lj _]]. exists j. exact Lj.
    + right. left. destruct (smem f (pg_undefined p)) eqn:Eu; [apply smem_In; exact Eu | discriminate E5].
  - intros T IF. rewrite T in E4. destruct (classify false f) as [|names| |] eqn:Ec.
    + right. unfold classify in Ec. unfold no_call.
      repeat match type of Ec with context [if ?b then _ else _] => destruct b eqn:?H end; try discriminate;
        repeat match goal with H : (_ && _)%bool = true |- _ => apply andb_prop in H; destruct H | H : (_ || _)%bool = true |- _ => apply orb_prop in H; destruct H end; try discriminate.
      * left. apply smem_In in H. cbn [In map] in *. tauto.
      * right. apply starts_with_app in H0. destruct H0 as [r ->]. exists "llvm.lifetime.start"%string, r. split; [reflexivity | cbn [In]; tauto].
      * right. apply starts_with_app in H0. destruct H0 as [r ->]. exists "llvm.lifetime.end"%string, r. split; [reflexivity | cbn [In]; tauto].
      * right. apply existsb_exists in H4. destruct H4 as [pre [I3 S]]. apply starts_with_app in S. destruct S as [r ->]. unfold lowered_prefixes in I3. apply in_map_iff in I3. destruct I3 as [pre' [<- I3]].
        exists pre', r. split; [reflexivity|]. right. right. exact I3.
      * left. apply str_eqb_eq in H4. subst f. cbn [In map]. tauto.
      * left. apply str_eqb_eq in H5. subst f. cbn [In map]. tauto.
    + left. destruct (classify_mem _ _ _ Ec) as [_ L']. destruct names as [|m names]; [|exists m; apply L'; left; reflexivity]. exfalso. clear - Ec. unfold classify in Ec.
      repeat match type of Ec with context [if ?b then _ else _] => destruct b eqn:?H end; discriminate Ec.
    + discriminate E4.
    + exfalso. exact (classify_function _ _ Ec IF).
Qed.

Lemma c37_edge i f j : body p i (DirectCall f) -> ~ intrinsic f -> live p f j -> (f = memcmp -> chosen p j f) -> In (i, j) (gedges (b_g b)).
Proof.
  intros B N L M. destruct (build_spec _ _ _ _ W Fo E) as [ks [void [G _]]]. apply (must_real p ks void _ G).
  eapply ed_direct; [exact B | exact N | exact L|]. intros X. left. exact (M X).
Qed.
Lemma c37_extern i f : body p i (DirectCall f) -> ~ intrinsic f -> (forall j, ~ live p f j) -> f <> memcmp ->
  In f (pg_undefined p) /\ exists v, In (i, v) (gedges (b_g b)) /\ nth_error (gnodes (b_g b)) v = Some (mkNode f LUnknown None false).
Proof.
  intros B N L M. split.
  - destruct (proj1 (checked_body _ _ B) N) as [[j K] | [K | K]]; [exfalso; exact (L j K) | exact K | exfalso; exact (M K)].
  - destruct (build_spec _ _ _ _ W Fo E) as [ks [void [G _]]]. destruct (must_from p ks void _ G i (KSym f)) as [v [V1 V2]].
    { apply ed_extern; assumption. }
    exists v. split; [exact V2|]. destruct (show_at _ _ _ _ G _ _ V1) as [nd [X1 X2]]. inversion X2; subst. exact X1.
Qed.
Lemma c38_reason i j : i < length (pg_defined p) -> j < length (pg_defined p) -> In (i, j) (gedges (b_g b)) -> reason p i j.
Proof. intros Hi Hj I. destruct (build_spec _ _ _ _ W Fo E) as [ks [void [G _]]]. exact (may_real p ks void _ G i j I Hi Hj). Qed.
Lemma c39_once : nocast_p p -> NoDup (gedges (b_g b)).
Proof. destruct (build_spec _ _ _ _ W Fo E) as [ks [void [_ [H _]]]]. exact H. Qed.
Lemma c40_path i s' s j : body p i (IndirectCall s') -> sig_matches s s' -> typed p j s ->
  (typed_by_def p j s \/ forall r, s <> fmt_sig (TAlias r)) ->
  exists d nd, In (i, d) (gedges (b_g b)) /\ In (d, j) (gedges (b_g b)) /\ nth_error (gnodes (b_g b)) d = Some nd /\ ndashed nd = true.
Proof.
  intros B L T D. destruct (build_spec _ _ _ _ W Fo E) as [ks [void [G _]]]. apply (pointer_path p ks void _ G i s' s j B L).
  - unfold pointee. destruct D as [D | D].
    + assert (X : (exists v, void = Some v /\ s = fmt_sig (TAlias v)) \/ (forall v, void = Some v -> s <> fmt_sig (TAlias v))).
      { destruct void as [v|]; [|right; intros v X; discriminate X]. destruct (sig_eqb s (fmt_sig (TAlias v))) eqn:Es.
        - left. exists v. split; [reflexivity|]. apply sig_eqb_eq. exact Es.
        - right. intros v' X Y. injection X as <-. apply sig_eqb_eq in Y. congruence. }
      destruct X as [[v [-> ->]] | X]; [left; exists v; split; [reflexivity | split; [reflexivity|]]; exists (TAlias v); exact D | right; split; [exact X | exact T]].
    + right. split; [intros v _; apply D | exact T].
  - exists j. exact T.
Qed.
Lemma reach_star (g : graph node) u i j : reach g u i -> calls g i j -> reach g u j.
Proof. intros R C. exact (star_snoc _ _ _ _ R C). Qed.
Lemma c41_inexact i s u g' cs m : untyped p -> calls_sig p i s -> reach (b_g b) u i -> max_stack true (b_g b) = Ret (g', cs) -> reported g' u m -> ~ exact m.
Proof.
  intros U C R M Rp X. destruct (build_spec _ _ _ _ W Fo E) as [ks [void [G _]]]. destruct (unknown_callee p ks void _ G i s C U) as [d [x [D1 [D2 D3]]]].
  pose proof (proj1 (exact_iff _ _ _ _ _ (graph_wf p ks void _ G) M Rp) X) as [K _].
  destruct (K x) as [k Kk]; [exact (reach_star _ _ _ _ (reach_star _ _ _ _ R D1) D2)|]. unfold known, unknown in *. congruence.
Qed.
Lemma c42_nodes : (forall i, i < length (pg_defined p) -> exists n l, nth_error (gnodes (b_g b)) i = Some (mkNode n l None false) /\ chosen p i n /\ usage p i l /\ sget (b_indices b) n = Some i) /\
  (forall i nd, nth_error (gnodes (b_g b)) i = Some nd -> length (pg_defined p) <= i ->
     (created p (nname nd) /\ nlocal nd = LUnknown) \/ (nname nd = lit "?" /\ nlocal nd = LUnknown) \/ (ndashed nd = true /\ nlocal nd = LExact 0)) /\
  (forall n i, sget (b_indices b) n = Some i -> exists nd, nth_error (gnodes (b_g b)) i = Some nd /\ nname nd = n).
Proof.
  destruct (build_spec _ _ _ _ W Fo E) as [ks [void [G [_ [Hc [Hi _]]]]]]. split; [|split].
  - intros i Hi'. destruct (show_at _ _ _ _ G _ _ (go_real _ _ _ _ G i Hi')) as [nd [X1 X2]]. inversion X2; subst. exists n, l. split; [exact X1|]. split; [assumption|]. split; [assumption|]. apply Hc. assumption.
  - intros i nd X Y. destruct (key_at _ _ _ _ G _ _ X) as [k [K1 K2]]. pose proof (proj1 (go_nodes _ _ _ _ G k) (nth_error_In _ _ K1)) as Nk. inversion K2; subst; cbn [nname nlocal ndashed].
    + exfalso. pose proof (real_idx p ks void _ G _ _ K1). pose proof (real_lt p ks void _ G _ _ K1). lia.
    + left. split; [inversion Nk; assumption | reflexivity].
    + right. left. split; reflexivity.
    + right. right. split; reflexivity.
    + right. left. split; reflexivity.
  - intros n i X. apply Hi in X. destruct X as [[j [C K]] | K]; destruct (show_at _ _ _ _ G _ _ K) as [nd [X1 X2]]; exists nd; (split; [exact X1|]); inversion X2; subst; cbn [nname].
    + match goal with A : chosen p j n0, B : chosen p j n |- _ => exact (chosen_fun p _ _ _ A B) | A : chosen p j n |- chosen p j _ => idtac | _ => idtac end.
    + reflexivity.
Qed.
Lemma c44_bl i addr size a off : analysed p i addr size a -> (In off (bls a) -> exists j, at_address p j (bl_target addr off) /\ In (i, j) (gedges (b_g b))) /\
  (In off (bs a) -> leaves addr size (b_target addr off) -> exists j, at_address p j (b_target addr off) /\ In (i, j) (gedges (b_g b))).
Proof.
  intros A. destruct (build_spec _ _ _ _ W Fo E) as [ks [void [G _]]].
  assert (Hi : i < length (pg_defined p)) by (destruct A as [_ [x1 [x2 [x3 [x4 [_ [K _]]]]]]]; apply nth_error_Some; rewrite K; discriminate).
  assert (T : is_thumb (pg_target p) = true) by apply A. assert (Tx : pg_text p <> None) by (destruct A as [_ [x1 [x2 [x3 [x4 [K _]]]]]]; rewrite K; discriminate).
  destruct (checked_code i T Tx Hi) as [addr' [size' [a' [A' [B1 B2]]]]]. destruct (analysed_fun p i _ _ _ _ _ _ A A') as [<- [<- <-]]. split.
  - intros I. destruct (B1 off I) as [j J]. exists j. split; [exact J|]. apply (must_real p ks void _ G). apply ed_code. exists addr, size, a. split; [exact A|]. left. exists off. split; [exact I | exact J].
  - intros I Lv. destruct (B2 off I Lv) as [j J]. exists j. split; [exact J|]. apply (must_real p ks void _ G). apply ed_code. exists addr, size, a. split; [exact A|]. right. exists off. split; [exact I | split; [exact J | exact Lv]].
Qed.
Lemma c45_rule i n addr size a : chosen p i n -> analysed p i addr size a -> exists l, nth_error (gnodes (b_g b)) i = Some (mkNode n l None false) /\
  (forall m, In (n, m) (pg_sizes p) ->
     match stack a with
     | Some k => (k = m /\ l = LExact m) \/ (k <> m /\ has_asm p i /\ l = LExact k) \/ (k <> m /\ m = 0%N /\ outlined_name n /\ l = LExact k) \/
                 (k <> m /\ m <> 0%N /\ outlined_name n /\ ~ has_asm p i /\ l = LExact m)
     | None => l = LExact m
     end) /\
  (~ sized p n -> match stack a with Some k => l = LExact k | None => l = if modifies_sp a then LUnknown else LExact 0 end).
Proof.
  intros C A. destruct (build_spec _ _ _ _ W Fo E) as [ks [void [G _]]]. pose proof (live_lt p _ _ (chosen_live p _ _ C)) as Hi.
  destruct (show_at _ _ _ _ G _ _ (go_real _ _ _ _ G i Hi)) as [nd [X1 X2]]. inversion X2 as [i' n' l C' U| | | |]; subst. rewrite (chosen_fun p _ _ _ C' C) in X1. exists l. split; [exact X1|].
  assert (NA : is_thumb (pg_target p) = false \/ pg_text p = None -> False).
  { destruct A as [A1 [st [tx [z [c [B _]]]]]]. intros [T | T]; congruence. }
  assert (Out : outlined p i -> outlined_name n) by (intros [n2 [C2 O2]]; rewrite (chosen_fun p _ _ _ C C2); exact O2).
  assert (LL : forall m, In (n, m) (pg_sizes p) -> llvm_size p i (Some m)) by (intros m I; exists n; split; assumption).
  assert (LN : ~ sized p n -> llvm_size p i None) by (intros I; exists n; split; assumption).
  destruct U; try (exfalso; apply NA; assumption);
    match goal with A' : analysed p i _ _ _ |- _ => destruct (analysed_fun p i _ _ _ _ _ _ A A') as [<- [<- <-]] end;
    match goal with K : stack a = _ |- _ => rewrite K end;
    (split; [intros m' I; pose proof (LL m' I) as Lm | intros I; pose proof (LN I) as Lm]);
    match goal with K : llvm_size p i ?x, K' : llvm_size p i ?y |- _ => let Q := fresh "Q" in assert (Q : x = y) by exact (llvm_size_fun p i _ _ W K K'); try discriminate Q; try (injection Q as Q; subst) end;
    try reflexivity; try (match goal with K : modifies_sp a = _ |- _ => rewrite K end; reflexivity).
  - left. split; reflexivity.
  - right. left. repeat split; assumption.
  - right. right. left. split; [assumption|]. split; [reflexivity|]. split; [apply Out; assumption | reflexivity].
  - right. right. right. split; [assumption|]. split; [assumption|]. split; [apply Out; assumption|]. split; [assumption | reflexivity].
Qed.
Lemma c56_cast i f j : body p i (BitcastCall (Some f)) -> chosen p j f -> In (i, j) (gedges (b_g b)).
Proof. intros B C. destruct (build_spec _ _ _ _ W Fo E) as [ks [void [G _]]]. apply (must_real p ks void _ G). eapply ed_cast; eassumption. Qed.
Lemma c57_mem i f n j : is_thumb (pg_target p) = false -> body p i (DirectCall f) -> lowers f n -> chosen p j n -> In (i, j) (gedges (b_g b)).
Proof. intros T B L C. destruct (build_spec _ _ _ _ W Fo E) as [ks [void [G _]]]. apply (must_real p ks void _ G). eapply ed_mem; eassumption. Qed.
End Checked.

Lemma c43_same d1 d2 o1 o2 p q b1 b2 : wf_prog p -> same_prog p q -> fair o1 -> fair o2 -> stable p -> one_void p ->
  build d1 o1 p = Ret b1 -> build d2 o2 q = Ret b2 -> same_graph (length (pg_defined p)) (b_g b1) (b_g b2).
Proof.
  intros W S F1 F2 St O E1 E2.
  assert (Wq : wf_prog q).
  { constructor.
    - apply (Permutation_NoDup (Permutation_map fst (Permutation_sym (sp_defines _ _ S)))). exact (wf_defines _ W).
    - intros n d I. apply (wf_def_names _ W). exact (Permutation_in _ (sp_defines _ _ S) I).
    - apply (Permutation_NoDup (Permutation_map fst (Permutation_sym (sp_declares _ _ S)))). exact (wf_declares _ W).
    - apply (Permutation_NoDup (Permutation_map fst (Permutation_sym (sp_sizes _ _ S)))). exact (wf_sizes _ W).
    - rewrite (sp_defined _ _ S). exact (wf_addrs _ W).
    - rewrite (sp_defined _ _ S). exact (wf_names _ W). }
  destruct (build_spec _ _ _ _ W F1 E1) as [k1 [v1 [G1 _]]]. destruct (build_spec _ _ _ _ Wq F2 E2) as [k2 [v2 [G2 _]]].
  pose proof (same_graph_of _ _ _ _ _ S G2) as G2'. rewrite <- (void_same p _ _ _ _ _ _ O G1 G2') in G2'. exact (graphs_same p k1 k2 v1 _ _ W St G1 G2').
Qed.

(** * C54 *)
(** [last_of P l x]: [x] is the last element of [l] with property [P]. *)
Section Last.
Variables (A X : Type) (kv : X -> option (str * A)).
Let step (m : list (str * A)) (x : X) := match kv x with Some (k, v) => sput m k v | None => m end.
Lemma put_fold_nodup l : NoDup (map fst (fold_left step l [])).
Proof.
  induction l as [|x l IH] using rev_ind; [constructor|]. rewrite fold_left_app. cbn [fold_left]. unfold step at 1. destruct (kv x) as [[k v]|]; [apply sput_nodup; exact IH | exact IH].
Qed.
Lemma put_fold_last l n v : sget (fold_left step l []) n = Some v <-> exists a x b, l = a ++ x :: b /\ kv x = Some (n, v) /\ forall y w, In y b -> kv y <> Some (n, w).
Proof.
  induction l as [|x l IH] using rev_ind.
  - split; [discriminate|]. intros [a [y [b [K _]]]]. destruct a; discriminate K.
  - rewrite fold_left_app. cbn [fold_left]. unfold step at 1. destruct (kv x) as [[k w]|] eqn:Ek.
    + rewrite sget_sput. destruct (str_eqb k n) eqn:En.
      * apply str_eqb_eq in En. subst k. split.
        -- intros K. injection K as ->. exists l, x, []. split; [reflexivity | split; [exact Ek | intros y w' []]].
        -- intros [a [y [b [K1 [K2 K3]]]]]. destruct b as [|z b] using rev_ind; [|clear IHb].
           ++ apply app_inj_tail in K1. destruct K1 as [_ <-]. congruence.
           ++ rewrite app_comm_cons, app_assoc in K1. apply app_inj_tail in K1. destruct K1 as [_ ->]. exfalso. apply (K3 z w); [apply in_or_app; right; left; reflexivity | exact Ek].
      * rewrite IH. split.
        -- intros [a [y [b [K1 [K2 K3]]]]]. exists a, y, (b ++ [x]). split; [rewrite K1, app_comm_cons, app_assoc; reflexivity|]. split; [exact K2|].
           intros z w' I K. apply in_app_or in I. destruct I as [I | [<- | []]]; [exact (K3 z w' I K)|]. rewrite Ek in K. injection K as -> ->. rewrite str_eqb_refl in En. discriminate.
        -- intros [a [y [b [K1 [K2 K3]]]]]. destruct b as [|z b] using rev_ind; [|clear IHb].
           ++ apply app_inj_tail in K1. destruct K1 as [_ <-]. rewrite Ek in K2. injection K2 as -> ->. rewrite str_eqb_refl in En. discriminate.
           ++ rewrite app_comm_cons, app_assoc in K1. apply app_inj_tail in K1. destruct K1 as [-> ->]. exists a, y, b. split; [reflexivity|]. split; [exact K2|].
              intros y' w' I. apply K3. apply in_or_app. left. exact I.
    + rewrite IH. split.
      * intros [a [y [b [K1 [K2 K3]]]]]. exists a, y, (b ++ [x]). split; [rewrite K1, app_comm_cons, app_assoc; reflexivity|]. split; [exact K2|].
        intros z w' I K. apply in_app_or in I. destruct I as [I | [<- | []]]; [exact (K3 z w' I K) | congruence].
      * intros [a [y [b [K1 [K2 K3]]]]]. destruct b as [|z b] using rev_ind; [|clear IHb].
        -- apply app_inj_tail in K1. destruct K1 as [_ <-]. congruence.
        -- rewrite app_comm_cons, app_assoc in K1. apply app_inj_tail in K1. destruct K1 as [-> ->]. exists a, y, b. split; [reflexivity|]. split; [exact K2|].
           intros y' w' I. apply K3. apply in_or_app. left. exact I.
Qed.
End Last.
Lemma fold_left_ext {A B} (f g : A -> B -> A) l : (forall a b, f a b = g a b) -> forall a, fold_left f l a = fold_left g l a.
Proof. intros H. induction l as [|b l IH]; intros a; [reflexivity|]. cbn [fold_left]. rewrite H. apply IH. Qed.

Definition kv_def (it : item) : option (str * define) := match it with IDefine d => Some (d_name d, d) | _ => None end.
Definition kv_decl (it : item) : option (str * option fnsig) := match it with IDeclare n s => Some (n, s) | _ => None end.
Lemma collect_defines_alt l : collect_defines l = fold_left (fun m x => match kv_def x with Some (k, v) => sput m k v | None => m end) l [].
Proof. unfold collect_defines. apply fold_left_ext. intros m []; reflexivity. Qed.
Lemma collect_declares_alt l : collect_declares l = fold_left (fun m x => match kv_decl x with Some (k, v) => sput m k v | None => m end) l [].
Proof. unfold collect_declares. apply fold_left_ext. intros m []; reflexivity. Qed.
Lemma collect_sizes_alt l : collect_sizes l = fold_left (fun m x => match Some (x : str * N) with Some (k, v) => sput m k v | None => m end) (concat l) [].
Proof. unfold collect_sizes. apply fold_left_ext. intros m []; reflexivity. Qed.

Lemma c54_defines items : NoDup (map fst (collect_defines items)) /\
  (forall n d, In (n, d) (collect_defines items) <-> n = d_name d /\ exists a b, items = a ++ IDefine d :: b /\ forall d', In (IDefine d') b -> d_name d' <> n).
Proof.
  rewrite collect_defines_alt. pose proof (put_fold_nodup _ _ kv_def items) as ND. split; [exact ND|]. intros n d. rewrite <- (sget_In _ _ _ ND), put_fold_last. split.
  - intros [a [x [b [K1 [K2 K3]]]]]. destruct x; try discriminate K2. injection K2 as <- ->. split; [reflexivity|]. exists a, b. split; [exact K1|].
    intros d' I K. apply (K3 (IDefine d') d' I). cbn [kv_def]. rewrite K. reflexivity.
  - intros [-> [a [b [K1 K2]]]]. exists a, (IDefine d), b. split; [exact K1|]. split; [reflexivity|]. intros y w I K. destruct y; try discriminate K. injection K as K ->. exact (K2 _ I K).
Qed.
Lemma c54_sizes objects : NoDup (map fst (collect_sizes objects)) /\
  (forall n k, In (n, k) (collect_sizes objects) <-> exists a b, concat objects = a ++ (n, k) :: b /\ forall k', ~ In (n, k') b).
Proof.
  rewrite collect_sizes_alt. pose proof (put_fold_nodup _ _ (fun x : str * N => Some x) (concat objects)) as ND. split; [exact ND|]. intros n k. etransitivity; [symmetry; exact (sget_In _ n k ND)|].
  etransitivity; [exact (put_fold_last _ _ (fun x : str * N => Some x) (concat objects) n k)|]. split.
  - intros [a [x [b [K1 [K2 K3]]]]]. injection K2 as ->. exists a, b. split; [exact K1|]. intros k' I. exact (K3 _ k' I eq_refl).
  - intros [a [b [K1 K2]]]. exists a, (n, k), b. split; [exact K1|]. split; [reflexivity|]. intros y w I K. injection K as ->. exact (K2 _ I).
Qed.

Lemma c38_spec demangle o p b : wf_prog p -> fair o -> build demangle o p = Ret b -> exists ks void, graph_of p ks void (b_g b).
Proof. intros W F E. destruct (build_spec demangle o p b W F E) as [ks [void [G _]]]. exists ks, void. exact G. Qed.
