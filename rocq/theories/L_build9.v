(** The programs for which the construction of the graph succeeds. *)
From Coq Require Import Permutation.
From Verif Require Import M_base M_stack M_graph M_analysis M_filter M_names M_thumb M_ty M_parse M_build S_names S_graph S_filter S_sig S_build L_base L_names L_build1 L_build2 L_build3 L_build4 L_build5 L_build6 L_build7.

Lemma ofold_total {S X} (f : S -> X -> outcome S) (I : S -> Prop) (G : X -> Prop) l :
  (forall s x, I s -> G x -> exists s', f s x = Ret s' /\ I s') -> (forall x, In x l -> G x) -> forall s, I s -> exists s', ofold f l s = Ret s' /\ I s'.
Proof.
  intros St. induction l as [|x l IH]; intros H s Is; [exists s; split; [reflexivity | exact Is]|].
  destruct (St s x Is (H x (or_introl eq_refl))) as [s1 [E1 I1]]. destruct (IH (fun y K => H y (or_intror K)) s1 I1) as [s2 [E2 I2]]. exists s2. split; [|exact I2].
  cbn [ofold]. rewrite E1. exact E2.
Qed.
Lemma no_call_class t f : no_call f -> classify t f <> CBug.
Proof.
  intros H E. unfold classify in E.
  repeat match type of E with context [if ?b then _ else _] => destruct b eqn:?H end; try discriminate.
  repeat match goal with H : (_ || _)%bool = false |- _ => apply orb_false_elim in H; destruct H end.
  destruct H as [H | [pre [r [-> H]]]].
  - cbn [In map] in H. repeat (destruct H as [<- | H]; [vm_compute in *; discriminate|]). destruct H.
  - cbn [In] in H.
    assert (L : forall q, In q lowered_prefixes -> starts_with q (lit pre ++ r) = false).
    { intros q I. match goal with K : existsb _ lowered_prefixes = false |- _ => rename K into Q end. destruct (starts_with q (lit pre ++ r)) eqn:Eq; [|reflexivity]. assert (T : existsb (fun pre0 => starts_with pre0 (lit pre ++ r)) lowered_prefixes = true) by (apply existsb_exists; exists q; split; assumption). congruence. }
    assert (SW : forall q, starts_with q (q ++ r) = true) by (intros q; induction q as [|c q IH]; [reflexivity | cbn; rewrite Ascii.eqb_refl; exact IH]).
    assert (P : lit pre = lit "llvm.lifetime.start" \/ lit pre = lit "llvm.lifetime.end" \/ In (lit pre) lowered_prefixes).
    { repeat (destruct H as [<- | H]; [first [left; reflexivity | right; left; reflexivity | right; right; unfold lowered_prefixes; apply in_map; cbn [In]; tauto]|]). destruct H. }
    destruct P as [P | [P | P]]; [| |specialize (SW (lit pre)); rewrite (L _ P) in SW; discriminate SW];
      rewrite P in *; match goal with K : starts_with (lit ?a) (lit ?a ++ r) = false |- _ => rewrite SW in K; discriminate K end.
Qed.

Section Nodes.
Variables (demangle : str -> str) (p : prog).
Lemma canonical_total ns : ns <> [] -> exists c, canonical (pg_sizes p) ns = Ret c.
Proof. intros N. destruct ns as [|a [|b ns]]; [now destruct N | exists a; reflexivity|]. cbn [canonical]. destruct (find _ _); eexists; reflexivity. Qed.
Lemma note_name_total m c : exists m', note_name demangle m c = Ret m'.
Proof. unfold note_name. destruct (dehash_total (demangle c)) as [-> | [h [-> _]]]; eexists; reflexivity. Qed.
Lemma real_nodes_total : (forall x, In x (pg_defined p) -> real_names x <> []) -> exists n, real_nodes demangle p = Ret n.
Proof.
  intros H. destruct (ofold_total (add_real demangle p) (fun _ => True) (fun x => real_names x <> []) (pg_defined p)) with (s := nodes0) as [n [E _]]; [|exact H | exact Logic.I | exists n; exact E].
  intros s x _ Nx. unfold add_real. rewrite untagged_eq. destruct (canonical_total _ Nx) as [c ->]. cbn [bind]. destruct (note_name_total (n_ambiguous s) c) as [m ->]. cbn [bind add_node].
  destruct (def_of _ _); [eexists; split; [reflexivity | exact Logic.I]|]. destruct (decl_of _ _); eexists; (split; [reflexivity | exact Logic.I]).
Qed.
Lemma real_nodes_named n : real_nodes demangle p = Ret n -> forall x, In x (pg_defined p) -> real_names x <> [].
Proof.
  intros E x I. destruct (ofold_all _ _ _ _ E x I) as [s1 [s2 E1]]. unfold add_real in E1. rewrite untagged_eq in E1. destruct (bind_inv _ _ _ E1) as [c [E2 _]]. intros X. rewrite X in E2. discriminate E2.
Qed.
End Nodes.

Section Edges.
Variables (demangle : str -> str) (p : prog) (nd0 : nodes).
Hypothesis (W : wf_prog p) (R : RN demangle p (pg_defined p) nd0).
Local Notation INV := (INV p nd0).

Lemma call_once_indices a b s : e_indices (call_once a b s) = e_indices s.
Proof. unfold call_once. destruct (add_once a b (e_g s, e_seen s)). reflexivity. Qed.
Lemma alias_none f : sget (n_aliases nd0) f = None <-> forall j, ~ live p f j.
Proof.
  split.
  - intros E j L. destruct (live_chosen p _ _ L) as [c' C]. assert (K : sget (n_aliases nd0) f = Some c') by (apply (rn_aliases _ _ _ _ R); rewrite upto_all; exists j; split; assumption). congruence.
  - intros N. destruct (sget (n_aliases nd0) f) as [c|] eqn:E; [|reflexivity]. apply (rn_aliases _ _ _ _ R) in E. rewrite upto_all in E. destruct E as [j [L _]]. now destruct (N j).
Qed.
Lemma chosen_index evs e ks j c : INV evs e ks -> chosen p j c -> sget (e_indices e) c <> None.
Proof. intros H C K. apply (nd_idx_None p _ _ _ _ (iv_nodes _ _ _ _ _ H)) in K. exact (proj1 K j C). Qed.
(** `memcmp`, if it is not a symbol of the executable, has a node after a call under a cast. *)
Lemma memcmp_node evs e ks : INV evs e ks -> (forall j, ~ live p memcmp j) -> (sget (e_indices e) memcmp = None <-> forall k, ~ In (k, BitcastCall (Some memcmp)) evs).
Proof.
  intros H N. rewrite (nd_idx_None p _ _ _ _ (iv_nodes _ _ _ _ _ H)). assert (NC : forall j, ~ chosen p j memcmp) by (intros j C; exact (N j (chosen_live p _ _ C))). split.
  - intros [_ K] k I. apply K. right. exists k. split; [exact I | exact NC].
  - intros K. split; [exact NC|]. intros [[i [_ [_ [X _]]]]|[i [I _]]]; [now apply X | exact (K i I)].
Qed.
Lemma classify_known f : intrinsic f -> classify false f <> CBug -> lowered f \/ no_call f.
Proof.
  intros IF NB. destruct (classify false f) as [|names| |] eqn:Ec.
    + right. unfold classify in Ec. unfold no_call.
      repeat match type of Ec with context [if ?b then _ else _] => destruct b eqn:?H end; try discriminate;
        repeat match goal with H : (_ && _)%bool = true |- _ => apply andb_prop in H; destruct H | H : (_ || _)%bool = true |- _ => apply orb_prop in H; destruct H end; try discriminate.
      * left. apply smem_In in H. cbn [In map] in *. tauto.
      * right. apply starts_with_app in H0. destruct H0 as [r ->]. exists "llvm.lifetime.start"%string, r. split; [reflexivity | cbn [In]; tauto].
      * right. apply starts_with_app in H0. destruct H0 as [r ->]. exists "llvm.lifetime.end"%string, r. split; [reflexivity | cbn [In]; tauto].
      * right. apply existsb_exists in H4. destruct H4 as [pre [I3 S]]. apply starts_with_app in S. destruct S as [r ->]. unfold lowered_prefixes in I3. apply in_map_iff in I3. destruct I3 as [pre' [<- I3]].
        exists pre', r. split; [reflexivity|]. right. right. exact I3.
      * left. apply str_eqb_eq in H4. subst f. cbn [In map]. tauto.
      * left. apply str_eqb_eq in H5. subst f. cbn [In map]. tauto.
    + left. destruct (classify_mem _ _ _ Ec) as [_ L']. destruct names as [|m names]; [|exists m; apply L'; left; reflexivity]. exfalso. clear - Ec. unfold classify in Ec.
      repeat match type of Ec with context [if ?b then _ else _] => destruct b eqn:?H end; discriminate Ec.
    + now destruct NB.
    + exfalso. exact (classify_function _ _ Ec IF).
Qed.
Lemma bug_iff f : classify (is_thumb (pg_target p)) f = CBug -> intrinsic f /\ is_thumb (pg_target p) = false /\ ~ (lowered f \/ no_call f).
Proof.
  intros Ec. assert (I : intrinsic f) by (apply (classify_intrinsic (is_thumb (pg_target p))); rewrite Ec; discriminate). split; [exact I|].
  assert (T : is_thumb (pg_target p) = false). { destruct (is_thumb (pg_target p)) eqn:T; [|reflexivity]. destruct I as [r ->]. exfalso. revert Ec. unfold classify. rewrite starts_with_refl. cbn [andb]. repeat match goal with |- context [if ?b then CSkip else _] => destruct b; [discriminate|] end. discriminate. }
  split; [exact T|]. rewrite T in Ec. intros [[n L] | K]; [destruct (lowers_names f n L) as [names [_ [_ X]]]; congruence | exact (no_call_class false f K Ec)].
Qed.
Lemma stmt_iff evs e ks i c st : INV evs e ks -> chosen p i c -> ((exists e', exec_stmt p (n_aliases nd0) c i e st = Ret e') <-> stmt_ok p evs st).
Proof.
  intros H C. assert (Yes : forall (A : Prop) (o : outcome edgest), (exists e', o = Ret e') -> A -> ((exists e', o = Ret e') <-> A)) by (intros; tauto).
  destruct st as [code|[sym|]|f|sig| | |]; cbn [exec_stmt stmt_ok]; try (apply Yes; [eexists; reflexivity | exact Logic.I]).
  - apply Yes; [|exact Logic.I]. destruct (sget (e_indices e) sym) as [idx|]; [eexists; reflexivity|]. destruct (add_unknown sym e) as [s1 callee]. eexists. reflexivity.
  - split; [intros [e' K]; discriminate K | intros []].
  - destruct (classify (is_thumb (pg_target p)) f) as [|names| |] eqn:Ec.
    + apply Yes; [eexists; reflexivity|]. split; [intros N; exfalso; apply N; apply (classify_intrinsic (is_thumb (pg_target p))); rewrite Ec; discriminate|]. intros I T. rewrite T in Ec. apply (classify_known f I). congruence.
    + apply Yes; [eexists; reflexivity|]. split; [intros N; exfalso; apply N; apply (classify_intrinsic (is_thumb (pg_target p))); rewrite Ec; discriminate|]. intros I T. rewrite T in Ec. apply (classify_known f I). congruence.
    + split; [intros [e' K]; discriminate K|]. intros [_ K]. destruct (bug_iff f Ec) as [I [T N]]. exfalso. exact (N (K I T)).
    + pose proof (classify_function _ _ Ec) as NI.
      assert (X : forall P : Prop, ((~ intrinsic f -> P) /\ (intrinsic f -> is_thumb (pg_target p) = false -> lowered f \/ no_call f)) <-> P) by (intros P; tauto).
      rewrite X. clear X. change (lit "memcmp") with memcmp. destruct (str_eqb f memcmp && negb (shas (e_indices e) f)) eqn:Em.
      { apply Yes; [eexists; reflexivity|]. apply andb_true_iff in Em. destruct Em as [E1 E2]. apply str_eqb_eq in E1. subst f. unfold shas in E2. destruct (sget (e_indices e) memcmp) eqn:Es; [discriminate E2|].
        destruct (sget (n_aliases nd0) memcmp) as [canon|] eqn:Ea.
        - left. apply (rn_aliases _ _ _ _ R) in Ea. rewrite upto_all in Ea. destruct Ea as [j [L _]]. exists j. exact L.
        - right. right. split; [reflexivity|]. apply (memcmp_node _ _ _ H); [exact (proj1 (alias_none _) Ea) | exact Es]. }
      destruct (sget (n_aliases nd0) f) as [canon|] eqn:Ea.
      { apply (rn_aliases _ _ _ _ R) in Ea. rewrite upto_all in Ea. destruct Ea as [j [L Cj]]. destruct (sget (e_indices e) canon) as [idx|] eqn:Ei; [|exfalso; exact (chosen_index _ _ _ _ _ H Cj Ei)].
        cbn [bind]. apply Yes; [eexists; reflexivity | left; exists j; exact L]. }
      pose proof (proj1 (alias_none f) Ea) as NL. destruct (smem f (pg_undefined p)) eqn:Eu; cbn [negb].
      * apply Yes; [|right; left; apply smem_In; exact Eu]. destruct (sget (e_indices e) f) as [idx|]; cbn [bind]; [eexists; reflexivity|]. destruct (add_unknown f e) as [s1 callee]. eexists. reflexivity.
      * cbn [bind]. split; [intros [e' K]; discriminate K|]. intros [[j L]|[U|[-> M]]]; [now destruct (NL j) | apply smem_In in U; congruence|]. exfalso.
        apply (memcmp_node _ _ _ H NL) in M. unfold shas in Em. rewrite str_eqb_refl, M in Em. discriminate Em.
Qed.

(** All statements of a list are understood, after the statements [evs]. *)
Definition all_ok (evs l : list (nat * stmt)) : Prop := forall pre j st post, l = pre ++ (j, st) :: post -> stmt_ok p (evs ++ pre) st.
Lemma all_ok_nil evs : all_ok evs [].
Proof. intros [|x pre] j st post E; discriminate E. Qed.
Lemma all_ok_cons evs j st l : all_ok evs ((j, st) :: l) <-> stmt_ok p evs st /\ all_ok (evs ++ [(j, st)]) l.
Proof.
  split.
  - intros H. split; [rewrite <- (app_nil_r evs); exact (H [] j st l eq_refl)|]. intros pre k s post ->. rewrite <- app_assoc. exact (H ((j, st) :: pre) k s post eq_refl).
  - intros [H1 H2] [|x pre] k s post E; cbn [app] in E; [injection E as _ <- _; rewrite app_nil_r; exact H1|]. injection E as E1 E2. subst x. change ((j, st) :: pre) with ([(j, st)] ++ pre). rewrite app_assoc. exact (H2 pre k s post E2).
Qed.
Lemma all_ok_app l1 : forall evs l2, all_ok evs (l1 ++ l2) <-> all_ok evs l1 /\ all_ok (evs ++ l1) l2.
Proof.
  induction l1 as [|[j st] l1 IH]; intros evs l2; cbn [app].
  - rewrite app_nil_r. split; [intros H; split; [apply all_ok_nil | exact H] | tauto].
  - rewrite !all_ok_cons, IH, <- app_assoc. cbn [app]. tauto.
Qed.
Lemma stmts_iff i c sts : chosen p i c -> forall evs e ks, INV evs e ks ->
  ((exists e', ofold (exec_stmt p (n_aliases nd0) c i) sts e = Ret e') <-> all_ok evs (map (pair i) sts)) /\
  (forall e', ofold (exec_stmt p (n_aliases nd0) c i) sts e = Ret e' -> exists ks', INV (evs ++ map (pair i) sts) e' ks').
Proof.
  intros C. induction sts as [|st sts IH]; intros evs e ks H; cbn [ofold map].
  - split; [split; [intros _; apply all_ok_nil | intros _; exists e; reflexivity]|]. intros e' E. injection E as <-. rewrite app_nil_r. exists ks. exact H.
  - rewrite all_ok_cons, <- (stmt_iff _ _ _ i c st H C). destruct (exec_stmt p (n_aliases nd0) c i e st) as [e1|m|m|] eqn:E1; cbn [bind].
    + destruct (stmt_step demangle p nd0 W R _ _ _ _ _ _ _ H C E1) as [_ [extra H1]]. destruct (IH _ _ _ H1) as [K1 K2]. rewrite <- app_assoc in K2. split; [|exact K2]. rewrite K1. split; [intros K; split; [exists e1; reflexivity | exact K] | tauto].
    + split; [|discriminate]. split; [intros [e' K]; discriminate K | intros [[e' K] _]; discriminate K].
    + split; [|discriminate]. split; [intros [e' K]; discriminate K | intros [[e' K] _]; discriminate K].
    + split; [|discriminate]. split; [intros [e' K]; discriminate K | intros [[e' K] _]; discriminate K].
Qed.
Lemma defines_iff ds : (forall n d, In (n, d) ds -> d_name d = n) -> forall evs e ks, INV evs e ks ->
  exists tr, trace p ds tr /\ ((exists e', ofold (exec_define p (n_aliases nd0)) (map snd ds) e = Ret e') <-> all_ok evs tr).
Proof.
  induction ds as [|[n d] ds IH]; intros Dn evs e ks H; cbn [map snd ofold].
  - exists []. split; [constructor|]. split; [intros _; apply all_ok_nil | intros _; exists e; reflexivity].
  - assert (Dn' : forall n' d', In (n', d') ds -> d_name d' = n') by (intros n' d' I; apply Dn; right; exact I). pose proof (Dn n d (or_introl eq_refl)) as Hn.
    assert (Tr : exists tr, trace p ds tr) by (destruct (IH Dn' evs e ks H) as [tr [T _]]; exists tr; exact T).
    unfold exec_define at 1. destruct (sget (n_aliases nd0) (d_name d)) as [c|] eqn:Ea.
    + apply (rn_aliases _ _ _ _ R) in Ea. rewrite upto_all in Ea. destruct Ea as [i [Li Ci]]. rewrite Hn in Li. pose proof (INV_defined p nd0 _ _ _ (sinsert (e_defined e) c) H) as H0.
      assert (Es : sget (e_indices e) c = Some i).
      { apply (nd_idx _ _ _ _ (iv_nodes _ _ _ _ _ H)). left. exists i. split; [exact Ci | exact (nd_real _ _ _ _ (iv_nodes _ _ _ _ _ H) i (live_lt _ _ _ Li))]. }
      cbv zeta. cbn [e_indices]. rewrite Es. destruct (stmts_iff i c (d_stmts d) Ci _ _ _ H0) as [K1 K2].
      destruct (ofold (exec_stmt p (n_aliases nd0) c i) (d_stmts d) _) as [e1|m|m|] eqn:E1; cbn [bind].
      * destruct (K2 _ eq_refl) as [ks1 H1]. destruct (IH Dn' _ _ _ H1) as [tr [T K3]]. exists (map (pair i) (d_stmts d) ++ tr). split; [now apply tr_kept|]. rewrite all_ok_app, K3, <- K1. split; [intros K; split; [eexists; reflexivity | exact K] | tauto].
      * destruct Tr as [tr T]. exists (map (pair i) (d_stmts d) ++ tr). split; [now apply tr_kept|]. rewrite all_ok_app, <- K1. split; [intros [e' K]; discriminate K | intros [[e' K] _]; discriminate K].
      * destruct Tr as [tr T]. exists (map (pair i) (d_stmts d) ++ tr). split; [now apply tr_kept|]. rewrite all_ok_app, <- K1. split; [intros [e' K]; discriminate K | intros [[e' K] _]; discriminate K].
      * destruct Tr as [tr T]. exists (map (pair i) (d_stmts d) ++ tr). split; [now apply tr_kept|]. rewrite all_ok_app, <- K1. split; [intros [e' K]; discriminate K | intros [[e' K] _]; discriminate K].
    + cbn [bind]. destruct (IH Dn' _ _ _ H) as [tr [T K]]. exists tr. split; [|exact K]. apply tr_removed; [|exact T]. rewrite Hn in Ea. exact (proj1 (alias_none n) Ea).
Qed.
Lemma trace_same ds a b : trace p ds a -> trace p ds b -> a = b.
Proof.
  intros A. revert b. induction A as [|n d ds tr N T IH|n d j ds tr L T IH]; intros b B; inversion B as [|? ? ? ? N' T'|? ? k ? ? L' T']; subst.
  - reflexivity.
  - exact (IH _ T').
  - now destruct (N k).
  - now destruct (N' j).
  - rewrite (live_inj p W _ _ _ L' L), (IH _ T'). reflexivity.
Qed.
Lemma ir_edges_iff : (exists e, ir_edges p nd0 = Ret e) <-> forall tr pre i st post, trace p (pg_defines p) tr -> tr = pre ++ (i, st) :: post -> stmt_ok p pre st.
Proof.
  unfold ir_edges. destruct (defines_iff (pg_defines p) (fun n d I => eq_sym (wf_def_names _ W n d I)) [] _ _ (INV0 demangle p nd0 R)) as [tr [T ->]]. split.
  - intros H tr' pre i st post T'. rewrite <- (trace_same _ _ _ T T'). apply H.
  - intros H pre i st post E. exact (H tr pre i st post T E).
Qed.
End Edges.

Section Machine9.
Variables (demangle : str -> str) (p : prog) (nd0 : nodes) (evs : list event) (e : edgest) (ks0 : list key).
Hypothesis (W : wf_prog p) (R : RN demangle p (pg_defined p) nd0) (H0 : INV p nd0 evs e ks0).
Hypothesis (Hb : forall i st, In (i, st) evs <-> body p i st).
Hypothesis (Hd : forall c, In c (e_defined e) <-> exists n d i, In (n, d) (pg_defines p) /\ live p n i /\ chosen p i c).
Variables (stext : N) (text : str).
Hypothesis (Ht : is_thumb (pg_target p) = true) (Hx : pg_text p = Some (stext, text)).

Lemma eqb_iff (n : N) (b : bool) : Bool.eqb (negb (n =? 0)%N) b = true <-> (n <> 0%N <-> b = true).
Proof.
  destruct (N.eqb_spec n 0) as [-> | N], b; cbn; split; intros H; try reflexivity; try discriminate.
  - exfalso. apply (proj2 H eq_refl). reflexivity.
  - split; [intros X; now destruct X | discriminate].
  - split; [reflexivity | intros _; exact N].
  - apply (proj1 H). exact N.
Qed.
Lemma settle_iff i c addr size a : chosen p i c -> analysed p i addr size a ->
  ((exists l, settle_local (smem c (e_asm e)) (is_outlined_function c) (local0 p c) a = Ret l) <-> agreed p i a).
Proof.
  intros C A. split.
  - intros [l E]. pose proof (settle_usage p nd0 evs e ks0 W H0 Hb i c addr size a l C A E) as U. unfold settle_local in E. destruct (bind_inv _ _ _ E) as [[] [E0 E1]]. clear E. split.
    + intros k K. rewrite K in E0. apply eqb_iff. destruct (Bool.eqb _ _); [reflexivity | discriminate E0].
    + intros m M. assert (Es : sget (pg_sizes p) c = Some m) by (destruct M as [c' [C' M]]; rewrite (chosen_fun p _ _ _ C C'); apply (sget_In _ _ _ (wf_sizes _ W)); exact M).
      unfold local0 in *. rewrite Es in *. destruct (bind_inv _ _ _ E1) as [m' [_ E3]]. exists m'. destruct (Bool.eqb (negb (m' =? 0)%N) (modifies_sp a)) eqn:Eb; [|discriminate E3]. injection E3 as <-. split; [exact U | apply eqb_iff; exact Eb].
  - intros [G1 G2]. unfold settle_local.
    assert (E0 : (match stack a with Some k => if Bool.eqb (negb (k =? 0)%N) (modifies_sp a) then Ret tt else Panic "BUG: our analysis is inconsistent" | None => Ret tt end) = Ret tt).
    { destruct (stack a) as [k|]; [|reflexivity]. rewrite (proj2 (eqb_iff _ _) (G1 k eq_refl)). reflexivity. }
    rewrite E0. cbn [bind]. clear E0. pose proof (asm_iff p nd0 evs e ks0 W H0 Hb i c C) as HA. pose proof (outlined_iff p i c C) as HO.
    unfold local0. destruct (sget (pg_sizes p) c) as [m|] eqn:Es.
    + pose proof (llvm_size_some p W _ _ _ C Es) as L. destruct (G2 m L) as [l [U X]]. apply eqb_iff in X.
      assert (K : exists m', usage p i (LExact m') /\ (match stack a with
         | Some k => if negb (m =? k)%N && smem c (e_asm e) then Ret k else if is_outlined_function c then (if (m =? 0)%N && negb (k =? m)%N then Ret k else Ret m)
                     else if (m =? k)%N then Ret m else Panic "BUG: LLVM's result does not match our analysis"
         | None => Ret m end) = Ret m').
      { destruct (stack a) as [k|] eqn:Ek; [|exists m; split; [exact (us_no_total _ _ _ _ _ _ A L Ek) | reflexivity]].
        destruct (N.eqb_spec m k) as [-> | N].
        - cbn [negb andb]. exists k. split; [exact (us_agree _ _ _ _ _ _ A L Ek)|]. rewrite N.eqb_refl. cbn [negb]. rewrite andb_false_r. destruct (is_outlined_function c); reflexivity.
        - cbn [negb andb]. destruct (smem c (e_asm e)) eqn:Ea; [exists k; split; [exact (us_asm _ _ _ _ _ _ _ A L Ek (not_eq_sym N) (proj1 HA eq_refl)) | reflexivity]|].
          assert (NA : ~ has_asm p i) by (intros K; apply HA in K; discriminate K). destruct (is_outlined_function c) eqn:Eo.
          + assert (O : outlined p i) by exact (proj1 HO eq_refl). destruct (N.eqb_spec m 0) as [-> | N0]; cbn [andb].
            * exists k. split; [exact (us_outlined _ _ _ _ _ _ A L Ek (not_eq_sym N) NA O)|]. rewrite (proj2 (N.eqb_neq k 0) (not_eq_sym N)). reflexivity.
            * exists m. split; [exact (us_outlined_kept _ _ _ _ _ _ _ A L Ek (not_eq_sym N) N0 NA O) | reflexivity].
          + exfalso. assert (NO : ~ outlined p i) by (intros K; apply HO in K; discriminate K). clear X.
            assert (NT : ~ (is_thumb (pg_target p) = false \/ pg_text p = None)) by (intros [T | T]; congruence).
            inversion U; try contradiction; repeat match goal with
              | B : analysed p i _ _ _ |- _ => tryif constr_eq B A then fail else (destruct (analysed_fun p i _ _ _ _ _ _ A B) as [? [? ?]]; subst; clear B)
              end; repeat match goal with
              | B : llvm_size p i _ |- _ => tryif constr_eq B L then fail else (pose proof (llvm_size_fun p i _ _ W L B); clear B)
              end; try congruence. }
      destruct K as [m' [U' K]]. rewrite K. cbn [bind]. pose proof (usage_fun p i _ _ W U U') as Eq. injection Eq as <-. rewrite X. eexists. reflexivity.
    + destruct (stack a) as [k|]; [eexists; reflexivity|]. destruct (modifies_sp a); eexists; reflexivity.
Qed.

Lemma node_at_total a : (exists j, at_address p j a) -> (forall x, In x (pg_defined p) -> real_names x <> []) -> exists v, node_at (e_indices e) (n_addr2name nd0) a = Ret v.
Proof.
  intros [j J] Nm. assert (C : exists c, chosen p j c).
  { destruct J as [sym Jn]. destruct (choose_exists p (real_names (a, sym))) as [c C]; [exact (Nm _ (nth_error_In _ _ Jn))|]. exists c, (real_names (a, sym)). split; [exists (a, sym); split; [exact Jn | reflexivity] | exact C]. }
  destruct C as [c C]. exists j. unfold node_at. assert (K : bget (n_addr2name nd0) a = Some c) by (apply (rn_addr _ _ _ _ R); rewrite upto_all; exists j; split; assumption).
  rewrite K, (idx p nd0 evs e ks0 H0 c j C). reflexivity.
Qed.
(** One symbol. *)
Lemma local_at m s x ks c : nth_error (pg_defined p) m = Some s -> MACH p evs m x ks -> chosen p m c -> get_local (fst x) m = Ret (local0 p c).
Proof.
  intros Hm H C. pose proof (live_lt p _ _ (chosen_live p _ _ C)) as Lm. pose proof (mc_real _ _ _ _ _ H m Lm) as Rm. pose proof (Forall2_len _ _ _ (mc_show _ _ _ _ _ H)) as Len.
  unfold get_local. destruct (nth_error (gnodes (fst x)) m) as [nd|] eqn:Eg; [|apply nth_error_None in Eg; assert (m < length ks) by (apply nth_error_Some; congruence); lia].
  pose proof (Forall2_nth _ _ _ _ _ _ (mc_show _ _ _ _ _ H) Rm Eg) as K. cbn [showM] in K. destruct K as [c' [l' [C' [-> K]]]]. rewrite Nat.ltb_irrefl in K. rewrite K. cbn [nlocal]. rewrite (chosen_fun p _ _ _ C' C). reflexivity.
Qed.
Lemma first_name m s n ns : nth_error (pg_defined p) m = Some s -> sy_names (snd s) = n :: ns -> mapping_symbol n = false -> live p n m.
Proof. intros Hm En T. exists (real_names s). split; [exists s; split; [exact Hm | reflexivity]|]. unfold real_names. apply filter_In. rewrite En, T. split; [left; reflexivity | reflexivity]. Qed.
Lemma ofold_total' {S X} (f : S -> X -> outcome S) l : (forall s x, In x l -> exists s', f s x = Ret s') -> forall s, exists s', ofold f l s = Ret s'.
Proof.
  intros St s. destruct (ofold_total f (fun _ => True) (fun x => In x l) l) with (s := s) as [s' [E _]]; [|tauto | exact Logic.I | exists s'; exact E].
  intros s1 x _ I. destruct (St s1 x I) as [s2 E]. exists s2. split; [exact E | exact Logic.I].
Qed.
Lemma code_total m s x ks : nth_error (pg_defined p) m = Some s -> MACH p evs m x ks -> (forall x, In x (pg_defined p) -> real_names x <> []) -> code_ok p m s ->
  exists y, exec_code p nd0 e (stext mod 2 ^ 32) text x s = Ret y.
Proof.
  intros Hm H Nm [addr [size [a [[[name [rest [En T]]] [A Ag]] [B1 B2]]]]]. unfold exec_code. rewrite En.
  pose proof (first_name _ _ _ _ Hm En T) as L. destruct (live_chosen p _ _ L) as [c C].
  assert (Ea : sget (n_aliases nd0) name = Some c) by (apply (rn_aliases _ _ _ _ R); rewrite upto_all; exists m; split; assumption). rewrite Ea.
  pose proof A as A0. destruct A0 as [_ [st [tx [z [code [D1 [D2 [D3 [D4 [D5 D6]]]]]]]]]]. rewrite Hx in D1. injection D1 as <- <-. rewrite Hm in D2. injection D2 as <-. rewrite <- D3.
  apply code_size_iff in D4. rewrite D4. cbn [bind]. apply slice_iff in D5. rewrite D5. cbn [bind]. rewrite D6. cbn [bind]. rewrite (idx p nd0 evs e ks0 H0 c m C).
  destruct x as [g seen]. pose proof (local_at m s (g, seen) ks c Hm H C) as Lo. cbn [fst] in Lo. rewrite Lo. cbn [bind].
  destruct (proj2 (settle_iff m c addr size a C A) Ag) as [l ->]. cbn [bind]. cbv zeta.
  match goal with |- context [ofold ?f (bls a) ?x0] => destruct (ofold_total' f (bls a)) with (s := x0) as [y1 Y1] end.
  { intros s1 off I. unfold add_bl. destruct (node_at_total (bl_addr addr off) (B1 off I) Nm) as [v ->]. eexists. reflexivity. }
  rewrite Y1. cbn [bind]. apply ofold_total'. intros s1 off I. unfold add_b. cbv zeta. destruct ((_ <=? _) && (_ <? _))%N eqn:El; [eexists; reflexivity|].
  assert (Lv : leaves addr size (b_addr addr off)) by (apply andb_false_iff in El; destruct El as [El | El]; [left; apply N.leb_gt in El; exact El | right; apply N.ltb_ge in El; exact El]).
  destruct (node_at_total (b_addr addr off) (B2 off I Lv) Nm) as [v ->]. eexists. reflexivity.
Qed.
Lemma codes_total l2 : forall l1 x ks, pg_defined p = l1 ++ l2 -> MACH p evs (length l1) x ks -> (forall x, In x (pg_defined p) -> real_names x <> []) ->
  (forall m s, nth_error (pg_defined p) m = Some s -> code_ok p m s) -> exists y, ofold (exec_code p nd0 e (stext mod 2 ^ 32) text) l2 x = Ret y.
Proof.
  induction l2 as [|s l2 IH]; intros l1 x ks El H Nm F; [exists x; reflexivity|].
  assert (Hm : nth_error (pg_defined p) (length l1) = Some s) by (rewrite El, nth_error_app2, Nat.sub_diag by lia; reflexivity).
  destruct (code_total _ _ _ _ Hm H Nm (F _ _ Hm)) as [z E1]. destruct (code_step demangle p nd0 evs e ks0 W R H0 Hb Hd stext text Ht Hx _ _ _ _ _ Hm H E1) as [extra H1].
  destruct (IH (l1 ++ [s]) z (ks ++ extra)) as [y E2]; [rewrite <- app_assoc; exact El | rewrite app_length, Nat.add_comm; exact H1 | exact Nm | exact F|].
  exists y. cbn [ofold]. rewrite E1. exact E2.
Qed.
Lemma codes_fine l2 : forall l1 x y ks, pg_defined p = l1 ++ l2 -> MACH p evs (length l1) x ks -> ofold (exec_code p nd0 e (stext mod 2 ^ 32) text) l2 x = Ret y ->
  forall m s, nth_error l2 m = Some s -> exists x' y' ks', MACH p evs (length l1 + m) x' ks' /\ exec_code p nd0 e (stext mod 2 ^ 32) text x' s = Ret y'.
Proof.
  induction l2 as [|s l2 IH]; intros l1 x y ks El H E m s' K; [destruct m; discriminate K|].
  cbn [ofold] in E. destruct (bind_inv _ _ _ E) as [z [E1 E2]].
  destruct m as [|m]; [cbn in K; injection K as <-; exists x, z, ks; rewrite Nat.add_0_r; split; assumption|]. cbn [nth_error] in K.
  assert (Hm : nth_error (pg_defined p) (length l1) = Some s) by (rewrite El, nth_error_app2, Nat.sub_diag by lia; reflexivity).
  destruct (code_step demangle p nd0 evs e ks0 W R H0 Hb Hd stext text Ht Hx _ _ _ _ _ Hm H E1) as [extra H1].
  destruct (IH (l1 ++ [s]) z y (ks ++ extra)) with (m := m) (s := s') as [x' [y' [ks' [G1 G2]]]]; [rewrite <- app_assoc; exact El | rewrite app_length, Nat.add_comm; exact H1 | exact E2 | exact K|].
  exists x', y', ks'. rewrite app_length in G1. cbn [length] in G1. replace (length l1 + S m) with (length l1 + 1 + m) by lia. split; assumption.
Qed.
Lemma code_agreed m s x y ks : nth_error (pg_defined p) m = Some s -> MACH p evs m x ks -> exec_code p nd0 e (stext mod 2 ^ 32) text x s = Ret y ->
  (exists n ns, sy_names (snd s) = n :: ns /\ mapping_symbol n = false) /\ forall addr size a, analysed p m addr size a -> agreed p m a.
Proof.
  intros Hm H E. unfold exec_code in E. destruct (sy_names (snd s)) as [|name rest] eqn:En; [discriminate E|]. destruct (sget (n_aliases nd0) name) as [c|] eqn:Ea; [|discriminate E].
  apply (rn_aliases _ _ _ _ R) in Ea. rewrite upto_all in Ea. destruct Ea as [i' [L C]].
  assert (T : mapping_symbol name = false).
  { destruct L as [ns [[z [_ ->]] Z]]. unfold real_names in Z. apply filter_In in Z. destruct Z as [_ Z]. destruct (mapping_symbol name); [discriminate Z | reflexivity]. }
  assert (i' = m) by exact (live_inj p W name i' m L (first_name _ _ _ _ Hm En T)). subst i'. split; [exists name, rest; split; [reflexivity | exact T]|].
  intros addr size a A. pose proof A as A0. destruct A0 as [_ [st [tx [z [code [D1 [D2 [D3 [D4 [D5 D6]]]]]]]]]]. rewrite Hx in D1. injection D1 as <- <-. rewrite Hm in D2. injection D2 as <-. rewrite <- D3 in E.
  apply code_size_iff in D4. rewrite D4 in E. cbn [bind] in E. apply slice_iff in D5. rewrite D5 in E. cbn [bind] in E. rewrite D6 in E. cbn [bind] in E. rewrite (idx p nd0 evs e ks0 H0 c m C) in E.
  destruct x as [g seen]. pose proof (local_at m s (g, seen) ks c Hm H C) as Lo. cbn [fst] in Lo. rewrite Lo in E. cbn [bind] in E. destruct (bind_inv _ _ _ E) as [l [E1 _]].
  apply (proj1 (settle_iff m c addr size a C A)). exists l. exact E1.
Qed.
End Machine9.

Theorem build_iff demangle o p : wf_prog p -> ((exists b, build demangle o p = Ret b) <-> understood p).
Proof.
  intros W. split.
  - intros [b E]. pose proof (checked_code demangle o p b W E) as CC.
    unfold build in E. apply bind_inv in E. destruct E as [dm [_ E]]. destruct (bind_inv _ _ _ E) as [n [E1 E']]. destruct (bind_inv _ _ _ E') as [e [E2 E'']]. destruct (bind_inv _ _ _ E'') as [g [E3 _]].
    pose proof (real_nodes_spec _ _ _ W E1) as R. constructor.
    + exact (real_nodes_named demangle p n E1).
    + apply (ir_edges_iff demangle p n W R). exists e. exact E2.
    + intros T Tx i x Hi. destruct (CC i T Tx) as [addr [size [a [A [B1 B2]]]]]; [apply nth_error_Some; congruence|].
      destruct (ir_edges_spec demangle p n W R e E2) as [evs [ks0 [H0 [Hb Hd]]]].
      unfold machine_edges in E3. rewrite T in E3. destruct (pg_text p) as [[stext text]|] eqn:Et; [|exfalso; exact (Tx eq_refl)]. destruct (bind_inv _ _ _ E3) as [y [E4 _]].
      destruct (codes_fine demangle p n evs e ks0 W R H0 Hb Hd stext text T Et (pg_defined p) [] _ _ ks0 eq_refl (MACH0 p n evs e ks0 H0) E4 i x Hi) as [x' [y' [ks' [M' E5]]]]. cbn [length Nat.add] in M'.
      destruct (code_agreed demangle p n evs e ks0 W R H0 Hb stext text T Et i x x' y' ks' Hi M' E5) as [F1 F2]. exists addr, size, a. split; [split; [exact F1|]; split; [exact A | exact (F2 _ _ _ A)] | split; assumption].
  - intros [U1 U2 U5]. destruct (real_nodes_total demangle p U1) as [n E1]. pose proof (real_nodes_spec _ _ _ W E1) as R.
    destruct (proj2 (ir_edges_iff demangle p n W R) U2) as [e E2]. unfold build. destruct (default_methods_total demangle (map fst (pg_defines p))) as [? ->]. cbn [bind]. rewrite E1. cbn [bind]. rewrite E2. cbn [bind].
    assert (E3 : exists g, machine_edges p n e = Ret g).
    { unfold machine_edges. destruct (is_thumb (pg_target p)) eqn:T; [|eexists; reflexivity]. destruct (pg_text p) as [[stext text]|] eqn:Et; [|eexists; reflexivity].
      destruct (ir_edges_spec demangle p n W R e E2) as [evs [ks0 [H0 [Hb Hd]]]].
      destruct (codes_total demangle p n evs e ks0 W R H0 Hb Hd stext text T Et (pg_defined p) [] (e_g e, e_seen e) ks0 eq_refl (MACH0 p n evs e ks0 H0) U1) as [y Y].
      - intros m s Hm. apply U5; [reflexivity | discriminate | exact Hm].
      - rewrite Y. destruct y as [g sn]. eexists. reflexivity. }
    destruct E3 as [g E3]. rewrite E3. eexists. reflexivity.
Qed.
