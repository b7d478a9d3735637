(** What has been logged when a run stops. *)
From Coq Require Import Permutation Sorted.
From Verif Require Import S_filter L_filter2 L_maxprops L_driver3.
From Verif Require Import M_base M_stack M_graph M_analysis M_filter M_names M_thumb M_ty M_parse M_build M_run M_log S_names S_graph S_sig S_build S_run S_log.
From Verif Require Import L_base L_names L_build1 L_build2 L_build3 L_build4 L_build5 L_build6 L_build7 L_build8 L_build9 L_run L_log L_log2 L_log3.

Lemma lbind_stop {A B} (x : lg A) (f : A -> lg B) ms r : (lg* y := x in f y) = (ms, r) -> stops r ->
  (exists r', x = (ms, r') /\ stops r') \/ exists m1 a m2, x = (m1, Ret a) /\ f a = (m2, r) /\ ms = m1 ++ m2.
Proof.
  unfold lbind. destruct x as [m1 [a|m|m|]]; cbn [fst snd].
  - intros E S. right. destruct (f a) as [m2 r2] eqn:F. cbn [fst snd] in E. injection E as <- ->. exists m1, a, m2. split; [reflexivity|]. split; [exact F | reflexivity].
  - intros E S. injection E as <- _. left. exists (Fail m). split; [reflexivity | intros z; discriminate].
  - intros E S. injection E as <- _. left. exists (Panic m). split; [reflexivity | intros z; discriminate].
  - intros E S. injection E as <- _. left. exists Fuel. split; [reflexivity | intros z; discriminate].
Qed.
Lemma lret_stop {A} (x : A) ms r : lret x = (ms, r) -> stops r -> False.
Proof. intros E S. injection E as _ <-. exact (S x eq_refl). Qed.
Lemma qbind_stop {A B} (x : outcome A) (f : A -> lg B) ms r : (lg* y := quiet x in f y) = (ms, r) -> stops r -> (ms = [] /\ stops x) \/ exists a, x = Ret a /\ f a = (ms, r).
Proof.
  intros E S. destruct (lbind_stop _ _ _ _ E S) as [[r' [E1 S1]]|[m1 [a [m2 [E1 [E2 ->]]]]]].
  - injection E1 as <- ->. left. split; [reflexivity | exact S1].
  - injection E1 as <- ->. right. exists a. split; [reflexivity | exact E2].
Qed.

Section Symbols.
Variables (demangle : str -> str) (p : prog).
Hypothesis W : wf_prog p.
Lemma symbol_stop x s ms r : add_real_log demangle p s x = (ms, r) -> stops r -> ms = [] /\ real_names x = [].
Proof.
  intros E S. unfold add_real_log in E. rewrite (untagged_eq x) in E. cbv zeta in E. destruct (qbind_stop _ _ _ _ E S) as [[-> Sc]|[c [_ E1]]]; clear E.
  - split; [reflexivity|]. destruct (real_names x) as [|n ns] eqn:En; [reflexivity|]. exfalso. destruct (canonical_total p (n :: ns)) as [c Ec]; [discriminate|]. exact (Sc c Ec).
  - exfalso. destruct (lbind_stop _ _ _ _ E1 S) as [[r' [E2 S2]]|[m1 [info [m2 [_ [E2 _]]]]]]; clear E1.
    + destruct (sget (pg_sizes p) c); [exact (lret_stop _ _ _ E2 S2)|]. destruct (lbind_stop _ _ _ _ E2 S2) as [[r3 [E3 S3]]|[m1 [u [m2 [_ [E3 _]]]]]]; [|exact (lret_stop _ _ _ E3 S2)].
      destruct (negb _); [injection E3 as _ <-; exact (S3 tt eq_refl) | exact (lret_stop _ _ _ E3 S3)].
    + destruct (qbind_stop _ _ _ _ E2 S) as [[_ S3]|[am [_ E3]]]; clear E2.
      * destruct (note_name_total demangle (n_ambiguous s) c) as [m' Em]. exact (S3 m' Em).
      * cbn [add_node] in E3. destruct (def_of _ _); [exact (lret_stop _ _ _ E3 S)|]. destruct (decl_of _ _); [exact (lret_stop _ _ _ E3 S)|].
        destruct (negb _); [|exact (lret_stop _ _ _ E3 S)]. destruct (lbind_stop _ _ _ _ E3 S) as [[r4 [E4 S4]]|[m3 [u [m4 [_ [E4 _]]]]]]; [injection E4 as _ <-; exact (S4 tt eq_refl) | exact (lret_stop _ _ _ E4 S)].
Qed.
Lemma symbols_stop l2 : forall l1 s ms r, pg_defined p = l1 ++ l2 -> lfold (add_real_log demangle p) l2 s = (ms, r) -> stops r ->
  exists j x mss, nth_error (pg_defined p) (length l1 + j) = Some x /\ real_names x = [] /\ Forall2 (symbol_log p) (seq (length l1) j) mss /\ ms = concat mss.
Proof.
  induction l2 as [|x l2 IH]; intros l1 s ms r El E S; cbn [lfold] in E; [destruct (lret_stop _ _ _ E S)|].
  assert (Hm : nth_error (pg_defined p) (length l1) = Some x) by (rewrite El, nth_error_app2, Nat.sub_diag by lia; reflexivity).
  destruct (lbind_stop _ _ _ _ E S) as [[r' [E1 S1]]|[m1 [s1 [m2 [E1 [E2 ->]]]]]].
  - destruct (symbol_stop _ _ _ _ E1 S1) as [-> Hr]. exists 0, x, []. rewrite Nat.add_0_r. split; [exact Hm|]. split; [exact Hr|]. split; [constructor | reflexivity].
  - destruct (IH (l1 ++ [x]) s1 m2 r) as [j [y [mss [Hy [Hr [F ->]]]]]]; [rewrite <- app_assoc; exact El | exact E2 | exact S|].
    rewrite app_length in Hy, F. cbn [length] in Hy, F. rewrite <- Nat.add_assoc in Hy. rewrite Nat.add_1_r in F. exists (Datatypes.S j), y, (m1 :: mss). split; [exact Hy|]. split; [exact Hr|]. split; [|reflexivity].
    cbn [seq]. constructor; [exact (symbol_step demangle p W _ _ _ _ _ Hm E1) | exact F].
Qed.
End Symbols.

Section Statements.
Variables (demangle : str -> str) (p : prog) (nd0 : nodes).
Hypothesis (W : wf_prog p) (R : RN demangle p (pg_defined p) nd0).
Local Notation INV := (INV p nd0).
Local Notation SEEN := (SEEN p).
Local Notation all_ok := (all_ok p).
Lemma stmt_stop aliases c i x st ms r : exec_stmt_log p aliases c i x st = (ms, r) -> stops r -> ms = [].
Proof.
  intros E S. destruct x as [e ls]. destruct st as [expr|name|f|sg| | |]; cbn [exec_stmt_log] in E;
    try (destruct (qbind_stop _ _ _ _ E S) as [[-> _]|[e1 [_ E1]]]; [reflexivity | destruct (lret_stop _ _ _ E1 S)]).
  - exfalso. destruct (lbind_stop _ _ _ _ E S) as [[r' [E1 S1]]|[m1 [u [m2 [_ [E1 _]]]]]]; [|exact (lret_stop _ _ _ E1 S)].
    destruct (smem c (e_asm e)); [exact (lret_stop _ _ _ E1 S1) | injection E1 as _ <-; exact (S1 tt eq_refl)].
  - destruct name as [f|]; [|injection E as <- _; reflexivity]. exfalso. destruct (lbind_stop _ _ _ _ E S) as [[r' [E1 S1]]|[m1 [[e1 v] [m2 [_ [E1 _]]]]]]; [|exact (lret_stop _ _ _ E1 S)].
    destruct (sget (e_indices e) f); [exact (lret_stop _ _ _ E1 S1)|]. destruct (lbind_stop _ _ _ _ E1 S1) as [[r2 [E2 S2]]|[m1 [u [m2 [_ [E2 _]]]]]]; [injection E2 as _ <-; exact (S2 tt eq_refl) | exact (lret_stop _ _ _ E2 S1)].
  - destruct (taken_for_code _ f).
    + exfalso. destruct (negb _); [|exact (lret_stop _ _ _ E S)]. destruct (lbind_stop _ _ _ _ E S) as [[r2 [E2 S2]]|[m1 [u [m2 [_ [E2 _]]]]]]; [injection E2 as _ <-; exact (S2 tt eq_refl) | exact (lret_stop _ _ _ E2 S)].
    + destruct (qbind_stop _ _ _ _ E S) as [[-> _]|[e1 [_ E1]]]; [reflexivity | destruct (lret_stop _ _ _ E1 S)].
Qed.
Lemma stmt_bad evs i c st e ls ks ms r : INV evs e ks -> chosen p i c -> exec_stmt_log p (n_aliases nd0) c i (e, ls) st = (ms, r) -> stops r -> ~ stmt_ok p evs st.
Proof.
  intros H C E S K. apply (stmt_iff demangle p nd0 R evs e ks i c st H C) in K. destruct K as [e' K].
  pose proof (stmt_erase p (n_aliases nd0) c i (e, ls) st) as X. rewrite E in X. cbn [snd fst] in X. rewrite K in X. destruct r as [z|m|m|]; cbn [bind] in X; try discriminate X. exact (S z eq_refl).
Qed.
Lemma stmts_stop i c sts : chosen p i c -> forall evs e ls ks ms r, INV evs e ks -> SEEN evs ls ->
  lfold (exec_stmt_log p (n_aliases nd0) c i) sts (e, ls) = (ms, r) -> stops r ->
  exists pre st post, sts = pre ++ st :: post /\ all_ok evs (map (pair i) pre) /\ ~ stmt_ok p (evs ++ map (pair i) pre) st /\ stmts_log p evs (map (pair i) pre) ms.
Proof.
  intros C. induction sts as [|st sts IH]; intros evs e ls ks ms r H S E St; cbn [lfold] in E; [destruct (lret_stop _ _ _ E St)|].
  destruct (lbind_stop _ _ _ _ E St) as [[r' [E1 S1]]|[m1 [[e1 ls1] [m2 [E1 [E2 ->]]]]]].
  - exists [], st, sts. split; [reflexivity|]. split; [apply all_ok_nil|]. cbn [map]. rewrite app_nil_r. split; [exact (stmt_bad _ _ _ _ _ _ _ _ _ H C E1 S1)|]. rewrite (stmt_stop _ _ _ _ _ _ _ E1 S1). apply sl_nil.
  - destruct (stmt_news p nd0 W _ _ _ _ _ _ _ _ _ _ H S C E1) as [S2 N].
    assert (X : exec_stmt p (n_aliases nd0) c i e st = Ret e1).
    { pose proof (stmt_erase p (n_aliases nd0) c i (e, ls) st) as K. rewrite E1 in K. cbn [snd fst bind] in K. symmetry. exact K. }
    assert (Ok : stmt_ok p evs st) by (apply (stmt_iff demangle p nd0 R evs e ks i c st H C); exists e1; exact X).
    destruct (stmt_step demangle p nd0 W R _ _ _ _ _ _ _ H C X) as [_ [extra H1]]. destruct (IH _ _ _ _ _ _ H1 S2 E2 St) as [pre [st' [post [-> [A [B L]]]]]].
    exists (st :: pre), st', post. split; [reflexivity|]. cbn [map]. split; [apply all_ok_cons; split; assumption|]. split; [rewrite <- app_assoc in B; exact B|].
    destruct N as [[m [-> N]]|[-> N]]; [apply sl_news | apply sl_quiet]; assumption.
Qed.
Lemma defines_stop ds : (forall n d, In (n, d) ds -> d_name d = n) -> forall evs e ls ks ms r, INV evs e ks -> SEEN evs ls ->
  lfold (exec_define_log p (n_aliases nd0)) (map snd ds) (e, ls) = (ms, r) -> stops r ->
  exists pre i st post, trace p ds (pre ++ (i, st) :: post) /\ all_ok evs pre /\ ~ stmt_ok p (evs ++ pre) st /\ stmts_log p evs pre ms.
Proof.
  induction ds as [|[n d] ds IH]; intros Dn evs e ls ks ms r H S E St; cbn [map snd lfold] in E; [destruct (lret_stop _ _ _ E St)|].
  assert (Dn' : forall n' d', In (n', d') ds -> d_name d' = n') by (intros n' d' I; apply Dn; right; exact I).
  pose proof (Dn n d (or_introl eq_refl)) as Hn. unfold exec_define_log at 1 in E. destruct (sget (n_aliases nd0) (d_name d)) as [c|] eqn:Ea.
  - apply (rn_aliases _ _ _ _ R) in Ea. rewrite upto_all in Ea. destruct Ea as [i [Li Ci]]. rewrite Hn in Li.
    pose proof (INV_defined p nd0 _ _ _ (sinsert (e_defined e) c) H) as H0.
    assert (Es : sget (e_indices e) c = Some i).
    { apply (nd_idx _ _ _ _ (iv_nodes _ _ _ _ _ H)). left. exists i. split; [exact Ci | exact (nd_real _ _ _ _ (iv_nodes _ _ _ _ _ H) i (live_lt _ _ _ Li))]. }
    cbv zeta in E. cbn [e_indices] in E. rewrite Es in E. destruct (lbind_stop _ _ _ _ E St) as [[r' [E1 S1]]|[m1 [[e1 ls1] [m2 [E1 [E2 ->]]]]]]; clear E.
    + destruct (stmts_stop i c _ Ci _ _ _ _ _ _ H0 S E1 S1) as [pre [st [post [Ed [A [B L]]]]]]. destruct (defines_iff demangle p nd0 W R ds Dn' evs e ks H) as [tr [T _]].
      exists (map (pair i) pre), i, st, (map (pair i) post ++ tr). split; [|repeat split; assumption].
      replace (map (pair i) pre ++ (i, st) :: map (pair i) post ++ tr) with (map (pair i) (d_stmts d) ++ tr); [apply tr_kept; assumption|]. rewrite Ed, map_app, <- app_assoc. reflexivity.
    + destruct (stmts_steps demangle p nd0 W R i c _ Ci _ _ _ _ _ _ _ H0 S E1) as [ks1 [H1 [S1 L1]]]. destruct (IH Dn' _ _ _ _ _ _ H1 S1 E2 St) as [pre [k [st [post [T [A [B L2]]]]]]].
      exists (map (pair i) (d_stmts d) ++ pre), k, st, post. split; [rewrite <- app_assoc; apply tr_kept; assumption|]. split.
      * apply all_ok_app. split; [|exact A]. apply (stmts_iff demangle p nd0 W R i c (d_stmts d) Ci _ _ _ H0). exists e1.
        set (e0 := mkEdges _ _ _ _ _ _) in *. change e0 with (fst (e0, ls)). rewrite <- (lfold_snd (exec_stmt_log p (n_aliases nd0) c i) (exec_stmt p (n_aliases nd0) c i) fst (d_stmts d) (stmt_erase p (n_aliases nd0) c i) (e0, ls)).
        rewrite E1. reflexivity.
      * rewrite app_assoc. split; [exact B|]. exact (stmts_log_app p _ _ _ _ _ _ eq_refl L1 L2).
  - destruct (lbind_stop _ _ _ _ E St) as [[r' [E1 S1]]|[m1 [[e1 ls1] [m2 [E1 [E2 ->]]]]]]; [destruct (lret_stop _ _ _ E1 S1)|].
    apply lret_inv in E1. destruct E1 as [-> E1]. injection E1 as -> ->. destruct (IH Dn' _ _ _ _ _ _ H S E2 St) as [pre [k [st [post [T K]]]]]. exists pre, k, st, post. split; [|exact K]. apply tr_removed; [|exact T].
    rewrite Hn in Ea. exact (proj1 (alias_none demangle p nd0 R n) Ea).
Qed.
Lemma ir_stop ms r : ir_edges_log p nd0 = (ms, r) -> stops r ->
  exists pre i st post, trace p (pg_defines p) (pre ++ (i, st) :: post) /\ fine p pre /\ ~ stmt_ok p pre st /\ stmts_log p [] pre ms.
Proof.
  intros E S. unfold ir_edges_log in E. destruct (lbind_stop _ _ _ _ E S) as [[r' [E1 S1]]|[m1 [[e1 ls1] [m2 [_ [E1 _]]]]]]; [|destruct (lret_stop _ _ _ E1 S)].
  refine (defines_stop _ _ [] _ _ _ _ _ (INV0 demangle p nd0 R) _ E1 S1).
  - intros n d I. exact (eq_sym (wf_def_names _ W n d I)).
  - intros f. split; [intros [] | intros [_ [_ [k []]]]].
Qed.
End Statements.

Section Code.
Variables (demangle : str -> str) (p : prog) (nd0 : nodes) (evs : list event) (e : edgest) (ks0 : list key).
Hypothesis (W : wf_prog p) (R : RN demangle p (pg_defined p) nd0) (H0 : INV p nd0 evs e ks0).
Hypothesis (Hb : forall i st, In (i, st) evs <-> body p i st).
Hypothesis (Hd : forall c, In c (e_defined e) <-> exists n d i, In (n, d) (pg_defines p) /\ live p n i /\ chosen p i c).
Hypothesis (Nm : forall x, In x (pg_defined p) -> real_names x <> []).
Variables (stext : N) (text : str).
Hypothesis (Ht : is_thumb (pg_target p) = true) (Hx : pg_text p = Some (stext, text)).
Lemma settle_stop i c addr size a ms r : chosen p i c -> analysed p i addr size a ->
  settle_log c (smem c (e_asm e)) (is_outlined_function c) (local0 p c) a = (ms, r) -> stops r ->
  ~ agreed p i a /\ ((ms = [] /\ exists k, stack a = Some k /\ ~ (k <> 0%N <-> modifies_sp a = true)) \/ ((forall k, stack a = Some k -> (k <> 0%N <-> modifies_sp a = true)) /\ override_log p i c ms)).
Proof.
  intros C A E S. split.
  { intros G. apply (settle_iff p nd0 evs e ks0 W H0 Hb stext text Ht Hx i c addr size a C A) in G. destruct G as [l G]. rewrite <- (settle_erase c), E in G. exact (S l G). }
  unfold settle_log in E. destruct (lbind_stop _ _ _ _ E S) as [[r' [E1 S1]]|[n1 [u [n2 [E1 [E2 ->]]]]]]; clear E.
  - left. destruct (stack a) as [k|]; [|destruct (lret_stop _ _ _ E1 S1)]. destruct (Bool.eqb (negb (k =? 0)%N) (modifies_sp a)) eqn:B; [destruct (lret_stop _ _ _ E1 S1)|].
    injection E1 as <- _. split; [reflexivity|]. exists k. split; [reflexivity|]. intros K. apply eqb_iff in K. congruence.
  - right. assert (Co : forall k, stack a = Some k -> (k <> 0%N <-> modifies_sp a = true)).
    { intros k Ek. rewrite Ek in E1. destruct (Bool.eqb (negb (k =? 0)%N) (modifies_sp a)) eqn:B; [apply eqb_iff; exact B | discriminate E1]. }
    split; [exact Co|]. assert (n1 = []) as ->. { destruct (stack a) as [k|]; [destruct (Bool.eqb (negb (k =? 0)%N) (modifies_sp a))|]; try discriminate E1; injection E1 as <-; reflexivity. }
    clear E1. cbn [app]. destruct (lbind_stop _ _ _ _ E2 S) as [[r' [E3 S3]]|[n3 [l' [n4 [_ [E4 _]]]]]]; clear E2.
    2:{ exfalso. destruct (lbind_stop _ _ _ _ E4 S) as [[r' [E5 S5]]|[n5 [u' [n6 [_ [E5 _]]]]]]; [|exact (lret_stop _ _ _ E5 S)]. destruct l' as [k|]; [exact (lret_stop _ _ _ E5 S5) | injection E5 as _ <-; exact (S5 tt eq_refl)]. }
    pose proof (asm_iff p nd0 evs e ks0 W H0 Hb i c C) as HA. pose proof (outlined_iff p i c C) as HO. unfold local0 in E3. destruct (sget (pg_sizes p) c) as [m|] eqn:Es.
    + pose proof (llvm_size_some p W _ _ _ C Es) as L. destruct (lbind_stop _ _ _ _ E3 S3) as [[r'' [E7 S7]]|[n7 [m' [n8 [E7 [E8 ->]]]]]]; clear E3.
      * destruct (stack a) as [k|] eqn:Ek; [|destruct (lret_stop _ _ _ E7 S7)]. destruct (N.eqb_spec m k) as [-> | N].
        -- exfalso. cbn [negb andb] in E7. rewrite (N.eqb_refl k) in E7. cbn [negb andb] in E7. rewrite andb_false_r in E7. destruct (is_outlined_function c); exact (lret_stop _ _ _ E7 S7).
        -- cbn [negb andb] in E7. destruct (smem c (e_asm e)) eqn:Ea; [exfalso; rewrite overrides_note in E7; injection E7 as _ <-; exact (S7 k eq_refl)|].
           destruct (is_outlined_function c) eqn:Eo.
           ++ exfalso. destruct (_ && _); [rewrite overrides_note in E7; injection E7 as _ <-; exact (S7 k eq_refl) | exact (lret_stop _ _ _ E7 S7)].
           ++ injection E7 as <- _. apply or_no. intros m2 k2 why V. destruct (overridden_facts p W _ _ _ _ _ _ _ _ A L V) as [_ [_ [_ [[X _]|[_ [_ [X _]]]]]]]; [apply HA in X; discriminate X | apply HO in X; discriminate X].
      * assert (n8 = []) as -> by (destruct (Bool.eqb (negb (m' =? 0)%N) (modifies_sp a)); injection E8 as <- _; reflexivity). rewrite app_nil_r. clear E8.
        destruct (stack a) as [k|] eqn:Ek.
        -- destruct (N.eqb_spec m k) as [-> | N].
           ++ cbn [negb andb] in E7. rewrite (N.eqb_refl k) in E7. cbn [negb andb] in E7. rewrite andb_false_r in E7.
              assert (n7 = []) as -> by (destruct (is_outlined_function c); injection E7 as <-; reflexivity). apply or_no. intros m2 k2 why O.
              destruct (overridden_facts p W _ _ _ _ _ _ _ _ A L O) as [X1 [X2 [X3 _]]]. congruence.
           ++ cbn [negb andb] in E7. destruct (smem c (e_asm e)) eqn:Ea.
              ** rewrite overrides_note in E7. destruct (lbind_inv _ _ _ _ E7) as [q1 [u2 [q2 [Q1 [Q2 ->]]]]]. injection Q1 as <-. apply lret_inv in Q2. destruct Q2 as [-> _].
                 apply or_yes. exact (ov_asm p i m k addr size a A L Ek (not_eq_sym N) (proj1 HA eq_refl)).
              ** assert (NA : ~ has_asm p i) by (intros K; apply HA in K; discriminate K). destruct (is_outlined_function c) eqn:Eo; [|discriminate E7].
                 assert (O : outlined p i) by exact (proj1 HO eq_refl).
                 destruct (N.eqb_spec m 0) as [-> | N0]; cbn [andb] in E7.
                 --- destruct (N.eqb_spec k 0) as [-> | Nk]; [exfalso; exact (N eq_refl)|]. cbn [negb] in E7. rewrite overrides_note in E7.
                     destruct (lbind_inv _ _ _ _ E7) as [q1 [u2 [q2 [Q1 [Q2 ->]]]]]. injection Q1 as <-. apply lret_inv in Q2. destruct Q2 as [-> _].
                     apply or_yes. exact (ov_outlined p i 0%N k addr size a A L Ek Nk NA eq_refl O).
                 --- injection E7 as <- _. apply or_no. intros m2 k2 why V. destruct (overridden_facts p W _ _ _ _ _ _ _ _ A L V) as [X1 [X2 [X3 [[X4 _]|[_ [X4 _]]]]]]; [contradiction | congruence].
        -- injection E7 as <- _. apply or_no. intros m2 k2 why V. destruct (overridden_facts p W _ _ _ _ _ _ _ _ A L V) as [X1 [X2 _]]. congruence.
    + exfalso. destruct (stack a) as [k|]; [exact (lret_stop _ _ _ E3 S3)|]. destruct (negb _); exact (lret_stop _ _ _ E3 S3).
Qed.
Lemma code_stop m s x ks ms r : nth_error (pg_defined p) m = Some s -> MACH p evs m x ks -> exec_code_log p nd0 e (stext mod 2 ^ 32) text x s = (ms, r) -> stops r ->
  ~ code_ok p m s /\ broken_log p m s ms.
Proof.
  intros Hm H E S. assert (NK : ~ code_ok p m s).
  { intros K. destruct (code_total demangle p nd0 evs e ks0 W R H0 Hb stext text Ht Hx m s x ks Hm H Nm K) as [y Y]. rewrite <- code_erase, E in Y. exact (S y Y). }
  split; [exact NK|]. unfold exec_code_log in E. destruct (sy_names (snd s)) as [|name rest] eqn:En.
  { injection E as <- _. apply bk_code. intros addr size a [[n [ns [X _]]] _]. congruence. }
  assert (An : forall addr size a, analysed p m addr size a -> exists code, addr = (fst s mod 2 ^ 32)%N /\ code_size (pg_tags p) addr (snd s) = Ret size /\ slice text ((addr + 2 ^ 32 - stext mod 2 ^ 32) mod 2 ^ 32)%N size = Ret code /\ analyze code addr (is_v7 (pg_target p)) (pg_tags p) = Ret a).
  { intros addr size a [_ [st [tx [z [code [D1 [D2 [D3 [D4 [D5 D6]]]]]]]]]]. rewrite Hx in D1. injection D1 as <- <-. rewrite Hm in D2. injection D2 as <-. exists code. split; [exact D3|]. split; [apply code_size_iff; exact D4|]. split; [apply slice_iff; exact D5 | exact D6]. }
  destruct (sget (n_aliases nd0) name) as [c|] eqn:Ea.
  2:{ injection E as <- _. apply bk_code. intros addr size a [[n [ns [X T]]] _]. rewrite En in X. injection X as <- <-. exact (proj1 (alias_none demangle p nd0 R name) Ea m (first_name p m s _ _ Hm En T)). }
  apply (rn_aliases _ _ _ _ R) in Ea. rewrite upto_all in Ea. destruct Ea as [i' [L C]].
  assert (T : mapping_symbol name = false).
  { destruct L as [ns [[z [_ ->]] Z]]. unfold real_names in Z. apply filter_In in Z. destruct Z as [_ Z]. destruct (mapping_symbol name); [discriminate Z | reflexivity]. }
  assert (i' = m) by exact (live_inj p W name i' m L (first_name _ _ _ _ _ Hm En T)). subst i'.
  cbv zeta in E. destruct (qbind_stop _ _ _ _ E S) as [[-> S1]|[size [Z1 E1]]]; clear E.
  { apply bk_code. intros addr size a [_ [A _]]. destruct (An _ _ _ A) as [code [-> [X _]]]. exact (S1 _ X). }
  destruct (qbind_stop _ _ _ _ E1 S) as [[-> S2]|[code [Z2 E2]]]; clear E1.
  { apply bk_code. intros addr size' a [_ [A _]]. destruct (An _ _ _ A) as [code [-> [X [Y _]]]]. rewrite Z1 in X. injection X as <-. exact (S2 _ Y). }
  destruct (qbind_stop _ _ _ _ E2 S) as [[-> S3]|[a [Z3 E3]]]; clear E2.
  { apply bk_code. intros addr size' a [_ [A _]]. destruct (An _ _ _ A) as [code' [-> [X [Y Z]]]]. rewrite Z1 in X. injection X as <-. rewrite Z2 in Y. injection Y as <-. exact (S3 _ Z). }
  assert (A : analysed p m (fst s mod 2 ^ 32)%N size a).
  { split; [exact Ht|]. exists stext, text, s, code. split; [exact Hx|]. split; [exact Hm|]. split; [reflexivity|]. split; [apply code_size_iff; exact Z1|]. split; [apply slice_iff; exact Z2 | exact Z3]. }
  rewrite (idx p nd0 evs e ks0 H0 c m C) in E3. destruct x as [g seen]. pose proof (local_at p evs m s (g, seen) ks c Hm H C) as Lo. cbn [fst] in Lo.
  destruct (qbind_stop _ _ _ _ E3 S) as [[_ S4]|[l0 [Z4 E4]]]; clear E3; [destruct (S4 _ Lo)|]. rewrite Lo in Z4. injection Z4 as <-.
  assert (F1 : exists n ns, sy_names (snd s) = n :: ns /\ mapping_symbol n = false) by (exists name, rest; split; assumption).
  destruct (lbind_stop _ _ _ _ E4 S) as [[r' [E5 S5]]|[m1 [l [m2 [E5 [E6 ->]]]]]]; clear E4.
  - destruct (settle_stop m c _ size a ms r' C A E5 S5) as [Ng [[-> [k [Ek Nk]]]|[Co O]]].
    + apply bk_code. intros addr size' a' [_ [A' Co]]. destruct (analysed_fun p m _ _ _ _ _ _ A A') as [_ [_ <-]]. exact (Nk (Co k Ek)).
    + apply (bk_sizes p m s (fst s mod 2 ^ 32)%N size a c ms); [split; [exact F1|]; split; [exact A | exact Co] | exact Ng | exact C | exact O].
  - assert (Ag : agreed p m a).
    { apply (settle_iff p nd0 evs e ks0 W H0 Hb stext text Ht Hx m c _ size a C A). exists l. rewrite <- (settle_erase c), E5. reflexivity. }
    assert (St : settled p m s (fst s mod 2 ^ 32)%N size a) by (split; [exact F1|]; split; [exact A | exact Ag]).
    apply (bk_branches p m s (fst s mod 2 ^ 32)%N size a); [exact St | intros Rs; apply NK; exists (fst s mod 2 ^ 32)%N, size, a; split; assumption|].
    destruct (settle_notes p nd0 evs e ks0 W H0 Hb m c _ size a m1 l C A E5) as [n1 [n2 [-> [O U]]]].
    pose proof (blind_iff p e W Hd m c _ size a C A) as B.
    assert (K : part (blind p m) (blind_note c) m2).
    { destruct (lbind_stop _ _ _ _ E6 S) as [[r' [E7 S7]]|[m3 [g3 [m4 [E7 [E8 ->]]]]]]; clear E6.
      - exfalso. destruct (negb (smem c (e_defined e)) && indirect a); [|exact (lret_stop _ _ _ E7 S7)]. destruct (lbind_stop _ _ _ _ E7 S7) as [[r2 [E9 S9]]|[q1 [u2 [q2 [_ [Q2 _]]]]]]; [injection E9 as _ <-; exact (S9 tt eq_refl)|].
        destruct (add_node _ _) as [g5 v5]. exact (lret_stop _ _ _ Q2 S7).
      - assert (m4 = []) as ->. { destruct (qbind_stop _ _ _ _ E8 S) as [[-> _]|[x4 [_ E9]]]; [reflexivity | injection E9 as <- _; reflexivity]. }
        rewrite app_nil_r. destruct (negb (smem c (e_defined e)) && indirect a).
        + destruct (lbind_inv _ _ _ _ E7) as [q1 [u2 [q2 [Q1 [Q2 ->]]]]]. injection Q1 as <-. destruct (add_node _ _) as [g5 v5]. apply lret_inv in Q2. destruct Q2 as [-> _]. rewrite quoted_tick. apply pt_yes. apply B. reflexivity.
        + apply lret_inv in E7. destruct E7 as [-> _]. apply pt_no. intros K. apply B in K. discriminate K. }
    exists c, n1, n2, m2. split; [exact C|]. split; [symmetry; apply app_assoc|]. split; [exact O|]. split; [exact U | exact K].
Qed.

Lemma code_rest m s x y ks : nth_error (pg_defined p) m = Some s -> MACH p evs m x ks -> exec_code p nd0 e (stext mod 2 ^ 32) text x s = Ret y ->
  exists addr size a, analysed p m addr size a /\ resolved p addr size a.
Proof.
  intros Hm _ E5. unfold exec_code in E5. destruct (sy_names (snd s)) as [|name rest]; [discriminate E5|]. destruct (sget (n_aliases nd0) name) as [c|]; [|discriminate E5].
  destruct (bind_inv _ _ _ E5) as [size [F1 E6]]. clear E5. destruct (bind_inv _ _ _ E6) as [code [F2 E5]]. clear E6. destruct (bind_inv _ _ _ E5) as [a [F3 E6]]. clear E5.
  destruct (sget (e_indices e) c) as [caller|]; [|discriminate E6]. destruct x as [g1 seen].
  destruct (bind_inv _ _ _ E6) as [l1 [_ E5]]. clear E6. destruct (bind_inv _ _ _ E5) as [l2 [_ E6]]. clear E5. cbv zeta in E6. destruct (bind_inv _ _ _ E6) as [z [F4 F5]]. clear E6.
  exists (fst s mod 2 ^ 32)%N, size, a. split; [|split].
  - split; [exact Ht|]. exists stext, text, s, code. split; [exact Hx|]. split; [exact Hm|]. split; [reflexivity|]. split; [apply code_size_iff; exact F1|]. split; [apply slice_iff; exact F2 | exact F3].
  - intros off I. destruct (ofold_all _ _ _ _ F4 off I) as [s1 [s2 F6]]. unfold add_bl in F6. destruct (bind_inv _ _ _ F6) as [callee [F7 _]]. unfold node_at in F7.
    destruct (bget (n_addr2name nd0) (bl_addr (fst s mod 2 ^ 32) off)) as [nm|] eqn:Eb; [|discriminate F7]. apply (rn_addr _ _ _ _ R) in Eb. rewrite upto_all in Eb.
    destruct Eb as [j [J _]]. exists j. exact J.
  - intros off I Lv. destruct (ofold_all _ _ _ _ F5 off I) as [s1 [s2 F6]]. unfold add_b in F6. cbv zeta in F6.
    destruct ((_ <=? _) && (_ <? _))%N eqn:El.
    + exfalso. apply andb_prop in El. destruct El as [L1 L2]. apply N.leb_le in L1. apply N.ltb_lt in L2. unfold leaves, b_target, b_addr in *. destruct Lv as [Lv | Lv]; lia.
    + destruct (bind_inv _ _ _ F6) as [callee [F7 _]]. unfold node_at in F7.
      destruct (bget (n_addr2name nd0) (b_addr (fst s mod 2 ^ 32) off)) as [nm|] eqn:Eb; [|discriminate F7]. apply (rn_addr _ _ _ _ R) in Eb. rewrite upto_all in Eb.
      destruct Eb as [j [J _]]. exists j. exact J.
Qed.
Lemma codes_stop l2 : forall l1 x ks ms r, pg_defined p = l1 ++ l2 -> MACH p evs (length l1) x ks -> lfold (exec_code_log p nd0 e (stext mod 2 ^ 32) text) l2 x = (ms, r) -> stops r ->
  exists j s mss d, nth_error (pg_defined p) (length l1 + j) = Some s /\ Forall2 (code_log p) (seq (length l1) j) mss /\
    (forall i y, length l1 <= i < length l1 + j -> nth_error (pg_defined p) i = Some y -> code_ok p i y) /\ ~ code_ok p (length l1 + j) s /\ broken_log p (length l1 + j) s d /\ ms = concat mss ++ d.
Proof.
  induction l2 as [|s l2 IH]; intros l1 x ks ms r El H E S; cbn [lfold] in E; [destruct (lret_stop _ _ _ E S)|].
  assert (Hm : nth_error (pg_defined p) (length l1) = Some s) by (rewrite El, nth_error_app2, Nat.sub_diag by lia; reflexivity).
  destruct (lbind_stop _ _ _ _ E S) as [[r' [E1 S1]]|[m1 [z [m2 [E1 [E2 ->]]]]]].
  - destruct (code_stop _ _ _ _ _ _ Hm H E1 S1) as [N B]. exists 0, s, [], ms. rewrite Nat.add_0_r. split; [exact Hm|]. split; [constructor|]. split; [intros i y L; lia|]. split; [exact N|]. split; [exact B | reflexivity].
  - assert (X : exec_code p nd0 e (stext mod 2 ^ 32) text x s = Ret z) by (pose proof (code_erase p nd0 e (stext mod 2 ^ 32)%N text x s) as K; rewrite E1 in K; symmetry; exact K).
    destruct (code_step demangle p nd0 evs e ks0 W R H0 Hb Hd stext text Ht Hx _ _ _ _ _ Hm H X) as [extra H1].
    assert (Ok : code_ok p (length l1) s).
    { destruct (code_agreed demangle p nd0 evs e ks0 W R H0 Hb stext text Ht Hx _ _ _ _ _ Hm H X) as [F1 Ag]. destruct (code_rest _ _ _ _ _ Hm H X) as [addr [size [a [A Rs]]]]. exists addr, size, a. split; [|exact Rs]. split; [exact F1|]. split; [exact A | exact (Ag _ _ _ A)]. }
    destruct (IH (l1 ++ [s]) z (ks ++ extra) m2 r) as [j [y [mss [d [Hy [F [G [N [B ->]]]]]]]]]; [rewrite <- app_assoc; exact El | rewrite app_length, Nat.add_comm; exact H1 | exact E2 | exact S|].
    rewrite app_length in Hy, F, G, N, B. cbn [length] in Hy, F, G, N, B. rewrite <- Nat.add_assoc in Hy, G, N, B. rewrite Nat.add_1_r in F.
    exists (Datatypes.S j), y, (m1 :: mss), d. split; [exact Hy|]. split; [cbn [seq]; constructor; [exact (code_notes demangle p nd0 evs e ks0 W R H0 Hb Hd stext text Ht Hx _ _ _ _ _ _ Hm H E1) | exact F]|].
    split; [|split; [exact N|]; split; [exact B | cbn [concat]; rewrite <- app_assoc; reflexivity]].
    intros i q [Li Lj] Hi. destruct (Nat.eq_dec i (length l1)) as [-> | Ne]; [rewrite Hm in Hi; injection Hi as <-; exact Ok|]. apply (G i q); [lia | exact Hi].
Qed.
End Code.

(** * The construction *)
Theorem build_stop demangle o p ms r : wf_prog p -> fair o -> build_log demangle o p = (ms, r) -> stops r -> stopped p ms.
Proof.
  intros W Fo E S. unfold build_log in E. destruct (qbind_stop _ _ _ _ E S) as [[_ Sd]|[u [_ E1]]]; clear E.
  { exfalso. destruct (default_methods_total demangle (map fst (pg_defines p))) as [x X]. exact (Sd x X). }
  destruct (lbind_stop _ _ _ _ E1 S) as [[r' [E2 S2]]|[m1 [n [m2 [E2 [E3 ->]]]]]]; clear E1.
  { destruct (symbols_stop demangle p W (pg_defined p) [] _ _ _ eq_refl E2 S2) as [j [x [mss [Hx [Hr [F ->]]]]]]. exact (sp_symbol p j x mss Hx Hr F). }
  assert (En : real_nodes demangle p = Ret n) by (pose proof (real_erase demangle p) as K; rewrite E2 in K; symmetry; exact K).
  pose proof (real_nodes_spec _ _ _ W En) as R. pose proof (real_nodes_named demangle p n En) as Nm. destruct (symbols_steps demangle p W _ [] _ _ _ eq_refl E2) as [a [A ->]]. cbn [length] in A. clear E2.
  destruct (lbind_stop _ _ _ _ E3 S) as [[r' [E4 S4]]|[m3 [e [m4 [E4 [E5 ->]]]]]]; clear E3.
  { destruct (ir_stop demangle p n W R _ _ E4 S4) as [pre [i [st [post [T [F [N L]]]]]]]. exact (sp_stmt p a pre i st post m2 A T F N L). }
  assert (Ee : ir_edges p n = Ret e) by (pose proof (ir_erase p n) as K; rewrite E4 in K; symmetry; exact K).
  destruct (ir_steps demangle p n W R e m3 E4) as [tr [T B]]. assert (F : fine p tr).
  { intros pre i st post Et. apply (proj1 (ir_edges_iff demangle p n W R) (ex_intro _ e Ee) tr pre i st post T Et). }
  destruct (ir_edges_spec demangle p n W R e Ee) as [evs [ks0 [H0 [Hb Hd]]]]. destruct (lbind_stop _ _ _ _ E5 S) as [[r' [E6 S6]]|[m5 [g [m6 [_ [E7 _]]]]]]; clear E5.
  - unfold machine_edges_log in E6. destruct (is_thumb (pg_target p)) eqn:Th; [|destruct (lret_stop _ _ _ E6 S6)]. destruct (pg_text p) as [[stext text]|] eqn:X.
    + destruct (lbind_stop _ _ _ _ E6 S6) as [[r2 [E8 S8]]|[q1 [[g1 seen] [q2 [_ [E8 _]]]]]]; [|destruct (lret_stop _ _ _ E8 S6)].
      destruct (codes_stop demangle p n evs e ks0 W R H0 Hb Hd Nm stext text Th X (pg_defined p) [] _ ks0 _ _ eq_refl (MACH0 p n evs e ks0 H0) E8 S8) as [j [x [mss [d [Hx [C [G [N [Bk ->]]]]]]]]].
      cbn [length Nat.add] in *. refine (sp_code p a tr m3 j x mss d A T F B Th _ Hx C _ N Bk); [rewrite X; discriminate|]. intros i y L. apply G. lia.
    + exfalso. injection E6 as _ <-. exact (S6 _ eq_refl).
  - exfalso. destruct (lbind_stop _ _ _ _ E7 S) as [[r' [E8 S8]]|[m7 [g' [m8 [_ [E9 _]]]]]]; [|exact (lret_stop _ _ _ E9 S)].
    pose proof (indirect_erase o (n_untyped n) (n_fmts n) (e_indirects e) g) as K. rewrite E8 in K. exact (S8 _ K).
Qed.
(** After the construction nothing stops before the names are shortened. *)
Lemma finish_total demangle o p b : wf_prog p -> fair o -> build demangle o p = Ret b -> forall start,
  exists g2 g3 cs, filter_start demangle (b_indices b) start (b_g b) = Ret g2 /\ max_stack (b_info b) g2 = Ret (g3, cs).
Proof.
  intros W Fo E start. destruct (build_spec _ _ _ _ W Fo E) as [ks [void [G [_ [Hc [Hi Hb]]]]]]. pose proof (graph_wf p ks void _ G) as Wf.
  assert (F : exists g2, filter_start demangle (b_indices b) start (b_g b) = Ret g2 /\ wf_graph g2).
  { destruct start as [s|]; [|exists (b_g b); split; [reflexivity | exact Wf]]. destruct (resolve_start demangle (b_indices b) s) as [i|] eqn:R; [|exists (b_g b); cbn [filter_start]; rewrite R; split; [reflexivity | exact Wf]].
    assert (L : i < node_count (b_g b)).
    { destruct (resolve_in _ _ _ _ R) as [n I]. apply (sget_In _ _ _ (build_ikeys _ _ _ _ W E)) in I. apply Hi in I. destruct I as [[j [_ I]] | I]; exact (key_idx p ks void _ G _ _ I). }
    destruct (filter_restricts demangle (b_indices b) s i (b_g b) Wf R L) as [g2 [ids [K1 K2]]]. exists g2. split; [exact K1 | exact (rs_wf _ _ _ _ K2)]. }
  destruct F as [g2 [F W2]]. exists g2. destruct (b_info b); [|exists g2, []; split; [exact F | reflexivity]]. destruct (all_reported g2 W2) as [g3 [cs [M _]]]. exists g3, cs. split; [exact F | exact M].
Qed.
Theorem report_told demangle o start p ms r : wf_prog p -> fair o -> report_log demangle o start p = (ms, r) ->
  (understood p -> notes demangle p start ms) /\ (~ understood p -> stopped p ms /\ stops r).
Proof.
  intros W Fo E. destruct (outcome_dec (build demangle o p)) as [[b Eb]|Sb].
  - assert (U : understood p) by (apply (build_iff demangle o p W); exists b; exact Eb). split; [|intros N; destruct (N U)]. intros _.
    unfold report_log in E. destruct (build_log demangle o p) as [a r1] eqn:E1. assert (r1 = Ret b) as -> by (rewrite <- (build_erase demangle o p), E1 in Eb; exact Eb).
    destruct (finish_total demangle o p b W Fo Eb start) as [g2 [g3 [cs [F M]]]]. unfold lbind at 1 in E. cbn [snd fst] in E.
    destruct (filter_start_log demangle (b_indices b) start (b_g b)) as [m2 r2] eqn:E3. assert (r2 = Ret g2) as -> by (rewrite <- filter_erase, E3 in F; exact F). unfold lbind at 1 in E. cbn [snd fst] in E.
    destruct (max_stack_log (b_info b) g2) as [m3 r3] eqn:E5. assert (r3 = Ret (g3, cs)) as -> by (rewrite <- max_erase, E5 in M; exact M). unfold lbind at 1 in E. cbn [snd fst] in E.
    assert (m4 : fst (lg* g := quiet (shorten demangle (b_ambiguous b) g3) in lret (g, cs)) = []) by (unfold lbind; cbn [snd fst quiet]; destruct (shorten demangle (b_ambiguous b) g3); reflexivity).
    injection E as <- _. rewrite m4, app_nil_r. exists a, m2, m3. split; [reflexivity|]. split; [exact (build_log_notes demangle o p b a W Fo E1)|]. split; [exact (start_notes demangle o p b W Fo Eb start g2 m2 E3)|].
    destruct (build_spec demangle o p b W Fo Eb) as [_ [_ [_ [_ [_ [_ Hm]]]]]]. unfold max_stack_log in E5. destruct (b_info b); cbn [negb] in E5.
    + destruct (quiet_inv _ _ _ E5) as [-> _]. apply pt_no. intros K. apply K. apply Hm. reflexivity.
    + injection E5 as <- _. apply pt_yes. intros K. apply Hm in K. discriminate K.
  - split; [intros U; apply (build_iff demangle o p W) in U; destruct U as [b Eb]; destruct (Sb b Eb)|]. intros _.
    unfold report_log in E. destruct (build_log demangle o p) as [m1 r1] eqn:E1. assert (S1 : stops r1) by (intros b Eb; apply (Sb b); rewrite <- (build_erase demangle o p), E1; exact Eb).
    unfold lbind at 1 in E. cbn [snd fst] in E. destruct r1 as [b|m|m|]; [destruct (S1 b eq_refl)| | |]; injection E as <- <-; (split; [exact (build_stop demangle o p _ _ W Fo E1 S1) | intros z; discriminate]).
Qed.


(** ** What has been announced when a run stops is determined by the program *)
Section Determined.
Variable p : prog.
Hypothesis W : wf_prog p.
Lemma part_fun P m a b : part P m a -> part P m b -> a = b.
Proof. intros A B. inversion A; inversion B; subst; (reflexivity || contradiction). Qed.
Lemma symbol_fun i a b : symbol_log p i a -> symbol_log p i b -> a = b.
Proof. intros [n [a1 [a2 [C [-> [A1 A2]]]]]] [n' [b1 [b2 [C' [-> [B1 B2]]]]]]. rewrite (chosen_fun p _ _ _ C' C) in *. now rewrite (part_fun _ _ _ _ A1 B1), (part_fun _ _ _ _ A2 B2). Qed.
Lemma F2_fun {A B} (R : A -> B -> Prop) l : (forall x a b, R x a -> R x b -> a = b) -> forall a b, Forall2 R l a -> Forall2 R l b -> a = b.
Proof. intros H. induction l as [|x l IH]; intros a b Ha Hb; inversion Ha; inversion Hb; subst; [reflexivity|]. f_equal; [eapply H; eassumption | now apply IH]. Qed.
Lemma news_fun done x m m' : news p done x m -> news p done x m' -> m = m'.
Proof. intros A B. inversion A; subst; inversion B; subst; try reflexivity. match goal with C : chosen p _ ?n, C' : chosen p _ ?n' |- asm_note _ ?n = _ => now rewrite (chosen_fun p _ _ _ C C') end. Qed.
Lemma stmts_fun l : forall done a b, stmts_log p done l a -> stmts_log p done l b -> a = b.
Proof.
  induction l as [|x l IH]; intros done a b A B; inversion A; subst; inversion B; subst; try reflexivity.
  - f_equal; [eapply news_fun; eassumption | eapply IH; eassumption].
  - exfalso. match goal with N : forall m, ~ news _ _ _ m, Y : news _ _ _ _ |- _ => exact (N _ Y) end.
  - exfalso. match goal with N : forall m, ~ news _ _ _ m, Y : news _ _ _ _ |- _ => exact (N _ Y) end.
  - eapply IH; eassumption.
Qed.
Lemma overridden_fun i m k why m' k' why' : overridden p i m k why -> overridden p i m' k' why' -> m = m' /\ k = k' /\ why = why'.
Proof.
  intros A B. assert (L : exists addr size a, analysed p i addr size a /\ llvm_size p i (Some m)) by (inversion A; subst; eexists _, _, _; split; eassumption). destruct L as [addr [size [a [An L]]]].
  destruct (overridden_facts p W _ _ _ _ _ _ _ _ An L A) as [_ [X1 [_ X2]]]. destruct (overridden_facts p W _ _ _ _ _ _ _ _ An L B) as [Y0 [Y1 [_ Y2]]].
  split; [congruence|]. split; [congruence|]. destruct X2 as [[X2 ->]|[X2 [_ [_ ->]]]], Y2 as [[Y2 ->]|[Y2 [_ [_ ->]]]]; (reflexivity || contradiction).
Qed.
Lemma override_fun i n a b : override_log p i n a -> override_log p i n b -> a = b.
Proof.
  intros A B. inversion A; subst; inversion B; subst; try reflexivity.
  - destruct (overridden_fun _ _ _ _ _ _ _ H H0) as [-> [-> ->]]. reflexivity.
  - destruct (H0 _ _ _ H).
  - destruct (H _ _ _ H0).
Qed.
Lemma code_fun i a b : code_log p i a -> code_log p i b -> a = b.
Proof.
  intros [n [a1 [a2 [a3 [C [-> [A1 [A2 A3]]]]]]]] [n' [b1 [b2 [b3 [C' [-> [B1 [B2 B3]]]]]]]]. rewrite (chosen_fun p _ _ _ C' C) in *.
  now rewrite (override_fun _ _ _ _ A1 B1), (part_fun _ _ _ _ A2 B2), (part_fun _ _ _ _ A3 B3).
Qed.
Lemma settled_readable i x addr size a : settled p i x addr size a -> readable p i x addr size a.
Proof. intros [F [A [G _]]]. split; [exact F|]. split; assumption. Qed.
Lemma broken_fun i x a b : broken_log p i x a -> broken_log p i x b -> a = b.
Proof.
  intros A B. destruct A as [N|addr size an n ms Rd Ng C O|addr size an ms Sd Nr C]; destruct B as [N'|addr' size' an' n' ms' Rd' Ng' C' O'|addr' size' an' ms' Sd' Nr' C'].
  - reflexivity.
  - destruct (N _ _ _ Rd').
  - destruct (N _ _ _ (settled_readable _ _ _ _ _ Sd')).
  - destruct (N' _ _ _ Rd).
  - rewrite (chosen_fun p _ _ _ C' C) in O'. exact (override_fun _ _ _ _ O O').
  - exfalso. destruct Rd as [_ [A _]]. destruct Sd' as [_ [A' G]]. destruct (analysed_fun p i _ _ _ _ _ _ A A') as [_ [_ <-]]. exact (Ng G).
  - destruct (N' _ _ _ (settled_readable _ _ _ _ _ Sd)).
  - exfalso. destruct Rd' as [_ [A _]]. destruct Sd as [_ [A' G]]. destruct (analysed_fun p i _ _ _ _ _ _ A A') as [_ [_ <-]]. exact (Ng' G).
  - exact (code_fun _ _ _ C C').
Qed.
Lemma F2_seq {B} (R : nat -> B -> Prop) n : forall k l, Forall2 R (seq k n) l -> forall i, k <= i < k + n -> exists b, R i b.
Proof.
  induction n as [|n IH]; intros k l F i L; [lia|]. cbn [seq] in F. inversion F; subst. destruct (Nat.eq_dec i k) as [-> | N]; [eexists; eassumption|]. eapply IH; [eassumption | lia].
Qed.
Lemma nameless k x l n : nth_error (pg_defined p) k = Some x -> real_names x = [] -> Forall2 (symbol_log p) (seq 0 n) l -> n <= k.
Proof.
  intros Hk Hr F. destruct (Nat.le_gt_cases n k) as [L|L]; [exact L|]. exfalso. destruct (F2_seq _ _ _ _ F k) as [b [c [b1 [b2 [C _]]]]]; [lia|]. apply chosen_live in C. destruct C as [ns [[z [Hz ->]] I]]. rewrite Hk in Hz. injection Hz as <-. rewrite Hr in I. destruct I.
Qed.
Lemma later {A} (x y : A) : forall pre post pre' post', pre ++ x :: post = pre' ++ y :: post' -> (pre = pre' /\ x = y /\ post = post') \/ (exists m, pre' = pre ++ x :: m) \/ exists m, pre = pre' ++ y :: m.
Proof.
  induction pre as [|z pre IH]; intros post [|z' pre'] post' E; cbn [app] in E; injection E as E1 E2.
  - left. repeat split; assumption.
  - right. left. exists pre'. subst. reflexivity.
  - right. right. exists pre. subst. reflexivity.
  - subst z'. destruct (IH _ _ _ E2) as [[-> [-> ->]]|[[m ->]|[m ->]]]; [left; repeat split | right; left; exists m; reflexivity | right; right; exists m; reflexivity].
Qed.
Theorem stopped_fun a b : stopped p a -> stopped p b -> a = b.
Proof.
  assert (Len : forall k (x : N * symbol), nth_error (pg_defined p) k = Some x -> k < length (pg_defined p)) by (intros k x H; apply nth_error_Some; congruence).
  assert (TS : forall t t', trace p (pg_defines p) t -> trace p (pg_defines p) t' -> t = t') by (intros t t'; exact (trace_same p W (pg_defines p) t t')).
  intros A B. destruct A as [k x a Hk Hr F|a pre i st post b0 F T Fi N L|a tr b0 k x c d F T Fi L Th Tx Hk C G N K]; destruct B as [k' x' a' Hk' Hr' F'|a' pre' i' st' post' b' F' T' Fi' N' L'|a' tr' b' k' x' c' d' F' T' Fi' L' Th' Tx' Hk' C' G' N' K'].
  - assert (k' = k) by (pose proof (nameless _ _ _ _ Hk Hr F'); pose proof (nameless _ _ _ _ Hk' Hr' F); lia). subst k'. now rewrite (F2_fun _ _ symbol_fun _ _ F F').
  - exfalso. pose proof (nameless _ _ _ _ Hk Hr F'). pose proof (Len _ _ Hk). lia.
  - exfalso. pose proof (nameless _ _ _ _ Hk Hr F'). pose proof (Len _ _ Hk). lia.
  - exfalso. pose proof (nameless _ _ _ _ Hk' Hr' F). pose proof (Len _ _ Hk'). lia.
  - rewrite (F2_fun _ _ symbol_fun _ _ F F'). f_equal. destruct (later _ _ _ _ _ _ (TS _ _ T T')) as [[<- _]|[[m ->]|[m ->]]].
    + exact (stmts_fun _ _ _ _ L L').
    + exfalso. exact (N (Fi' _ _ _ _ eq_refl)).
    + exfalso. exact (N' (Fi _ _ _ _ eq_refl)).
  - exfalso. rewrite <- (TS _ _ T T') in Fi'. exact (N (Fi' _ _ _ _ eq_refl)).
  - exfalso. pose proof (nameless _ _ _ _ Hk' Hr' F). pose proof (Len _ _ Hk'). lia.
  - exfalso. rewrite (TS _ _ T T') in Fi. exact (N' (Fi _ _ _ _ eq_refl)).
  - assert (k' = k). { destruct (Nat.lt_trichotomy k k') as [X|[X|X]]; [exfalso; exact (N (G' _ _ X Hk)) | symmetry; exact X | exfalso; exact (N' (G _ _ X Hk'))]. } subst k'.
    rewrite Hk in Hk'. injection Hk' as <-. rewrite <- (TS _ _ T T') in L'. rewrite (F2_fun _ _ symbol_fun _ _ F F'), (stmts_fun _ _ _ _ L L'), (F2_fun _ _ code_fun _ _ C C'), (broken_fun _ _ _ _ K K'). reflexivity.
Qed.
Theorem early_fun a b : told_early p a -> told_early p b -> a = b.
Proof.
  assert (Len : forall k (x : N * symbol), nth_error (pg_defined p) k = Some x -> k < length (pg_defined p)) by (intros k x H; apply nth_error_Some; congruence).
  assert (TS : forall t t', trace p (pg_defines p) t -> trace p (pg_defines p) t' -> t = t') by (intros t t'; exact (trace_same p W (pg_defines p) t t')).
  intros A B. destruct A as [k x a Hk Hr F|a pre i st post b0 F T Fi N L|a tr b0 F T Fi L]; destruct B as [k' x' a' Hk' Hr' F'|a' pre' i' st' post' b' F' T' Fi' N' L'|a' tr' b' F' T' Fi' L'].
  - assert (k' = k) by (pose proof (nameless _ _ _ _ Hk Hr F'); pose proof (nameless _ _ _ _ Hk' Hr' F); lia). subst k'. now rewrite (F2_fun _ _ symbol_fun _ _ F F').
  - exfalso. pose proof (nameless _ _ _ _ Hk Hr F'). pose proof (Len _ _ Hk). lia.
  - exfalso. pose proof (nameless _ _ _ _ Hk Hr F'). pose proof (Len _ _ Hk). lia.
  - exfalso. pose proof (nameless _ _ _ _ Hk' Hr' F). pose proof (Len _ _ Hk'). lia.
  - rewrite (F2_fun _ _ symbol_fun _ _ F F'). f_equal. destruct (later _ _ _ _ _ _ (TS _ _ T T')) as [[<- _]|[[m ->]|[m ->]]].
    + exact (stmts_fun _ _ _ _ L L').
    + exfalso. exact (N (Fi' _ _ _ _ eq_refl)).
    + exfalso. exact (N' (Fi _ _ _ _ eq_refl)).
  - exfalso. rewrite <- (TS _ _ T T') in Fi'. exact (N (Fi' _ _ _ _ eq_refl)).
  - exfalso. pose proof (nameless _ _ _ _ Hk' Hr' F). pose proof (Len _ _ Hk'). lia.
  - exfalso. rewrite (TS _ _ T T') in Fi. exact (N' (Fi _ _ _ _ eq_refl)).
  - rewrite <- (TS _ _ T T') in L'. rewrite (F2_fun _ _ symbol_fun _ _ F F'), (stmts_fun _ _ _ _ L L'). reflexivity.
Qed.
End Determined.
Theorem early_told demangle p ms r : wf_prog p -> early_log demangle p = (ms, r) -> told_early p ms.
Proof.
  intros W E. unfold early_log in E. destruct (default_methods_total demangle (map fst (pg_defines p))) as [u Eu]. rewrite Eu in E. unfold lbind at 1 in E. cbn [quiet fst snd] in E.
  destruct (real_nodes_log demangle p) as [m1 r1] eqn:E2. destruct (outcome_dec r1) as [[n ->]|S1].
  2:{ destruct (symbols_stop demangle p W (pg_defined p) [] _ _ _ eq_refl E2 S1) as [j [x [mss [Hx [Hr [F ->]]]]]]. unfold lbind in E. cbn [fst snd] in E.
      destruct r1 as [n| | |]; [destruct (S1 n eq_refl)|..]; injection E as <- _; exact (te_symbol p j x mss Hx Hr F). }
  assert (En : real_nodes demangle p = Ret n) by (pose proof (real_erase demangle p) as K; rewrite E2 in K; symmetry; exact K).
  pose proof (real_nodes_spec _ _ _ W En) as R. destruct (symbols_steps demangle p W _ [] _ _ _ eq_refl E2) as [a [A ->]]. cbn [length] in A. clear E2.
  unfold lbind in E. cbn [fst snd app] in E. destruct (ir_edges_log p n) as [m3 r3] eqn:E4. cbn [fst snd] in E. injection E as <- _. destruct (outcome_dec r3) as [[e ->]|S3].
  2:{ destruct (ir_stop demangle p n W R _ _ E4 S3) as [pre [i [st [post [T [F [N L]]]]]]]. exact (te_stmt p a pre i st post _ A T F N L). }
  assert (Ee : ir_edges p n = Ret e) by (pose proof (ir_erase p n) as K; rewrite E4 in K; symmetry; exact K).
  destruct (ir_steps demangle p n W R e m3 E4) as [tr [T B]]. apply (te_all p a tr m3 A T); [|exact B].
  intros pre i st post Et. apply (proj1 (ir_edges_iff demangle p n W R) (ex_intro _ e Ee) tr pre i st post T Et).
Qed.
Theorem stopped_same demangle o start demangle' o' start' p ms r ms' r' : wf_prog p -> fair o -> fair o' -> ~ understood p ->
  report_log demangle o start p = (ms, r) -> report_log demangle' o' start' p = (ms', r') -> ms = ms'.
Proof.
  intros W Fo Fo' N E E'. apply (stopped_fun p W).
  - exact (proj1 (proj2 (report_told _ _ _ _ _ _ W Fo E) N)).
  - exact (proj1 (proj2 (report_told _ _ _ _ _ _ W Fo' E') N)).
Qed.
