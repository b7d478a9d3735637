(** What is logged while the graph is built. *)
From Coq Require Import Permutation Sorted.
From Verif Require Import M_base M_stack M_graph M_analysis M_filter M_names M_thumb M_ty M_parse M_build M_run M_log S_names S_sig S_build S_run S_log.
From Verif Require Import L_base L_names L_build1 L_build2 L_build3 L_build4 L_build5 L_build6 L_build7 L_build8 L_build9 L_log.

Lemma lbind_inv {A B} (x : lg A) (f : A -> lg B) ms b : (lg* y := x in f y) = (ms, Ret b) -> exists m1 a m2, x = (m1, Ret a) /\ f a = (m2, Ret b) /\ ms = m1 ++ m2.
Proof.
  unfold lbind. destruct x as [m1 [a| | |]]; cbn [fst snd]; try discriminate. intros E. destruct (f a) as [m2 r] eqn:F. cbn [fst snd] in E. injection E as <- ->.
  exists m1, a, m2. split; [reflexivity|]. split; [exact F | reflexivity].
Qed.
Lemma quiet_inv {A} (x : outcome A) ms b : quiet x = (ms, Ret b) -> ms = [] /\ x = Ret b.
Proof. intros E. injection E as <- ->. split; reflexivity. Qed.
Lemma lret_inv {A} (x : A) ms b : lret x = (ms, Ret b) -> ms = [] /\ b = x.
Proof. intros E. injection E as <- <-. split; reflexivity. Qed.
Lemma qbind_inv {A B} (x : outcome A) (f : A -> lg B) ms b : (lg* y := quiet x in f y) = (ms, Ret b) -> exists a, x = Ret a /\ f a = (ms, Ret b).
Proof. intros E. destruct (lbind_inv _ _ _ _ E) as [m1 [a [m2 [E1 [E2 ->]]]]]. destruct (quiet_inv _ _ _ E1) as [-> E3]. exists a. split; assumption. Qed.
Lemma part_if (P : Prop) m (b : bool) : (b = true <-> P) -> part P m (if b then [m] else []).
Proof. intros H. destruct b; [apply pt_yes; now apply H | apply pt_no; intros K; apply H in K; discriminate]. Qed.

Lemma quoted_tick a n b : quoted a n b = a ++ tick n ++ b.
Proof. unfold quoted, tick. rewrite <- !app_assoc. reflexivity. Qed.
Section Symbols.
Variables (demangle : str -> str) (p : prog).
Hypothesis W : wf_prog p.
Lemma usage_plain i n : chosen p i n -> is_thumb (pg_target p) = false -> (sget (pg_sizes p) n = None <-> usage p i LUnknown).
Proof.
  intros C T. split.
  - intros E. apply us_none; [left; exact T | exact (llvm_size_none p i n C E)].
  - intros U. assert (L : llvm_size p i None) by (inversion U; assumption). destruct (sget (pg_sizes p) n) as [k|] eqn:E; [|reflexivity].
    pose proof (llvm_size_fun p i _ _ W L (llvm_size_some p W i n k C E)) as X. discriminate X.
Qed.
Lemma symbol_step i x s s' ms : nth_error (pg_defined p) i = Some x -> add_real_log demangle p s x = (ms, Ret s') -> symbol_log p i ms.
Proof.
  intros Hi E. unfold add_real_log in E. rewrite (untagged_eq x) in E. cbv zeta in E. destruct (qbind_inv _ _ _ _ E) as [c [Ec E1]]. clear E.
  apply canonical_choose in Ec. assert (C : chosen p i c) by (exists (real_names x); split; [exists x; split; [exact Hi | reflexivity] | exact Ec]).
  destruct (lbind_inv _ _ _ _ E1) as [a [info [b [E2 [E3 ->]]]]]. clear E1. destruct (qbind_inv _ _ _ _ E3) as [am [_ E4]]. clear E3. cbn [add_node] in E4.
  exists c, a, b. split; [exact C|]. split; [reflexivity|]. split.
  - destruct (sget (pg_sizes p) c) as [k|] eqn:Es.
    + apply lret_inv in E2. destruct E2 as [-> _]. apply pt_no. intros [T U]. apply (usage_plain i c C T) in U. congruence.
    + destruct (lbind_inv _ _ _ _ E2) as [a1 [u [a2 [E5 [E6 ->]]]]]. apply lret_inv in E6. destruct E6 as [-> _]. rewrite app_nil_r.
      destruct (is_thumb (pg_target p)) eqn:T; cbn [negb] in E5.
      * apply lret_inv in E5. destruct E5 as [-> _]. apply pt_no. intros [X _]. discriminate X.
      * injection E5 as <-. unfold quoted. rewrite app_nil_r. apply pt_yes. split; [reflexivity|]. exact (proj1 (usage_plain i c C T) Es).
  - destruct (def_of (pg_defines p) (real_names x)) as [d|] eqn:Ed.
    + apply lret_inv in E4. destruct E4 as [-> _]. apply pt_no. intros U. apply untyped_at in U. destruct U as [ns [[y [Hy ->]] [n [_ [Q _]]]]]. rewrite Hi in Hy. injection Hy as <-.
      assert (X : def_of (pg_defines p) (real_names x) = None) by (apply def_of_None; intros m Hm; exact (proj1 (Q m Hm))). congruence.
    + destruct (decl_of (pg_declares p) (real_names x)) as [sg|] eqn:El.
      * apply lret_inv in E4. destruct E4 as [-> _]. apply pt_no. intros U. apply untyped_at in U. destruct U as [ns [[y [Hy ->]] [n [_ [Q _]]]]]. rewrite Hi in Hy. injection Hy as <-.
        assert (X : decl_of (pg_declares p) (real_names x) = None) by (apply (decl_of_None p _ (wf_declares _ W)); intros m Hm; exact (proj2 (Q m Hm))). congruence.
      * assert (U : untyped_fn p i <-> is_outlined_function c = false).
        { split.
          - intros U. apply untyped_at in U. destruct U as [ns [[y [Hy ->]] [n [Ch [_ O]]]]]. rewrite Hi in Hy. injection Hy as <-. rewrite (choose_unique _ _ _ _ Ec Ch).
            destruct (is_outlined_function n) eqn:Eo; [|reflexivity]. apply outlined_spec in Eo. now destruct O.
          - intros Eo. apply untyped_at. exists (real_names x). split; [exists x; split; [exact Hi | reflexivity]|]. exists c. split; [exact Ec|]. split.
            + intros m Hm. split; [exact (proj1 (def_of_None _ _) Ed m Hm) | exact (proj1 (decl_of_None p _ (wf_declares _ W)) El m Hm)].
            + intros O. apply outlined_spec in O. congruence. }
        destruct (is_outlined_function c) eqn:Eo; cbn [negb] in E4.
        -- apply lret_inv in E4. destruct E4 as [-> _]. apply pt_no. intros K. apply U in K. discriminate K.
        -- destruct (lbind_inv _ _ _ _ E4) as [b1 [u [b2 [E5 [E6 ->]]]]]. apply lret_inv in E6. destruct E6 as [-> _]. injection E5 as <-. rewrite app_nil_r. unfold quoted. rewrite app_nil_r.
           apply pt_yes. apply U. reflexivity.
Qed.
Lemma symbols_steps l2 : forall l1 s s' ms, pg_defined p = l1 ++ l2 -> lfold (add_real_log demangle p) l2 s = (ms, Ret s') ->
  exists mss, Forall2 (symbol_log p) (seq (length l1) (length l2)) mss /\ ms = concat mss.
Proof.
  induction l2 as [|x l2 IH]; intros l1 s s' ms El E; cbn [lfold] in E.
  - apply lret_inv in E. destruct E as [-> _]. exists []. split; [constructor | reflexivity].
  - destruct (lbind_inv _ _ _ _ E) as [m1 [s1 [m2 [E1 [E2 ->]]]]].
    assert (Hm : nth_error (pg_defined p) (length l1) = Some x) by (rewrite El, nth_error_app2, Nat.sub_diag by lia; reflexivity).
    destruct (IH (l1 ++ [x]) s1 s' m2) as [mss [F ->]]; [rewrite <- app_assoc; exact El | exact E2|]. exists (m1 :: mss). split; [|reflexivity].
    cbn [length seq]. constructor; [exact (symbol_step _ _ _ _ _ Hm E1)|]. rewrite app_length, Nat.add_comm in F. exact F.
Qed.
End Symbols.

Ltac each H := repeat (destruct H as [H | H]); try contradiction.
Lemma starts_disjoint a b f : starts_with a b = false -> starts_with b a = false -> starts_with a f = true -> starts_with b f = false.
Proof.
  revert b f. induction a as [|c a IH]; intros b f H1 H2 H3; [discriminate H1|]. destruct b as [|d b]; [discriminate H2|]. destruct f as [|e f]; [discriminate H3|].
  cbn [starts_with] in *. destruct (Ascii.eqb c e) eqn:E; cbn [andb] in H3; [|discriminate H3]. apply Ascii.eqb_eq in E. subst e. destruct (Ascii.eqb_spec c d) as [->|N].
  - rewrite Ascii.eqb_refl in *. cbn [andb] in *. exact (IH b f H1 H2 H3).
  - assert (Ascii.eqb d c = false) as -> by (apply Ascii.eqb_neq; congruence). reflexivity.
Qed.
Definition earlier : list str := map lit ["llvm.dbg.value"; "llvm.dbg.declare"; "llvm.assume"; "llvm.trap"; "llvm.lifetime.start"; "llvm.lifetime.end"; "llvm.memcpy."; "llvm.memset."; "llvm.memmove."]%string.
Lemma assumed_iff f : assumed f <-> existsb (fun pre => starts_with pre f) lowered_prefixes || str_eqb f (lit "llvm.x86.sse2.pause") = true.
Proof.
  rewrite orb_true_iff, existsb_exists, str_eqb_eq. unfold assumed, lowered_prefixes. split.
  - intros [->|[pre [r [-> I]]]]; [right; reflexivity|]. left. exists (lit pre). split; [apply in_map; exact I | apply starts_with_refl].
  - intros [[pre [I S]] | ->]; [|left; reflexivity]. right. apply in_map_iff in I. destruct I as [q [<- I]]. destruct (starts_with_inv _ _ S) as [r ->]. exists q, r. split; [reflexivity | exact I].
Qed.
Lemma assumed_late f : assumed f -> forall pre, In pre earlier -> starts_with pre f = false.
Proof.
  intros A. assert (K : exists q, In q (lit "llvm.x86.sse2.pause" :: lowered_prefixes) /\ starts_with q f = true).
  { destruct A as [->|[q [r [-> I]]]]; [exists (lit "llvm.x86.sse2.pause"); split; [left; reflexivity | reflexivity]|]. exists (lit q). split; [right; apply in_map; exact I | apply starts_with_refl]. }
  destruct K as [q [I S]]. intros pre J.
  assert (D : forallb (fun q => forallb (fun e => negb (starts_with q e) && negb (starts_with e q)) earlier) (lit "llvm.x86.sse2.pause" :: lowered_prefixes) = true) by (vm_compute; reflexivity).
  rewrite forallb_forall in D. specialize (D q I). rewrite forallb_forall in D. specialize (D pre J). apply andb_true_iff in D. destruct D as [D1 D2]. apply negb_true_iff in D1, D2.
  exact (starts_disjoint q pre f D1 D2 S).
Qed.
Lemma starts_refl s : starts_with s s = true.
Proof. rewrite <- (app_nil_r s) at 2. apply starts_with_refl. Qed.
Lemma taken_iff t f : taken_for_code t f = true <-> t = false /\ assumed f.
Proof.
  unfold taken_for_code. split.
  - destruct (smem f _); [discriminate|]. destruct (starts_with _ f || starts_with _ f); [discriminate|]. destruct (t && starts_with (lit "llvm.") f) eqn:T; [discriminate|].
    destruct (starts_with (lit "llvm.memcpy.") f); [discriminate|]. destruct (starts_with (lit "llvm.memset.") f || starts_with (lit "llvm.memmove.") f); [discriminate|]. intros K. apply assumed_iff in K. split; [|exact K].
    destruct t; [|reflexivity]. cbn [andb] in T. exfalso. destruct K as [-> | [q [r [-> I]]]]; [vm_compute in T; discriminate T|]. cbn in I. each I; subst q; cbn in T; discriminate T.
  - intros [-> A]. pose proof (assumed_late f A) as L. destruct (smem f _) eqn:M.
    { exfalso. apply smem_In in M. assert (J : In f earlier) by (cbn in M |- *; tauto). specialize (L f J). rewrite starts_refl in L. discriminate L. }
    rewrite (L (lit "llvm.lifetime.start")) by (cbn; tauto). rewrite (L (lit "llvm.lifetime.end")) by (cbn; tauto). cbn [orb andb].
    rewrite (L (lit "llvm.memcpy.")) by (cbn; tauto). rewrite (L (lit "llvm.memset.")) by (cbn; tauto). rewrite (L (lit "llvm.memmove.")) by (cbn; tauto). cbn [orb]. apply assumed_iff. exact A.
Qed.

Section Statements.
Variables (demangle : str -> str) (p : prog) (nd0 : nodes).
Hypothesis (W : wf_prog p) (R : RN demangle p (pg_defined p) nd0).
Local Notation INV := (INV p nd0).
Definition SEEN (evs : list (nat * stmt)) (ls : list str) : Prop :=
  forall f, In f ls <-> is_thumb (pg_target p) = false /\ assumed f /\ exists k, In (k, DirectCall f) evs.
Lemma created_introduces evs f : createdE p evs f <-> exists y, In y evs /\ introduces p y f.
Proof.
  unfold createdE, introduces. split.
  - intros [[i [I K]]|[i [I K]]].
    + exists (i, DirectCall f). split; [exact I|]. left. split; [reflexivity | exact K].
    + exists (i, BitcastCall (Some f)). split; [exact I|]. right. split; [reflexivity | exact K].
  - intros [[i st] [I [[E K]|[E K]]]]; cbn [snd] in E; subst st; [left | right]; exists i; split; assumption.
Qed.
Lemma seen_other evs ls x : (forall f, snd x <> DirectCall f \/ taken_for_code (is_thumb (pg_target p)) f = false) -> SEEN evs ls -> SEEN (evs ++ [x]) ls.
Proof.
  intros N H f. rewrite (H f). split; intros [T [A [k I]]]; (split; [exact T|]; split; [exact A|]); exists k.
  - apply in_or_app. left. exact I.
  - apply in_app_or in I. destruct I as [I|[I|[]]]; [exact I|]. destruct (N f) as [K|K]; [subst x; now destruct K|].
    assert (X : taken_for_code (is_thumb (pg_target p)) f = true) by (apply taken_iff; split; assumption). congruence.
Qed.
Lemma stmt_news evs i c st e ls e' ls' ks ms : INV evs e ks -> SEEN evs ls -> chosen p i c ->
  exec_stmt_log p (n_aliases nd0) c i (e, ls) st = (ms, Ret (e', ls')) ->
  SEEN (evs ++ [(i, st)]) ls' /\ ((exists m, ms = [m] /\ news p evs (i, st) m) \/ (ms = [] /\ forall m, ~ news p evs (i, st) m)).
Proof.
  intros H S C E. destruct st as [expr|name|f|sg| | |]; cbn [exec_stmt_log] in E.
  - destruct (lbind_inv _ _ _ _ E) as [m1 [u [m2 [E1 [E2 ->]]]]]. apply lret_inv in E2. destruct E2 as [-> E2]. injection E2 as -> ->. rewrite app_nil_r.
    split; [apply seen_other; [intros f; left; discriminate | exact S]|]. pose proof (ot_asm _ _ _ _ (iv_other _ _ _ _ _ H) c) as A. destruct (smem c (e_asm e)) eqn:M.
    + apply lret_inv in E1. destruct E1 as [-> _]. right. split; [reflexivity|]. intros m N. apply smem_In in M. apply A in M. destruct M as [j [code [I Cj]]].
      inversion N; subst. rewrite (chosen_inj p W _ _ _ Cj C) in I. match goal with Q : forall c, ~ In (i, Asm c) evs |- _ => exact (Q _ I) end.
    + injection E1 as <-. left. eexists. split; [reflexivity|]. rewrite quoted_tick, app_nil_r. apply nw_asm; [exact C|]. intros code I.
      assert (X : In c (e_asm e)) by (apply A; exists i, code; split; assumption). apply smem_In in X. congruence.
  - destruct name as [f|]; [|discriminate E]. destruct (lbind_inv _ _ _ _ E) as [m1 [[e1 v] [m2 [E1 [E2 ->]]]]]. apply lret_inv in E2. destruct E2 as [-> E2]. injection E2 as -> ->. rewrite app_nil_r.
    split; [apply seen_other; [intros g; left; discriminate | exact S]|]. destruct (sget (e_indices e) f) as [u|] eqn:Es.
    + apply lret_inv in E1. destruct E1 as [-> _]. right. split; [reflexivity|]. intros m N. inversion N; subst.
      assert (X : sget (e_indices e) f = None); [|congruence]. apply (nd_idx_None p _ _ _ _ (iv_nodes _ _ _ _ _ H)). split; [assumption|]. intros K. apply created_introduces in K. destruct K as [y [I K]].
      match goal with Q : forall y, In y evs -> ~ introduces p y f |- _ => exact (Q y I K) end.
    + apply (nd_idx_None p _ _ _ _ (iv_nodes _ _ _ _ _ H)) in Es. destruct Es as [Es1 Es2]. destruct (lbind_inv _ _ _ _ E1) as [m1' [u [m2' [E3 [E4 ->]]]]]. apply lret_inv in E4. destruct E4 as [-> _]. rewrite app_nil_r.
      injection E3 as <-. left. eexists. split; [reflexivity|]. rewrite quoted_tick, app_nil_r. apply nw_cast; [exact Es1|]. intros y I K. apply Es2. apply created_introduces. exists y. split; assumption.
  - destruct (taken_for_code (is_thumb (pg_target p)) f) eqn:T.
    + pose proof (proj1 (taken_iff _ _) T) as [Th A].
      assert (G : forall l, (forall g, In g l <-> In g ls \/ g = f) -> SEEN (evs ++ [(i, DirectCall f)]) l).
      { intros l Hl g. rewrite (Hl g), (S g). split.
        - intros [[T' [A' [k I]]]| ->]; [split; [exact T'|]; split; [exact A'|]; exists k; apply in_or_app; left; exact I|].
          split; [exact Th|]. split; [exact A|]. exists i. apply in_or_app. right. left. reflexivity.
        - intros [T' [A' [k I]]]. apply in_app_or in I. destruct I as [I|[I|[]]]; [left; split; [exact T'|]; split; [exact A'|]; exists k; exact I|]. injection I as _ ->. right. reflexivity. }
      destruct (smem f ls) eqn:M; cbn [negb] in E.
      * apply lret_inv in E. destruct E as [-> E]. injection E as -> ->. apply smem_In in M. split.
        -- apply G. intros g. split; [tauto|]. intros [K| ->]; assumption.
        -- right. split; [reflexivity|]. intros m N. apply S in M. destruct M as [_ [_ [k I]]]. inversion N; subst. match goal with Q : forall k, ~ In (k, DirectCall f) evs |- _ => exact (Q k I) end.
      * destruct (lbind_inv _ _ _ _ E) as [m1 [u [m2 [E1 [E2 ->]]]]]. apply lret_inv in E2. destruct E2 as [-> E2]. injection E2 as -> ->. injection E1 as <-. split.
        -- apply G. intros g. apply sinsert_In.
        -- left. exists (lowering_note f). split; [unfold lowering_note; rewrite quoted_tick; reflexivity|]. apply nw_lowered; [exact Th | exact A|]. intros k I. assert (X : In f ls) by (apply S; split; [exact Th|]; split; [exact A|]; exists k; exact I). apply smem_In in X. congruence.
    + destruct (qbind_inv _ _ _ _ E) as [e1 [_ E1]]. apply lret_inv in E1. destruct E1 as [-> E1]. injection E1 as -> ->. split.
      * apply seen_other; [|exact S]. intros g. cbn [snd]. destruct (str_eqb f g) eqn:Q; [apply str_eqb_eq in Q; subst g; right; exact T | left; intros X; injection X as ->; rewrite str_eqb_refl in Q; discriminate Q].
      * right. split; [reflexivity|]. intros m N. inversion N; subst. assert (X : taken_for_code (is_thumb (pg_target p)) f = true) by (apply taken_iff; split; assumption). congruence.
  - destruct (qbind_inv _ _ _ _ E) as [e1 [_ E1]]. apply lret_inv in E1. destruct E1 as [-> E1]. injection E1 as -> ->. split; [apply seen_other; [intros f; left; discriminate | exact S]|].
    right. split; [reflexivity|]. intros m N. inversion N.
  - destruct (qbind_inv _ _ _ _ E) as [e1 [_ E1]]. apply lret_inv in E1. destruct E1 as [-> E1]. injection E1 as -> ->. split; [apply seen_other; [intros f; left; discriminate | exact S]|].
    right. split; [reflexivity|]. intros m N. inversion N.
  - destruct (qbind_inv _ _ _ _ E) as [e1 [_ E1]]. apply lret_inv in E1. destruct E1 as [-> E1]. injection E1 as -> ->. split; [apply seen_other; [intros f; left; discriminate | exact S]|].
    right. split; [reflexivity|]. intros m N. inversion N.
  - destruct (qbind_inv _ _ _ _ E) as [e1 [_ E1]]. apply lret_inv in E1. destruct E1 as [-> E1]. injection E1 as -> ->. split; [apply seen_other; [intros f; left; discriminate | exact S]|].
    right. split; [reflexivity|]. intros m N. inversion N.
Qed.
Lemma stmts_log_app done l1 : forall done' l2 ms1 ms2, done' = done ++ l1 -> stmts_log p done l1 ms1 -> stmts_log p done' l2 ms2 -> stmts_log p done (l1 ++ l2) (ms1 ++ ms2).
Proof.
  revert done. induction l1 as [|x l1 IH]; intros done done' l2 ms1 ms2 -> H1 H2.
  - inversion H1; subst. rewrite app_nil_r in H2. exact H2.
  - inversion H1; subst; cbn [app].
    + apply sl_news; [assumption|]. apply (IH _ ((done ++ [x]) ++ l1)); [reflexivity | assumption | rewrite <- app_assoc; exact H2].
    + apply sl_quiet; [assumption|]. apply (IH _ ((done ++ [x]) ++ l1)); [reflexivity | assumption | rewrite <- app_assoc; exact H2].
Qed.
Lemma stmts_steps i c sts : chosen p i c -> forall evs e ls e' ls' ks ms, INV evs e ks -> SEEN evs ls ->
  lfold (exec_stmt_log p (n_aliases nd0) c i) sts (e, ls) = (ms, Ret (e', ls')) ->
  exists ks', INV (evs ++ map (pair i) sts) e' ks' /\ SEEN (evs ++ map (pair i) sts) ls' /\ stmts_log p evs (map (pair i) sts) ms.
Proof.
  intros C. induction sts as [|st sts IH]; intros evs e ls e' ls' ks ms H S E; cbn [lfold map] in *.
  - apply lret_inv in E. destruct E as [-> E]. injection E as -> ->. rewrite app_nil_r. exists ks. split; [exact H|]. split; [exact S | apply sl_nil].
  - destruct (lbind_inv _ _ _ _ E) as [m1 [[e1 ls1] [m2 [E1 [E2 ->]]]]]. destruct (stmt_news _ _ _ _ _ _ _ _ _ _ H S C E1) as [S1 N].
    assert (X : exec_stmt p (n_aliases nd0) c i e st = Ret e1).
    { pose proof (stmt_erase p (n_aliases nd0) c i (e, ls) st) as K. rewrite E1 in K. cbn [snd fst bind] in K. symmetry. exact K. }
    destruct (stmt_step demangle p nd0 W R _ _ _ _ _ _ _ H C X) as [_ [extra H1]]. destruct (IH _ _ _ _ _ _ _ H1 S1 E2) as [ks' [H2 [S2 L]]]. rewrite <- app_assoc in H2, S2. exists ks'. split; [exact H2|]. split; [exact S2|].
    destruct N as [[m [-> N]]|[-> N]]; [apply sl_news | apply sl_quiet]; assumption.
Qed.
Lemma defines_steps ds : (forall n d, In (n, d) ds -> d_name d = n) -> forall evs e ls e' ls' ks ms, INV evs e ks -> SEEN evs ls ->
  lfold (exec_define_log p (n_aliases nd0)) (map snd ds) (e, ls) = (ms, Ret (e', ls')) ->
  exists tr, trace p ds tr /\ stmts_log p evs tr ms.
Proof.
  induction ds as [|[n d] ds IH]; intros Dn evs e ls e' ls' ks ms H S E; cbn [map snd lfold] in E.
  - apply lret_inv in E. destruct E as [-> _]. exists []. split; constructor.
  - destruct (lbind_inv _ _ _ _ E) as [m1 [[e1 ls1] [m2 [E1 [E2 ->]]]]]. clear E. assert (Dn' : forall n' d', In (n', d') ds -> d_name d' = n') by (intros n' d' I; apply Dn; right; exact I).
    pose proof (Dn n d (or_introl eq_refl)) as Hn. unfold exec_define_log in E1. destruct (sget (n_aliases nd0) (d_name d)) as [c|] eqn:Ea.
    + apply (rn_aliases _ _ _ _ R) in Ea. rewrite upto_all in Ea. destruct Ea as [i [Li Ci]]. rewrite Hn in Li.
      pose proof (INV_defined p nd0 _ _ _ (sinsert (e_defined e) c) H) as H0.
      assert (Es : sget (e_indices e) c = Some i).
      { apply (nd_idx _ _ _ _ (iv_nodes _ _ _ _ _ H)). left. exists i. split; [exact Ci | exact (nd_real _ _ _ _ (iv_nodes _ _ _ _ _ H) i (live_lt _ _ _ Li))]. }
      cbv zeta in E1. cbn [e_indices] in E1. rewrite Es in E1. destruct (stmts_steps i c _ Ci _ _ _ _ _ _ _ H0 S E1) as [ks1 [H1 [S1 L1]]].
      destruct (IH Dn' _ _ _ _ _ _ _ H1 S1 E2) as [tr [T L2]]. exists (map (pair i) (d_stmts d) ++ tr). split; [apply tr_kept; assumption|].
      exact (stmts_log_app _ _ _ _ _ _ eq_refl L1 L2).
    + apply lret_inv in E1. destruct E1 as [-> E1]. injection E1 as -> ->. destruct (IH Dn' _ _ _ _ _ _ _ H S E2) as [tr [T L]]. exists tr. split; [|exact L]. apply tr_removed; [|exact T].
      intros j Lj. destruct (live_chosen _ _ _ Lj) as [c' Cc]. assert (Y : sget (n_aliases nd0) (d_name d) = Some c'); [|congruence].
      apply (rn_aliases _ _ _ _ R). rewrite upto_all. exists j. rewrite Hn. split; assumption.
Qed.
Lemma ir_steps e ms : ir_edges_log p nd0 = (ms, Ret e) -> exists tr, trace p (pg_defines p) tr /\ stmts_log p [] tr ms.
Proof.
  intros E. unfold ir_edges_log in E. destruct (lbind_inv _ _ _ _ E) as [m1 [[e1 ls1] [m2 [E1 [E2 ->]]]]]. apply lret_inv in E2. destruct E2 as [-> _]. rewrite app_nil_r.
  refine (defines_steps _ _ [] _ _ _ _ _ _ (INV0 demangle p nd0 R) _ E1).
  - intros n d I. exact (eq_sym (wf_def_names _ W n d I)).
  - intros f. split; [intros [] | intros [_ [_ [k []]]]].
Qed.
End Statements.

Section Code.
Variables (demangle : str -> str) (p : prog) (nd0 : nodes) (evs : list event) (e : edgest) (ks0 : list key).
Hypothesis (W : wf_prog p) (R : RN demangle p (pg_defined p) nd0) (H0 : INV p nd0 evs e ks0).
Hypothesis (Hb : forall i st, In (i, st) evs <-> body p i st).
Hypothesis (Hd : forall c, In c (e_defined e) <-> exists n d i, In (n, d) (pg_defines p) /\ live p n i /\ chosen p i c).
Variables (stext : N) (text : str).
Hypothesis (Ht : is_thumb (pg_target p) = true) (Hx : pg_text p = Some (stext, text)).
Lemma overrides_note n m k why : overrides n m k why = ([override_note n m k why], Ret tt).
Proof. unfold overrides, override_note, log. rewrite quoted_tick, <- !app_assoc. reflexivity. Qed.
Lemma overridden_facts i addr size a m0 m k why : analysed p i addr size a -> llvm_size p i m0 -> overridden p i m k why ->
  m0 = Some m /\ stack a = Some k /\ k <> m /\
  ((has_asm p i /\ why = lit "function uses inline assembly") \/
   (~ has_asm p i /\ m = 0%N /\ outlined p i /\ why = lit "function was produced by LLVM's function outlining pass")).
Proof.
  intros A L O. destruct O as [addr' size' a' A' L' Sk N HA|addr' size' a' A' L' Sk N HA Z O]; destruct (analysed_fun p i _ _ _ _ _ _ A A') as [_ [_ <-]]; rewrite (llvm_size_fun p i _ _ W L L');
    (split; [reflexivity|]; split; [exact Sk|]; split; [exact N|]).
  - left. split; [exact HA | reflexivity].
  - right. repeat split; assumption.
Qed.
Lemma settle_notes i c addr size a ms l : chosen p i c -> analysed p i addr size a ->
  settle_log c (smem c (e_asm e)) (is_outlined_function c) (local0 p c) a = (ms, Ret l) ->
  exists m1 m2, ms = m1 ++ m2 /\ override_log p i c m1 /\ part (usage p i LUnknown) (no_usage c) m2.
Proof.
  intros C A E.
  assert (U : usage p i l).
  { apply (settle_usage p nd0 evs e ks0 W H0 Hb i c addr size a l C A). pose proof (settle_erase c (smem c (e_asm e)) (is_outlined_function c) (local0 p c) a) as K. rewrite E in K. symmetry. exact K. }
  unfold settle_log in E. destruct (lbind_inv _ _ _ _ E) as [n1 [u [n2 [E1 [E2 ->]]]]]. clear E.
  assert (n1 = []) as ->. { destruct (stack a) as [k|]; [destruct (Bool.eqb (negb (k =? 0)%N) (modifies_sp a))|]; try discriminate E1; injection E1 as <-; reflexivity. }
  clear E1. destruct (lbind_inv _ _ _ _ E2) as [n3 [l' [n4 [E3 [E4 ->]]]]]. clear E2. destruct (lbind_inv _ _ _ _ E4) as [n5 [u' [n6 [E5 [E6 ->]]]]]. apply lret_inv in E6. destruct E6 as [-> <-]. rewrite app_nil_r. exists n3, n5. split; [reflexivity|].
  assert (P2 : part (usage p i LUnknown) (no_usage c) n5).
  { destruct l as [k|].
    - apply lret_inv in E5. destruct E5 as [-> _]. apply pt_no. intros U'. pose proof (usage_fun p i _ _ W U U') as X. discriminate X.
    - injection E5 as <-. rewrite quoted_tick, app_nil_r. apply pt_yes. exact U. }
  split; [|exact P2]. clear E5 E4 P2. pose proof (asm_iff p nd0 evs e ks0 W H0 Hb i c C) as HA. pose proof (outlined_iff p i c C) as HO. unfold local0 in E3. destruct (sget (pg_sizes p) c) as [m|] eqn:Es.
  - pose proof (llvm_size_some p W _ _ _ C Es) as L. destruct (lbind_inv _ _ _ _ E3) as [n7 [m' [n8 [E7 [E8 ->]]]]]. clear E3.
    assert (n8 = []) as -> by (destruct (Bool.eqb (negb (m' =? 0)%N) (modifies_sp a)); [injection E8 as <-; reflexivity | discriminate E8]). rewrite app_nil_r. clear E8.
    destruct (stack a) as [k|] eqn:Ek.
    + destruct (N.eqb_spec m k) as [-> | N].
      * cbn [negb andb] in E7. rewrite (N.eqb_refl k) in E7. cbn [negb andb] in E7. rewrite andb_false_r in E7.
        assert (n7 = []) as -> by (destruct (is_outlined_function c); injection E7 as <-; reflexivity). apply or_no. intros m2 k2 why O.
        destruct (overridden_facts _ _ _ _ _ _ _ _ A L O) as [X1 [X2 [X3 _]]]. congruence.
      * cbn [negb andb] in E7. destruct (smem c (e_asm e)) eqn:Ea.
        -- rewrite overrides_note in E7. destruct (lbind_inv _ _ _ _ E7) as [q1 [u2 [q2 [Q1 [Q2 ->]]]]]. injection Q1 as <-. apply lret_inv in Q2. destruct Q2 as [-> _].
           apply or_yes. exact (ov_asm p i m k addr size a A L Ek (not_eq_sym N) (proj1 HA eq_refl)).
        -- assert (NA : ~ has_asm p i) by (intros K; apply HA in K; discriminate K). destruct (is_outlined_function c) eqn:Eo; [|discriminate E7].
           assert (O : outlined p i) by exact (proj1 HO eq_refl).
           destruct (N.eqb_spec m 0) as [-> | N0]; cbn [andb] in E7.
           ++ destruct (N.eqb_spec k 0) as [-> | Nk]; [exfalso; exact (N eq_refl)|]. cbn [negb] in E7. rewrite overrides_note in E7.
              destruct (lbind_inv _ _ _ _ E7) as [q1 [u2 [q2 [Q1 [Q2 ->]]]]]. injection Q1 as <-. apply lret_inv in Q2. destruct Q2 as [-> _].
              apply or_yes. exact (ov_outlined p i 0%N k addr size a A L Ek Nk NA eq_refl O).
           ++ injection E7 as <- _. apply or_no. intros m2 k2 why V. destruct (overridden_facts _ _ _ _ _ _ _ _ A L V) as [X1 [X2 [X3 [[X4 _]|[_ [X4 _]]]]]]; [contradiction | congruence].
    + injection E7 as <- _. apply or_no. intros m2 k2 why V. destruct (overridden_facts _ _ _ _ _ _ _ _ A L V) as [X1 [X2 _]]. congruence.
  - pose proof (llvm_size_none p _ _ C Es) as L. assert (n3 = []) as ->. { destruct (stack a) as [k|]; [|destruct (modifies_sp a)]; injection E3 as <-; reflexivity. }
    apply or_no. intros m2 k2 why V. destruct (overridden_facts _ _ _ _ _ _ _ _ A L V) as [X1 _]. congruence.
Qed.
Lemma code_notes m s x y ks ms : nth_error (pg_defined p) m = Some s -> MACH p evs m x ks -> exec_code_log p nd0 e (stext mod 2 ^ 32) text x s = (ms, Ret y) -> code_log p m ms.
Proof.
  intros Hm H E. unfold exec_code_log in E. destruct (sy_names (snd s)) as [|name rest] eqn:En; [discriminate E|]. destruct (sget (n_aliases nd0) name) as [c|] eqn:Ea; [|discriminate E].
  apply (rn_aliases _ _ _ _ R) in Ea. rewrite upto_all in Ea. destruct Ea as [i' [L C]].
  assert (T : mapping_symbol name = false).
  { destruct L as [ns [[z [_ ->]] Z]]. unfold real_names in Z. apply filter_In in Z. destruct Z as [_ Z]. destruct (mapping_symbol name); [discriminate Z | reflexivity]. }
  assert (i' = m) by exact (live_inj p W name i' m L (first_name _ _ _ _ _ Hm En T)). subst i'.
  cbv zeta in E. destruct (qbind_inv _ _ _ _ E) as [size [Z1 E1]]. clear E. destruct (qbind_inv _ _ _ _ E1) as [code [Z2 E2]]. clear E1. destruct (qbind_inv _ _ _ _ E2) as [a [Z3 E3]]. clear E2.
  assert (A : analysed p m (fst s mod 2 ^ 32)%N size a).
  { split; [exact Ht|]. exists stext, text, s, code. split; [exact Hx|]. split; [exact Hm|]. split; [reflexivity|]. split; [apply code_size_iff; exact Z1|]. split; [apply slice_iff; exact Z2 | exact Z3]. }
  rewrite (idx p nd0 evs e ks0 H0 c m C) in E3. destruct x as [g seen]. pose proof (local_at p evs m s (g, seen) ks c Hm H C) as Lo. cbn [fst] in Lo.
  destruct (qbind_inv _ _ _ _ E3) as [l0 [Z4 E4]]. clear E3. rewrite Lo in Z4. injection Z4 as <-. destruct (lbind_inv _ _ _ _ E4) as [m1 [l [m2 [E5 [E6 ->]]]]]. clear E4.
  destruct (settle_notes m c _ size a m1 l C A E5) as [n1 [n2 [-> [O U]]]]. destruct (lbind_inv _ _ _ _ E6) as [m3 [g3 [m4 [E7 [E8 ->]]]]]. clear E6.
  destruct (qbind_inv _ _ _ _ E8) as [x4 [_ E9]]. destruct (quiet_inv _ _ _ E9) as [-> _]. rewrite app_nil_r.
  exists c, n1, n2, m3. split; [exact C|]. split; [symmetry; apply app_assoc|]. split; [exact O|]. split; [exact U|].
  pose proof (blind_iff p e W Hd m c _ size a C A) as B. destruct (negb (smem c (e_defined e)) && indirect a).
  - destruct (lbind_inv _ _ _ _ E7) as [q1 [u2 [q2 [Q1 [Q2 ->]]]]]. injection Q1 as <-. destruct (add_node _ _) as [g5 v5]. apply lret_inv in Q2. destruct Q2 as [-> _]. rewrite quoted_tick. apply pt_yes. apply B. reflexivity.
  - apply lret_inv in E7. destruct E7 as [-> _]. apply pt_no. intros K. apply B in K. discriminate K.
Qed.
Lemma codes_notes l2 : forall l1 x y ks ms, pg_defined p = l1 ++ l2 -> MACH p evs (length l1) x ks -> lfold (exec_code_log p nd0 e (stext mod 2 ^ 32) text) l2 x = (ms, Ret y) ->
  exists mss, Forall2 (code_log p) (seq (length l1) (length l2)) mss /\ ms = concat mss.
Proof.
  induction l2 as [|s l2 IH]; intros l1 x y ks ms El H E; cbn [lfold] in E.
  - apply lret_inv in E. destruct E as [-> _]. exists []. split; [constructor | reflexivity].
  - destruct (lbind_inv _ _ _ _ E) as [m1 [z [m2 [E1 [E2 ->]]]]].
    assert (Hm : nth_error (pg_defined p) (length l1) = Some s) by (rewrite El, nth_error_app2, Nat.sub_diag by lia; reflexivity).
    assert (X : exec_code p nd0 e (stext mod 2 ^ 32) text x s = Ret z) by (pose proof (code_erase p nd0 e (stext mod 2 ^ 32)%N text x s) as K; rewrite E1 in K; symmetry; exact K).
    destruct (code_step demangle p nd0 evs e ks0 W R H0 Hb Hd stext text Ht Hx _ _ _ _ _ Hm H X) as [extra H1].
    destruct (IH (l1 ++ [s]) z y (ks ++ extra) m2) as [mss [F ->]]; [rewrite <- app_assoc; exact El | rewrite app_length, Nat.add_comm; exact H1 | exact E2|].
    exists (m1 :: mss). split; [|reflexivity]. cbn [length seq]. constructor; [exact (code_notes _ _ _ _ _ _ Hm H E1)|]. rewrite app_length, Nat.add_comm in F. exact F.
Qed.
End Code.
Lemma machine_notes demangle p nd0 evs e ks0 g ms : wf_prog p -> RN demangle p (pg_defined p) nd0 -> INV p nd0 evs e ks0 -> (forall i st, In (i, st) evs <-> body p i st) ->
  (forall c, In c (e_defined e) <-> exists n d i, In (n, d) (pg_defines p) /\ live p n i /\ chosen p i c) ->
  machine_edges_log p nd0 e = (ms, Ret g) -> codes_log p ms.
Proof.
  intros W R H Hb Hd E. unfold machine_edges_log in E. unfold codes_log. destruct (is_thumb (pg_target p)) eqn:T.
  - right. destruct (pg_text p) as [[stext text]|] eqn:X.
    + right. split; [reflexivity|]. split; [discriminate|]. destruct (lbind_inv _ _ _ _ E) as [m1 [[g1 seen] [m2 [E1 [E2 ->]]]]]. apply lret_inv in E2. destruct E2 as [-> _]. rewrite app_nil_r.
      exact (codes_notes demangle p nd0 evs e ks0 W R H Hb Hd stext text T X (pg_defined p) [] _ _ ks0 m1 eq_refl (MACH0 p nd0 evs e ks0 H) E1).
    + left. split; [reflexivity|]. split; [reflexivity|]. injection E as <- _. reflexivity.
  - left. split; [reflexivity|]. apply lret_inv in E. exact (proj1 E).
Qed.

Section Pointers.
Variables (p : prog) (o : orders) (m : list (fnsig * icall)) (fmts : list nat) (unt : bool).
Hypothesis (Fo : fair o) (S : SIGS p m fmts unt).
Local Notation void := (one_true_void (map fst (o_sigs o m))).
Lemma no_callees_note n : no_callees n = ([no_callee n], Ret tt).
Proof. unfold no_callees, no_callee, log. rewrite quoted_tick, app_nil_r. reflexivity. Qed.
Lemma is_nil_iff {A} (l : list A) : is_nil l = true <-> forall x, ~ In x l.
Proof. destruct l as [|a l]; cbn [is_nil]; split; try discriminate; [intros _ x [] | reflexivity | intros H; exfalso; apply (H a); left; reflexivity]. Qed.
Lemma when_nil n b ms : (if b : bool then no_callees n else lret tt) = (ms, Ret tt) -> ms = if b then [no_callee n] else [].
Proof. destruct b; [rewrite no_callees_note|]; intros E; injection E as <-; reflexivity. Qed.
Lemma sig_notes s ind g g' ms : In (s, ind) m -> ic_called ind = true -> add_indirect_log o unt fmts void g (s, ind) = (ms, Ret g') -> sig_log p void s ms.
Proof.
  intros I Cl E. unfold add_indirect_log in E. rewrite Cl in E. cbn [negb] in E. destruct (lbind_inv _ _ _ _ E) as [a [callees [b [E1 [E2 ->]]]]]. clear E. cbn [add_node] in E2. cbv zeta in E2.
  destruct (lbind_inv _ _ _ _ E2) as [b1 [g1 [b2 [E3 [E4 ->]]]]]. clear E2. apply lret_inv in E4. destruct E4 as [-> _]. rewrite app_nil_r.
  exists (show_sig (canonical_sig void s) ++ lit "*"), a, b1. split; [apply label_spec|]. split; [reflexivity|].
  assert (K : part ((exists v, void = Some v /\ s = fmt_sig (TAlias v)) /\ forall j r, ~ typed_by_def p j (fmt_sig r)) (no_callee (show_sig s)) a /\ callees = if special_fmt void s then fmts else ic_callees ind).
  { destruct (special_fmt void s) eqn:Sp.
    - pose proof (proj1 (special_spec _ _) Sp) as Sp'. destruct (lbind_inv _ _ _ _ E1) as [q1 [[] [q2 [Q1 [Q2 ->]]]]]. apply lret_inv in Q2. destruct Q2 as [-> ->]. rewrite app_nil_r. split; [|reflexivity].
      rewrite (when_nil _ _ _ Q1). apply part_if. rewrite is_nil_iff. split.
      + intros N. split; [exact Sp'|]. intros j r T. apply (N j). apply (sg_fmts _ _ _ _ S). exists r. exact T.
      + intros [_ N] j J. apply (sg_fmts _ _ _ _ S) in J. destruct J as [r J]. exact (N j r J).
    - apply lret_inv in E1. destruct E1 as [-> ->]. split; [|reflexivity]. apply pt_no. intros [X _]. apply special_spec in X. congruence. }
  destruct K as [K ->]. split; [exact K|]. clear E1 K. pose proof (sg_untyped _ _ _ _ S) as U. destruct unt.
  - apply lret_inv in E3. destruct E3 as [-> _]. apply pt_no. intros [X _]. apply X. apply U. reflexivity.
  - destruct (lbind_inv _ _ _ _ E3) as [q1 [[] [q2 [Q1 [Q2 ->]]]]]. apply lret_inv in Q2. destruct Q2 as [-> _]. rewrite app_nil_r. rewrite (when_nil _ _ _ Q1). apply part_if. rewrite is_nil_iff. split.
    + intros N. split; [intros X; apply U in X; discriminate X|]. intros j J. exact (N j (proj2 (callees_pointee p o m fmts false S s ind j I) J)).
    + intros [_ N] j J. exact (N j (proj1 (callees_pointee p o m fmts false S s ind j I) J)).
Qed.
Lemma sigs_notes l : (forall x, In x l -> In x m) -> forall g g' ms, lfold (add_indirect_log o unt fmts void) l g = (ms, Ret g') ->
  exists mss, Forall2 (sig_log p void) (map fst (filter (fun x => ic_called (snd x)) l)) mss /\ ms = concat mss.
Proof.
  induction l as [|[s ind] l IH]; intros Sub g g' ms E; cbn [lfold] in E.
  - apply lret_inv in E. destruct E as [-> _]. exists []. split; [constructor | reflexivity].
  - destruct (lbind_inv _ _ _ _ E) as [m1 [g1 [m2 [E1 [E2 ->]]]]]. destruct (IH (fun x K => Sub x (or_intror K)) _ _ _ E2) as [mss [F ->]]. cbn [filter snd]. destruct (ic_called ind) eqn:Cl.
    + exists (m1 :: mss). split; [|reflexivity]. cbn [map fst]. constructor; [|exact F]. exact (sig_notes _ _ _ _ _ (Sub _ (or_introl eq_refl)) Cl E1).
    + exists mss. split; [exact F|]. unfold add_indirect_log in E1. rewrite Cl in E1. apply lret_inv in E1. destruct E1 as [-> _]. reflexivity.
Qed.
Lemma indirect_notes g g' ms : indirect_edges_log o unt fmts m g = (ms, Ret g') ->
  match void with Some v => true_void p v | None => forall v, ~ true_void p v end /\
  exists d x, ms = d ++ x /\ part (untyped p) untyped_note d /\ sigs_log p void x.
Proof.
  intros E. unfold indirect_edges_log in E. cbv zeta in E. destruct (lbind_inv _ _ _ _ E) as [d [[] [x [E1 [E2 ->]]]]]. clear E.
  assert (P : Permutation (o_sigs o m) m) by exact (fair_sigs _ Fo m). pose proof (Permutation_map fst P) as P'.
  assert (ND : NoDup (map fst (o_sigs o m))) by (apply (Permutation_NoDup (Permutation_sym P')); exact (sg_keys _ _ _ _ S)).
  assert (Cd : forall s, In s (map fst (o_sigs o m)) <-> candidate_sig p s).
  { intros s. rewrite <- (sg_cand _ _ _ _ S). split; apply Permutation_in; [exact P' | symmetry; exact P']. }
  split; [apply one_true_void_spec; assumption|]. exists d, x. split; [reflexivity|]. split.
  - pose proof (sg_untyped _ _ _ _ S) as U. destruct unt; injection E1 as <-; [apply pt_yes; apply U; reflexivity | apply pt_no; intros X; apply U in X; discriminate X].
  - destruct (sigs_notes (o_sigs o m) (fun y K => Permutation_in y P K) _ _ _ E2) as [mss [F ->]]. exists (map fst (filter (fun x => ic_called (snd x)) (o_sigs o m))), mss. split.
    { clear -ND. revert ND. generalize (o_sigs o m) as l. induction l as [|[s ind] l IH]; intros ND; cbn [filter map snd fst] in *; [constructor|]. inversion ND; subst. destruct (ic_called ind); cbn [map fst]; [constructor|]; auto.
      intros K. apply in_map_iff in K. destruct K as [y [Ey K]]. apply filter_In in K. destruct K as [K _]. apply H1. apply in_map_iff. exists y. split; assumption. }
    split; [|split; [exact F | reflexivity]]. intros s. rewrite in_map_iff. split.
    + intros [[s' ind] [<- K]]. apply filter_In in K. destruct K as [K Q]. cbn [snd fst] in *. apply (Permutation_in _ P) in K. apply (sg_ind _ _ _ _ S s' ind K). exact Q.
    + intros Cs. assert (K : In s (map fst m)) by (apply (sg_cand _ _ _ _ S); destruct Cs as [i [X _]]; exact X). apply in_map_iff in K. destruct K as [[s' ind] [<- K]]. exists (s', ind). split; [reflexivity|]. apply filter_In. split.
      * apply (Permutation_in _ (Permutation_sym P)). exact K.
      * cbn [snd fst] in *. apply (sg_ind _ _ _ _ S s' ind K). exact Cs.
Qed.
End Pointers.

(** * The construction *)
Theorem build_log_notes demangle o p b ms : wf_prog p -> fair o -> build_log demangle o p = (ms, Ret b) -> build_notes p ms.
Proof.
  intros W Fo E. unfold build_log in E. destruct (qbind_inv _ _ _ _ E) as [u [_ E1]]. clear E. destruct (lbind_inv _ _ _ _ E1) as [m1 [n [m2 [E2 [E3 ->]]]]]. clear E1.
  assert (R : RN demangle p (pg_defined p) n) by (apply (real_nodes_spec _ _ _ W); pose proof (real_erase demangle p) as K; rewrite E2 in K; symmetry; exact K).
  destruct (lbind_inv _ _ _ _ E3) as [m3 [e [m4 [E4 [E5 ->]]]]]. clear E3. assert (Ee : ir_edges p n = Ret e) by (pose proof (ir_erase p n) as K; rewrite E4 in K; symmetry; exact K).
  destruct (ir_edges_spec demangle p n W R e Ee) as [evs [ks0 [H0 [Hb Hd]]]]. destruct (lbind_inv _ _ _ _ E5) as [m5 [g [m6 [E6 [E7 ->]]]]]. clear E5.
  destruct (lbind_inv _ _ _ _ E7) as [m7 [g' [m8 [E8 [E9 ->]]]]]. clear E7. apply lret_inv in E9. destruct E9 as [-> _]. rewrite app_nil_r.
  destruct (indirect_notes p o _ _ _ Fo (sigs_ok demangle p n evs e ks0 R H0 Hb) _ _ _ E8) as [V [d [x [-> [D X]]]]].
  destruct (symbols_steps demangle p W _ [] _ _ _ eq_refl E2) as [a [A ->]]. destruct (ir_steps demangle p n W R e m3 E4) as [tr [T B]].
  eexists _, a, tr, m3, m5, d, x. split; [exact V|]. split; [reflexivity|]. split; [exact A|]. split; [exact T|]. split; [exact B|].
  split; [exact (machine_notes demangle p n evs e ks0 g m5 W R H0 Hb Hd E6)|]. split; assumption.
Qed.
