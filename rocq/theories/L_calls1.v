(** Lemmas: the edges added by the statements, one by one. *)
From Coq Require Import Permutation.
From Verif Require Import M_base M_stack M_graph M_analysis M_filter M_names M_thumb M_ty M_parse M_build S_names S_build S_calls L_base L_names L_build1 L_build2 L_build3 L_build4 L_build5 L_build9.

(** Adding edges, each unless it was added before. *)
Definition add1 (i : nat) (x : list (nat * nat) * list (nat * nat)) (v : nat) : list (nat * nat) * list (nat * nat) :=
  if pmem (i, v) (snd x) then x else (fst x ++ [(i, v)], snd x ++ [(i, v)]).
Lemma add1_many i vs : forall E S C, Permutation E (C ++ S) -> NoDup S ->
  Permutation (fst (fold_left (add1 i) vs (E, S))) (C ++ snd (fold_left (add1 i) vs (E, S))) /\ NoDup (snd (fold_left (add1 i) vs (E, S))) /\
  (forall x, In x (snd (fold_left (add1 i) vs (E, S))) <-> In x S \/ exists v, In v vs /\ x = (i, v)).
Proof.
  induction vs as [|v vs IH]; intros E S C P N; cbn [fold_left].
  - split; [exact P|]. split; [exact N|]. intros x. cbn [snd]. split; [now left|]. intros [H|[v [[] _]]]. exact H.
  - destruct (pmem (i, v) S) eqn:M.
    + assert (Y : add1 i (E, S) v = (E, S)) by (unfold add1; cbn [fst snd]; now rewrite M). rewrite Y.
      destruct (IH E S C P N) as [H1 [H2 H3]]. split; [exact H1|]. split; [exact H2|]. intros x. rewrite H3. apply pmem_In in M. split.
      * intros [H|[w [H ->]]]; [now left|]. right. exists w. split; [now right | reflexivity].
      * intros [H|[w [[<-|H] ->]]]; [now left | now left|]. right. now exists w.
    + assert (Y : add1 i (E, S) v = (E ++ [(i, v)], S ++ [(i, v)])) by (unfold add1; cbn [fst snd]; now rewrite M). rewrite Y.
      assert (Q : ~ In (i, v) S) by (intros K; apply pmem_In in K; congruence).
      destruct (IH (E ++ [(i, v)]) (S ++ [(i, v)]) C) as [H1 [H2 H3]]; [rewrite app_assoc; now apply Permutation_app_tail | now apply NoDup_snoc|].
      split; [exact H1|]. split; [exact H2|]. intros x. rewrite H3, in_app_iff. cbn [In]. split.
      * intros [[H|[<-|[]]]|[w [H ->]]]; [now left | right; exists v; split; [now left | reflexivity] | right; exists w; split; [now right | reflexivity]].
      * intros [H|[w [[<-|H] ->]]]; [left; now left | left; right; now left | right; now exists w].
Qed.
Definition es (e : edgest) : list (nat * nat) * list (nat * nat) := (gedges (e_g e), e_seen e).
Lemma es_call i v e : es (call_once i v e) = add1 i (es e) v.
Proof. unfold es, call_once, add_once, add1. cbn [fst snd]. now destruct (pmem (i, v) (e_seen e)). Qed.

Section IR.
Variables (demangle : str -> str) (p : prog) (nd0 : nodes).
Hypothesis (W : wf_prog p) (R : RN demangle p (pg_defined p) nd0).
Notation INV := (INV p nd0).
Notation createdE := (createdE p).

(** What is added by a statement: an edge by a cast, or edges to [vs]. *)
Lemma stmt_adds evs i c st e e' ks extra : INV evs e ks -> chosen p i c -> exec_stmt p (n_aliases nd0) c i e st = Ret e' -> INV (evs ++ [(i, st)]) e' (ks ++ extra) ->
  (exists f v l, st = BitcastCall (Some f) /\ nth_error (ks ++ extra) v = Some l /\ cast_target p f l /\ es e' = (gedges (e_g e) ++ [(i, v)], e_seen e)) \/
  ((forall f, st <> BitcastCall f) /\ exists vs, es e' = fold_left (add1 i) vs (es e) /\
     forall v, In v vs <-> exists l, nth_error (ks ++ extra) v = Some l /\ leads p evs st l).
Proof.
  intros H Hc E H'. pose proof (iv_nodes _ _ _ _ _ H) as HN. pose proof (iv_nodes _ _ _ _ _ H') as HN'.
  assert (Target : forall f v, sget (e_indices e') f = Some v -> exists l, nth_error (ks ++ extra) v = Some l /\ cast_target p f l).
  { intros f v K. destruct (lookup p _ _ _ _ _ HN' K) as [[j [A B]]|[A [_ B]]]; [exists (KReal j); split; [exact B | left; now exists j] | exists (KSym f); split; [exact B | right; now split]]. }
  assert (Quiet : (forall f, st <> BitcastCall f) -> es e' = es e -> (forall l, ~ leads p evs st l) ->
    ((forall f, st <> BitcastCall f) /\ exists vs, es e' = fold_left (add1 i) vs (es e) /\ forall v, In v vs <-> exists l, nth_error (ks ++ extra) v = Some l /\ leads p evs st l)).
  { intros N Es Nl. split; [exact N|]. exists []. split; [exact Es|]. intros v. split; [intros []|]. intros [l [_ K]]. exact (Nl l K). }
  assert (At : forall v l, nth_error (ks ++ extra) v = Some l -> In l ks -> nth_error ks v = Some l).
  { intros v l K1 K2. apply In_nth_error in K2. destruct K2 as [w K2]. pose proof (nth_app_l _ extra _ _ K2) as K3.
    assert (Lw : w < length (ks ++ extra)) by (apply nth_error_Some; rewrite K3; discriminate).
    rewrite <- (proj1 (NoDup_nth_error _) (nd_keys _ _ _ _ HN') w v Lw); [exact K2 | congruence]. }
  assert (Same : forall v w l, nth_error (ks ++ extra) v = Some l -> nth_error (ks ++ extra) w = Some l -> v = w).
  { intros v w l K1 K2. apply (proj1 (NoDup_nth_error _) (nd_keys _ _ _ _ HN')); [apply nth_error_Some; rewrite K1; discriminate | congruence]. }
  destruct st as [code | [f |] | f | s | | |]; cbn [exec_stmt] in E.
  - right. injection E as <-. apply Quiet; [discriminate | reflexivity | intros l K; inversion K].
  - left. destruct (sget (e_indices e) f) as [v|] eqn:Es.
    + injection E as <-. cbn [e_set_g e_indices] in Target. destruct (Target f v Es) as [l [A B]]. exists f, v, l. split; [reflexivity|]. split; [exact A|]. split; [exact B | reflexivity].
    + injection E as <-. cbn [e_set_g e_indices add_unknown add_node] in Target. specialize (Target f (length (gnodes (e_g e)))). rewrite sget_sput, str_eqb_refl in Target. destruct (Target eq_refl) as [l [A B]].
      exists f, (length (gnodes (e_g e))), l. split; [reflexivity|]. split; [exact A|]. split; [exact B | reflexivity].
  - discriminate E.
  - right. destruct (classify (is_thumb (pg_target p)) f) as [|names| |] eqn:Cl.
    + injection E as <-. assert (IF : intrinsic f) by (apply (classify_intrinsic (is_thumb (pg_target p))); rewrite Cl; discriminate).
      apply Quiet; [discriminate | reflexivity|]. intros l K. inversion K as [g j N|g N|g n j T Lo|g n T Lo]; subst; try (now destruct N); rewrite T in Cl; exact (classify_skip _ _ Lo Cl).
    + destruct (classify_mem _ _ _ Cl) as [T L]. injection E as <-. split; [discriminate|].
      assert (G : forall ns e1, e_indices e1 = e_indices e ->
        es (fold_left (fun s n => match sget (e_indices s) n with Some callee => call_once i callee s | None => s end) ns e1) =
        fold_left (add1 i) (flat_map (fun n => match sget (e_indices e) n with Some v => [v] | None => [] end) ns) (es e1)).
      { induction ns as [|n ns IH]; intros e1 E1; cbn [fold_left flat_map]; [reflexivity|]. rewrite E1. destruct (sget (e_indices e) n) as [v|] eqn:En; cbn [app fold_left].
        - rewrite IH; [now rewrite es_call|]. unfold call_once. now destruct (add_once i v (e_g e1, e_seen e1)).
        - now apply IH. }
      exists (flat_map (fun n => match sget (e_indices e) n with Some v => [v] | None => [] end) names). split; [now apply G|].
      intros v. rewrite in_flat_map. split.
      * intros [n [In1 In2]]. destruct (sget (e_indices e) n) as [w|] eqn:En; [|destruct In2]. destruct In2 as [<-|[]]. apply L in In1. destruct (lookup p _ _ _ _ _ HN En) as [[j [A B]]|[A [B D]]].
        -- exists (KReal j). split; [now apply nth_app_l | now apply (le_mem p evs f n j)].
        -- exists (KSym n). split; [now apply nth_app_l | now apply (le_mem_extern p evs f n)].
      * intros [l [A B]]. assert (NI : intrinsic f).
        { apply (classify_intrinsic (is_thumb (pg_target p))). rewrite Cl. discriminate. }
        inversion B as [g j N|g N|g n j T' Lo C|g n T' Lo C Md]; subst; try (now destruct N).
        -- exists n. split; [now apply L|].
           assert (Kn : nth_error ks j = Some (KReal j)) by (apply (nd_real _ _ _ _ HN); exact (live_lt _ _ _ (chosen_live _ _ _ C))).
           assert (Es : sget (e_indices e) n = Some j) by (apply (nd_idx _ _ _ _ HN); left; exists j; now split). rewrite Es. left. exact (Same _ _ _ (nth_app_l _ extra _ _ Kn) A).
        -- exists n. split; [now apply L|].
           assert (Kn : In (KSym n) ks) by (apply (nd_in _ _ _ _ HN); right; exists n; now split). pose proof (At v _ A Kn) as Kv.
           assert (Es : sget (e_indices e) n = Some v) by (apply (nd_idx _ _ _ _ HN); now right). rewrite Es. now left.
    + discriminate E.
    + pose proof (classify_function _ _ Cl) as NI. assert (NL : forall n, ~ lowers f n) by (intros n X; exact (NI (lowers_intrinsic _ _ X))).
      change (lit "memcmp") with memcmp in E. destruct (str_eqb f memcmp && negb (shas (e_indices e) f)) eqn:Em.
      { injection E as <-. apply andb_true_iff in Em. destruct Em as [E1 E2]. apply str_eqb_eq in E1. subst f. unfold shas in E2. destruct (sget (e_indices e) memcmp) eqn:Es; [discriminate E2|].
        apply (nd_idx_None p _ _ _ _ HN) in Es. destruct Es as [N1 N2]. apply Quiet; [discriminate | reflexivity|].
        intros l K. inversion K as [g j N Lj Mj|g N NLj Mj|g n j T Lo|g n T Lo]; subst; try exact (NL _ Lo).
        - destruct (Mj eq_refl) as [C|C]; [exact (N1 _ C) | exact (N2 C)].
        - exact (N2 (Mj eq_refl)). }
      assert (Mem : f = memcmp -> exists v, sget (e_indices e) f = Some v).
      { intros ->. rewrite str_eqb_refl in Em. cbn [andb] in Em. unfold shas in Em. destruct (sget (e_indices e) memcmp) as [v|]; [now exists v | discriminate Em]. }
      split; [discriminate|].
      destruct (sget (n_aliases nd0) f) as [canon|] eqn:Ea.
      * apply (rn_aliases _ _ _ _ R) in Ea. rewrite upto_all in Ea. destruct Ea as [j [Lj Cj]]. destruct (sget (e_indices e) canon) as [idx|] eqn:Ei; [|discriminate E].
        cbn [bind] in E. injection E as <-. exists [idx]. split; [apply es_call|].
        assert (Ki : nth_error (ks ++ extra) idx = Some (KReal j)).
        { apply nth_app_l. destruct (lookup p _ _ _ _ _ HN Ei) as [[j' [A B]]|[A _]]; [now rewrite (chosen_inj p W _ _ _ Cj A) | now destruct (A j)]. }
        intros v. split.
        -- intros [<-|[]]. exists (KReal j). split; [exact Ki|]. apply le_direct; [exact NI | exact Lj|]. intros Ef. destruct (Mem Ef) as [w Ew].
           destruct (lookup p _ _ _ _ _ HN Ew) as [[j' [A _]]|[_ [A _]]]; [left | now right]. now rewrite (live_inj p W _ _ _ Lj (chosen_live _ _ _ A)).
        -- intros [l [A B]]. left. inversion B as [g j' N Lj' Mj|g N NLj Mj|g n j' T Lo|g n T Lo]; subst; try (now destruct (NL _ Lo)).
           ++ rewrite <- (live_inj p W _ _ _ Lj Lj') in A. exact (Same _ _ _ Ki A).
           ++ now destruct (NLj j).
      * pose proof (proj1 (alias_none demangle p nd0 R f) Ea) as NLf. destruct (negb (smem f (pg_undefined p))); [discriminate E|].
        assert (Go : exists idx, sget (e_indices e') f = Some idx /\ es e' = fold_left (add1 i) [idx] (es e) /\ (f = memcmp -> made p evs f)).
        { destruct (sget (e_indices e) f) as [idx|] eqn:Es; cbn [bind] in E.
          - injection E as <-. exists idx. split; [|split; [apply es_call|]].
            + unfold call_once. now destruct (add_once i idx (e_g e, e_seen e)).
            + intros _. destruct (lookup p _ _ _ _ _ HN Es) as [[j [A _]]|[_ [A _]]]; [now destruct (NLf j (chosen_live _ _ _ A)) | exact A].
          - exists (length (gnodes (e_g e))). split; [|split].
            + destruct (add_unknown f e) as [e1 w] eqn:Eu. injection E as <-. unfold call_once. destruct (add_once i w (e_g e1, e_seen e1)). cbn [e_indices]. unfold add_unknown, add_node in Eu. injection Eu as <- _. cbn [e_indices]. now rewrite sget_sput, str_eqb_refl.
            + destruct (add_unknown f e) as [e1 w] eqn:Eu. injection E as <-. rewrite es_call. unfold add_unknown, add_node in Eu. injection Eu as <- <-. reflexivity.
            + intros Ef. destruct (Mem Ef) as [w Ew]. discriminate Ew. }
        clear E. destruct Go as [idx [Ex [Ee Mm]]]. exists [idx]. split; [exact Ee|].
        assert (Ki : nth_error (ks ++ extra) idx = Some (KSym f)).
        { destruct (lookup p _ _ _ _ _ HN' Ex) as [[j [A _]]|[_ [_ A]]]; [now destruct (NLf j (chosen_live _ _ _ A)) | exact A]. }
        intros v. split.
        -- intros [<-|[]]. exists (KSym f). split; [exact Ki | now apply le_extern].
        -- intros [l [A B]]. left. inversion B as [g j' N Lj' Mj|g N NLj Mj|g n j' T Lo|g n T Lo]; subst; try (now destruct (NL _ Lo)).
           ++ now destruct (NLf _ Lj').
           ++ exact (Same _ _ _ Ki A).
  - right. injection E as <-. apply Quiet; [discriminate | reflexivity | intros l K; inversion K].
  - right. injection E as <-. apply Quiet; [discriminate | reflexivity | intros l K; inversion K].
  - right. injection E as <-. apply Quiet; [discriminate | reflexivity | intros l K; inversion K].
  - right. injection E as <-. apply Quiet; [discriminate | reflexivity | intros l K; inversion K].
Qed.

(** The edges after the statements [evs]. *)
Definition called_by (evs : list (nat * stmt)) (i : nat) (l : key) : Prop := exists before st after, evs = before ++ (i, st) :: after /\ leads p before st l.
Record CNT (evs : list (nat * stmt)) (e : edgest) (ks : list key) (C : list (nat * nat)) : Prop := {
  ct_all : Permutation (gedges (e_g e)) (C ++ e_seen e);
  ct_once : NoDup (e_seen e);
  ct_seen : forall u v, In (u, v) (e_seen e) <-> exists l, nth_error ks v = Some l /\ called_by evs u l;
  ct_cast : Forall2 (fun c x => fst x = fst c /\ exists l, nth_error ks (snd x) = Some l /\ cast_target p (snd c) l) (casts evs) C
}.
Lemma called_snoc evs i st u l : called_by (evs ++ [(i, st)]) u l <-> called_by evs u l \/ (u = i /\ leads p evs st l).
Proof.
  split.
  - intros [a [x [b [E H]]]]. destruct b as [|z b0]; [|destruct (exists_last (l := z :: b0)) as [b' [y Eb]]; [discriminate|]; rewrite Eb in E; clear Eb z b0].
    + apply app_inj_tail in E. destruct E as [<- E]. injection E as <- <-. now right.
    + change (a ++ (u, x) :: b' ++ [y]) with (a ++ ((u, x) :: b') ++ [y]) in E. rewrite app_assoc in E. apply app_inj_tail in E. destruct E as [-> _]. left. now exists a, x, b'.
  - intros [[a [x [b [-> H]]]]|[-> H]]; [exists a, x, (b ++ [(i, st)]); split; [now rewrite <- app_assoc | exact H] | now exists evs, st, []].
Qed.
Lemma count_step evs i c st e e' ks extra C : INV evs e ks -> chosen p i c -> exec_stmt p (n_aliases nd0) c i e st = Ret e' -> INV (evs ++ [(i, st)]) e' (ks ++ extra) ->
  CNT evs e ks C -> exists C', CNT (evs ++ [(i, st)]) e' (ks ++ extra) C'.
Proof.
  intros H Hc E H' T. pose proof (iv_nodes _ _ _ _ _ H) as HN. pose proof (iv_nodes _ _ _ _ _ H') as HN'.
  assert (Old : forall v l u, nth_error (ks ++ extra) v = Some l -> called_by evs u l -> nth_error ks v = Some l).
  { intros v l u A B. assert (I : In l ks).
    { destruct B as [b [x [a [-> B]]]]. apply (nd_in _ _ _ _ HN). destruct B as [f j _ Lj _|f NI NL Mm|f n j _ _ Cj|f n _ _ _ Md].
      - left. exists j. split; [exact (live_lt _ _ _ Lj) | reflexivity].
      - right. exists f. split; [|reflexivity]. destruct (str_eqb_spec f memcmp) as [->|Nm].
        + apply createdE_app. left. exact (Mm eq_refl).
        + left. exists u. split; [apply in_or_app; right; now left|]. now split.
      - left. exists j. split; [exact (live_lt _ _ _ (chosen_live _ _ _ Cj)) | reflexivity].
      - right. exists n. split; [|reflexivity]. apply createdE_app. now left. }
    apply In_nth_error in I. destruct I as [w I]. pose proof (nth_app_l _ extra _ _ I) as I'.
    assert (Lw : w < length (ks ++ extra)) by (apply nth_error_Some; rewrite I'; discriminate).
    rewrite <- (proj1 (NoDup_nth_error _) (nd_keys _ _ _ _ HN') w v Lw); [exact I | congruence]. }
  assert (Grow : forall l0 C0, Forall2 (fun c x => fst x = fst c /\ exists l, nth_error ks (snd x) = Some l /\ cast_target p (snd c) l) l0 C0 ->
     Forall2 (fun (c : nat * str) (x : nat * nat) => fst x = fst c /\ exists l, nth_error (ks ++ extra) (snd x) = Some l /\ cast_target p (snd c) l) l0 C0).
  { intros l0 C0 F. induction F as [|a b l0 C0 [F1 [l [F2 F3]]] F IH]; constructor; [|exact IH]. split; [exact F1|]. exists l. split; [now apply nth_app_l | exact F3]. }
  destruct T as [T1 T2 T3 T4]. destruct (stmt_adds _ _ _ _ _ _ _ _ H Hc E H') as [[f [v [l [-> [Kv [Tv Es]]]]]]|[Nc [vs [Es Iv]]]].
  - injection Es as Eg Ee. exists (C ++ [(i, v)]). constructor.
    + rewrite Eg, Ee. rewrite <- app_assoc. rewrite (Permutation_app_comm [(i, v)]), app_assoc. now apply Permutation_app_tail.
    + now rewrite Ee.
    + intros u w. rewrite Ee, T3. split.
      * intros [l' [A B]]. exists l'. split; [now apply nth_app_l|]. apply called_snoc. now left.
      * intros [l' [A B]]. apply called_snoc in B. destruct B as [B|[_ B]]; [|inversion B]. exists l'. split; [now apply (Old w l' u) | exact B].
    + unfold casts. rewrite flat_map_app. apply Forall2_app; [now apply Grow|]. cbn. constructor; [|constructor]. split; [reflexivity|]. now exists l.
  - destruct (add1_many i vs (gedges (e_g e)) (e_seen e) C T1 T2) as [K1 [K2 K3]]. unfold es in Es. rewrite <- Es in K1, K2, K3. cbn [fst snd] in K1, K2, K3. exists C. constructor.
    + exact K1.
    + exact K2.
    + intros u w. rewrite K3, T3. split.
      * intros [[l [A B]]|[v [A B]]]; [exists l; split; [now apply nth_app_l|]; apply called_snoc; now left|]. injection B as -> ->. apply Iv in A. destruct A as [l [A B]]. exists l. split; [exact A|]. apply called_snoc. right. now split.
      * intros [l [A B]]. apply called_snoc in B. destruct B as [B|[-> B]]; [left; exists l; split; [now apply (Old w l u) | exact B]|]. right. exists w. split; [|reflexivity]. apply Iv. now exists l.
    + assert (Z : casts (evs ++ [(i, st)]) = casts evs).
      { unfold casts. rewrite flat_map_app. cbn [flat_map]. destruct st as [|g| | | | |]; cbn [cast_of app]; try apply app_nil_r. now destruct (Nc g). }
      exact (eq_ind_r (fun x => Forall2 _ x C) (Grow _ _ T4) Z).
Qed.
Lemma count_stmts i c sts : chosen p i c -> forall evs e ks C e', INV evs e ks -> CNT evs e ks C -> ofold (exec_stmt p (n_aliases nd0) c i) sts e = Ret e' ->
  exists extra C', INV (evs ++ map (pair i) sts) e' (ks ++ extra) /\ CNT (evs ++ map (pair i) sts) e' (ks ++ extra) C'.
Proof.
  intros Hc. induction sts as [|st sts IH]; intros evs e ks C e' H T E; cbn [ofold map] in *.
  - injection E as <-. exists [], C. rewrite !app_nil_r. now split.
  - destruct (exec_stmt p (n_aliases nd0) c i e st) as [e1|m|m|] eqn:E1; try discriminate E. cbn [bind] in E.
    destruct (stmt_step demangle p nd0 W R _ _ _ _ _ _ _ H Hc E1) as [_ [x1 H1]]. destruct (count_step _ _ _ _ _ _ _ _ _ H Hc E1 H1 T) as [C1 T1].
    destruct (IH _ _ _ _ _ H1 T1 E) as [x2 [C2 [H2 T2]]]. exists (x1 ++ x2), C2. rewrite app_assoc. change ((i, st) :: map (pair i) sts) with ([(i, st)] ++ map (pair i) sts). rewrite app_assoc. now split.
Qed.
Lemma count_defines ds : (forall n d, In (n, d) ds -> d_name d = n) -> forall evs e ks C e', INV evs e ks -> CNT evs e ks C -> ofold (exec_define p (n_aliases nd0)) (map snd ds) e = Ret e' ->
  exists tr extra C', trace p ds tr /\ INV (evs ++ tr) e' (ks ++ extra) /\ CNT (evs ++ tr) e' (ks ++ extra) C'.
Proof.
  induction ds as [|[n d] ds IH]; intros Dn evs e ks C e' H T E; cbn [map snd ofold] in *.
  - injection E as <-. exists [], [], C. rewrite !app_nil_r. split; [constructor | now split].
  - assert (Dn' : forall n' d', In (n', d') ds -> d_name d' = n') by (intros n' d' I; apply Dn; right; exact I). pose proof (Dn n d (or_introl eq_refl)) as Hn.
    unfold exec_define at 1 in E. destruct (sget (n_aliases nd0) (d_name d)) as [c|] eqn:Ea.
    + apply (rn_aliases _ _ _ _ R) in Ea. rewrite upto_all in Ea. destruct Ea as [i [Li Ci]]. rewrite Hn in Li. pose proof (INV_defined p nd0 _ _ _ (sinsert (e_defined e) c) H) as H0.
      assert (Es : sget (e_indices e) c = Some i).
      { apply (nd_idx _ _ _ _ (iv_nodes _ _ _ _ _ H)). left. exists i. split; [exact Ci | exact (nd_real _ _ _ _ (iv_nodes _ _ _ _ _ H) i (live_lt _ _ _ Li))]. }
      cbv zeta in E. cbn [e_indices] in E. rewrite Es in E. destruct (ofold (exec_stmt p (n_aliases nd0) c i) (d_stmts d) _) as [e1|m|m|] eqn:E1; try discriminate E. cbn [bind] in E.
      assert (T0 : CNT evs (mkEdges (e_g e) (e_indices e) (e_indirects e) (e_seen e) (sinsert (e_defined e) c) (e_asm e)) ks C) by (destruct T; constructor; assumption).
      destruct (count_stmts i c (d_stmts d) Ci _ _ _ _ _ H0 T0 E1) as [x1 [C1 [H1 T1]]]. destruct (IH Dn' _ _ _ _ _ H1 T1 E) as [tr [x2 [C2 [Tr [H2 T2]]]]].
      exists (map (pair i) (d_stmts d) ++ tr), (x1 ++ x2), C2. split; [now apply tr_kept|]. rewrite !app_assoc. now split.
    + cbn [bind] in E. destruct (IH Dn' _ _ _ _ _ H T E) as [tr [x [C' [Tr K]]]]. exists tr, x, C'. split; [|exact K]. apply tr_removed; [|exact Tr]. rewrite Hn in Ea. exact (proj1 (alias_none demangle p nd0 R n) Ea).
Qed.
End IR.
