(** Lemmas: the edges of the graph, one by one. *)
From Coq Require Import Permutation.
From Coq Require FinFun.
From Verif Require Import M_base M_stack M_graph M_analysis M_filter M_names M_thumb M_ty M_parse M_build S_names S_build S_calls L_base L_names L_build1 L_build2 L_build3 L_build4 L_build5 L_build6 L_build7 L_build9 L_calls1 L_calls2 L_calls3.

Lemma trace_elem p ds tr : wf_prog p -> trace p ds tr -> forall i st, In (i, st) tr <-> exists n d, In (n, d) ds /\ live p n i /\ In st (d_stmts d).
Proof.
  intros W. induction 1 as [|n d ds tr N T IH|n d j ds tr L T IH]; intros i st.
  - split; [intros [] | intros [n [d [[] _]]]].
  - rewrite IH. split; intros [n' [d' [I K]]]; exists n', d'; (split; [|exact K]); [right; exact I|]. destruct I as [I|I]; [injection I as <- <-; now destruct (N i) | exact I].
  - rewrite in_app_iff, IH. split.
    + intros [K|[n' [d' [I K]]]]; [|exists n', d'; split; [right; exact I | exact K]]. apply in_map_iff in K. destruct K as [st' [K I]]. injection K as -> ->. exists n, d. split; [left; reflexivity|]. split; assumption.
    + intros [n' [d' [[I|I] [K1 K2]]]]; [|right; exists n', d'; repeat split; assumption]. injection I as <- <-. left. rewrite (live_inj p W _ _ _ K1 L). apply in_map. exact K2.
Qed.
Lemma trace_stmts p tr : wf_prog p -> trace p (pg_defines p) tr -> forall i st, In (i, st) tr <-> body p i st.
Proof. intros W T i st. exact (trace_elem p _ _ W T i st). Qed.
Lemma casts_In tr i f : In (i, f) (casts tr) <-> In (i, BitcastCall (Some f)) tr.
Proof.
  unfold casts. rewrite in_flat_map. split.
  - intros [[j st] [A B]]. destruct st as [|[g|]| | | | |]; cbn [cast_of] in B; (destruct B as [B|[]] || destruct B). injection B as -> ->. exact A.
  - intros A. exists (i, BitcastCall (Some f)). split; [exact A | now left].
Qed.

Theorem build_counted demangle o p b : wf_prog p -> fair o -> build demangle o p = Ret b ->
  exists tr ks void, trace p (pg_defines p) tr /\ graph_of p ks void (b_g b) /\ counted_edges p tr ks void (b_g b) /\
    (forall n u, sget (b_indices b) n = Some u <-> (exists j, chosen p j n /\ nth_error ks u = Some (KReal j)) \/ nth_error ks u = Some (KSym n)).
Proof.
  intros W Fo E. unfold build in E. apply bind_inv in E. destruct E as [? [_ E]]. destruct (bind_inv _ _ _ E) as [n [E1 E']]. destruct (bind_inv _ _ _ E') as [e [E2 E'']]. destruct (bind_inv _ _ _ E'') as [g [E3 E4]].
  injection E4 as <-. cbn [b_g b_indices b_info]. clear E E' E''. pose proof (real_nodes_spec _ _ _ W E1) as R.
  destruct (ir_edges_spec demangle p n W R e E2) as [_ [_ [_ [_ Hd]]]]. unfold ir_edges in E2.
  assert (C0 : CNT p [] (mkEdges (n_g n) (n_indices n) (n_indirects n) [] [] []) (map KReal (seq 0 (length (pg_defined p)))) []).
  { constructor; cbn [e_g e_seen app].
    - pose proof (iv_edges _ _ _ _ _ (INV0 demangle p n R)) as Ed. destruct (gedges (n_g n)) as [|[u v] r] eqn:Eg; [constructor|]. exfalso.
      destruct (es_may _ _ _ _ Ed u v) as [k [l [_ [_ K]]]]; [cbn [e_g]; rewrite Eg; now left|]. inversion K; contradiction.
    - constructor.
    - intros u v. split; [intros []|]. intros [l [_ [a [st [b [K _]]]]]]. destruct a; discriminate K.
    - constructor. }
  destruct (count_defines demangle p n W R (pg_defines p) (fun m d I => eq_sym (wf_def_names _ W m d I)) [] _ _ [] e (INV0 demangle p n R) C0 E2) as [tr [ex0 [C [T [H0 T0]]]]].
  cbn [app] in H0, T0. set (ks0 := map KReal (seq 0 (length (pg_defined p))) ++ ex0) in *. pose proof (trace_stmts p tr W T) as Hb.
  destruct (machine_count demangle p n tr e ks0 C W R H0 T0 Hb Hd g E3) as [ex1 [O [B BC]]].
  pose proof (sigs_ok demangle p n tr e ks0 R H0 Hb) as Sg.
  destruct (ptr_counts p o (e_indirects e) (n_fmts n) (n_untyped n) Fo Sg (gedges g) (o_sigs o (e_indirects e)) [] g (ks0 ++ ex1) [] eq_refl (PTR0 p o (e_indirects e) g _ B)) as [ex2 [P [HP [P1 P2 P3]]]].
  { constructor; [now rewrite app_nil_r | constructor|]. intros u v. split; [intros []|]. intros [k [l [A [A' K]]]].
    assert (Ns : forall s w, nth_error (ks0 ++ ex1) w <> Some (KSig s)) by (intros s w A2; apply nth_error_In in A2; apply (ba_in _ _ _ B) in A2; now destruct A2).
    inversion K; subst; eapply Ns; eassumption. }
  change (fold_left (add_indirect o (n_untyped n) (n_fmts n) (one_true_void (map fst (o_sigs o (e_indirects e))))) (o_sigs o (e_indirects e)) g)
    with (indirect_edges o (n_untyped n) (n_fmts n) (e_indirects e) g) in HP, P1.
  set (void := one_true_void (map fst (o_sigs o (e_indirects e)))) in *. set (ks := (ks0 ++ ex1) ++ ex2) in *.
  pose proof (ptr_graph p o (e_indirects e) _ _ Fo Sg _ ks HP) as G. fold void in G.
  assert (Pre : forall u' k, In k (ks0 ++ ex1) -> nth_error ks u' = Some k -> nth_error (ks0 ++ ex1) u' = Some k).
  { intros u' k K1 K2. apply In_nth_error in K1. destruct K1 as [w K1]. pose proof (nth_app_l _ ex2 _ _ K1) as K3. fold ks in K3.
    assert (Lw : w < length ks) by (apply nth_error_Some; rewrite K3; discriminate).
    rewrite <- (proj1 (NoDup_nth_error _) (go_keys _ _ _ _ G) w u' Lw); [exact K1 | congruence]. }
  assert (Idx : forall m u, sget (e_indices e) m = Some u <-> (exists j, chosen p j m /\ nth_error ks u = Some (KReal j)) \/ nth_error ks u = Some (KSym m)).
  { pose proof (iv_nodes _ _ _ _ _ H0) as N. intros m u. rewrite (nd_idx _ _ _ _ N).
    assert (Pre0 : forall u' k, In k ks0 -> nth_error ks u' = Some k -> nth_error ks0 u' = Some k).
    { intros u' k K1 K2. apply In_nth_error in K1. destruct K1 as [w K1]. pose proof (nth_app_l _ ex2 _ _ (nth_app_l _ ex1 _ _ K1)) as K3. fold ks in K3.
      assert (Lw : w < length ks) by (apply nth_error_Some; rewrite K3; discriminate).
      rewrite <- (proj1 (NoDup_nth_error _) (go_keys _ _ _ _ G) w u' Lw); [exact K1 | congruence]. }
    split.
    - intros [[j [Cj K]] | K]; [left; exists j; split; [exact Cj|] | right]; apply nth_app_l; apply nth_app_l; exact K.
    - intros [[j [Cj K]] | K].
      + left. exists j. split; [exact Cj|]. apply Pre0; [|exact K]. apply (nd_in _ _ _ _ N). left. exists j. split; [exact (live_lt p _ _ (chosen_live p _ _ Cj)) | reflexivity].
      + right. apply Pre0; [|exact K]. apply (nd_in _ _ _ _ N). right. exists m. split; [|reflexivity]. apply (created_iff p tr Hb).
        apply nth_error_In in K. apply (go_nodes _ _ _ _ G) in K. inversion K. assumption. }
  exists tr, ks, void. split; [exact T|]. split; [exact G|]. split; [|exact Idx]. destruct BC as [B1 B2 B3 B4].
  assert (Callee : forall i l, calls p tr i l -> In l (ks0 ++ ex1) /\ i < length (pg_defined p)).
  { intros i l K. pose proof (iv_nodes _ _ _ _ _ H0) as N. split.
    - apply (ba_in _ _ _ B). destruct K as [[a [st [b' [-> K]]]]|[j [-> J]]].
      + assert (Made : forall m, made p a m -> created p m) by (intros m Md; apply (created_iff p (a ++ (i, st) :: b') Hb); apply createdE_app; now left).
        assert (Bs : body p i st) by (apply Hb; apply in_or_app; right; now left).
        destruct K as [f j _ Lj _|f NI NL Mm|f m j _ _ Cj|f m _ _ _ Md]; (split; [|exact I]).
        * apply in_real. exact (live_lt _ _ _ Lj).
        * apply in_sym. destruct (str_eqb_spec f memcmp) as [->|Nm]; [exact (Made _ (Mm eq_refl))|]. left. exists i. now split.
        * apply in_real. exact (live_lt _ _ _ (chosen_live _ _ _ Cj)).
        * apply in_sym. exact (Made _ Md).
      + split; [|exact I]. apply in_real. destruct J as [a [s [y [_ [[off [_ [sym K]]]|[off [_ [[sym K] _]]]]]]]]; apply nth_error_Some; rewrite K; discriminate.
    - destruct K as [[a [st [b' [-> K]]]]|[j [-> J]]].
      + assert (Bs : body p i st) by (apply Hb; apply in_or_app; right; now left). destruct Bs as [m [d [_ [Lm _]]]]. exact (live_lt _ _ _ Lm).
      + destruct J as [a [s [y [[_ [st [tx [z [c [_ [K _]]]]]]] _]]]]. apply nth_error_Some. rewrite K. discriminate. }
  exists C, (O ++ P). split; [|split; [|split]].
  - rewrite P1, B1, app_assoc. reflexivity.
  - apply NoDup_app_intro; [exact B2 | exact P2|]. intros [u v] A A'. apply B3 in A. apply P3 in A'. destruct A as [l [A A2]]. destruct A' as [k' [l' [Au [Av A3]]]].
    assert (Bl : In l (ks0 ++ ex1)) by exact (nth_error_In _ _ A). pose proof (nth_app_l _ ex2 _ _ A) as Av'. fold ks in Av'. rewrite Av' in Av. injection Av as <-. apply (ba_in _ _ _ B) in Bl. destruct Bl as [_ Bl].
    assert (Lu : u < length (pg_defined p)).
    { destruct A2 as [A2|[[[a [s [y [[_ [st [tx [z [c [_ [K _]]]]]]] _]]]] _] _]]; [exact (proj2 (Callee _ _ A2))|]. apply nth_error_Some. rewrite K. discriminate. }
    rewrite (go_real _ _ _ _ G u Lu) in Au. injection Au as <-. inversion A3; subst. destruct Bl.
  - intros u v. rewrite in_app_iff, B3, P3. split.
    + intros [[l [A A2]]|[k [l [A [A' K]]]]].
      * assert (Lu : u < length (pg_defined p)).
        { destruct A2 as [A2|[[[a [s [y [[_ [st [tx [z [c [_ [K _]]]]]]] _]]]] _] _]]; [exact (proj2 (Callee _ _ A2))|]. apply nth_error_Some. rewrite K. discriminate. }
        exists (KReal u), l. split; [exact (go_real _ _ _ _ G u Lu)|]. split; [now apply nth_app_l|]. destruct A2 as [A2|[A2 ->]]; [now apply on_call | now apply on_blind].
      * exists k, l. split; [exact A|]. split; [exact A'|]. inversion K; subst; [now apply on_pointer | now apply on_pointee | now apply on_outside].
    + intros [k [l [A [A' K]]]]. destruct K as [i l K|i K|i s K|s j K1 K2|s K1 K2].
      * left. exists l. rewrite (real_idx p ks void _ G _ _ A). split; [|now left]. apply Pre; [exact (proj1 (Callee _ _ K)) | exact A'].
      * left. exists (KCode i). rewrite (real_idx p ks void _ G _ _ A). split; [|right; now split]. apply Pre; [|exact A']. apply (ba_in _ _ _ B). split; [now apply in_code | exact I].
      * right. exists (KReal i), (KSig s). split; [exact A|]. split; [exact A' | now apply pe_pointer].
      * right. exists (KSig s), (KReal j). split; [exact A|]. split; [exact A' | now apply pe_pointee].
      * right. exists (KSig s), (KExt s). split; [exact A|]. split; [exact A' | now apply pe_outside].
  - clear -B4. induction B4 as [|a b' l0 C0 [F1 [l [F2 F3]]] F IH]; constructor; [|exact IH]. split; [exact F1|]. exists l. split; [now apply nth_app_l | exact F3].
Qed.

(** * Consequences *)
Lemma target_fun p f l l' : wf_prog p -> cast_target p f l -> cast_target p f l' -> l = l'.
Proof.
  intros W [[j [A ->]]|[A ->]] [[j' [A' ->]]|[A' ->]]; [now rewrite (chosen_inj p W _ _ _ A A') | now destruct (A' j) | now destruct (A j') | reflexivity].
Qed.
Lemma target_inj p f f' l : cast_target p f l -> cast_target p f' l -> f = f'.
Proof.
  intros [[j [A ->]]|[A ->]] [[j' [A' E]]|[A' E]]; try discriminate E; injection E as <-; [exact (chosen_fun p _ _ _ A A') | reflexivity].
Qed.
Lemma Forall2_In_l {A B} (R : A -> B -> Prop) a b : Forall2 R a b -> forall x, In x a -> exists y, In y b /\ R x y.
Proof. intros F. induction F as [|x y a b r F IH]; intros z; [intros []|]. intros [<-|I]; [exists y; split; [now left | exact r]|]. destruct (IH z I) as [w [K1 K2]]. exists w. split; [now right | exact K2]. Qed.
Lemma Forall2_In_r {A B} (R : A -> B -> Prop) a b : Forall2 R a b -> forall y, In y b -> exists x, In x a /\ R x y.
Proof. intros F. induction F as [|x y a b r F IH]; intros z; [intros []|]. intros [<-|I]; [exists x; split; [now left | exact r]|]. destruct (IH z I) as [w [K1 K2]]. exists w. split; [now right | exact K2]. Qed.
Lemma Forall2_NoDup {A B} (R : A -> B -> Prop) a b : (forall x y y', R x y -> R x y' -> y = y') -> (forall x x' y, R x y -> R x' y -> x = x') -> Forall2 R a b -> (NoDup a <-> NoDup b).
Proof.
  intros F1 F2 F. induction F as [|x y a b r F IH]; [split; constructor|]. split; intros N; inversion N as [|? ? N1 N2]; subst; (constructor; [|now apply IH]); intros I.
  - destruct (Forall2_In_r _ _ _ F _ I) as [x' [I' r']]. rewrite (F2 _ _ _ r' r) in I'. exact (N1 I').
  - destruct (Forall2_In_l _ _ _ F _ I) as [y' [I' r']]. rewrite (F1 _ _ _ r' r) in I'. exact (N1 I').
Qed.
Lemma times_app e a b : times e (a ++ b) = times e a + times e b.
Proof. unfold times. now rewrite filter_app, app_length. Qed.
Lemma times_perm e a b : Permutation a b -> times e a = times e b.
Proof.
  intros P. unfold times. induction P as [|x a b P IH|x y a|a b c P1 IH1 P2 IH2]; cbn [filter]; [reflexivity | | | congruence].
  - destruct ((fst x =? fst e) && (snd x =? snd e))%nat; cbn [length]; now rewrite IH.
  - destruct ((fst x =? fst e) && (snd x =? snd e))%nat, ((fst y =? fst e) && (snd y =? snd e))%nat; reflexivity.
Qed.
Lemma times_zero e l : ~ In e l -> times e l = 0.
Proof.
  unfold times. induction l as [|x l IH]; intros N; cbn [filter]; [reflexivity|]. destruct ((fst x =? fst e) && (snd x =? snd e))%nat eqn:E.
  - destruct N. left. apply andb_prop in E. destruct E as [E1 E2]. apply Nat.eqb_eq in E1, E2. destruct x, e. cbn in *. congruence.
  - apply IH. intros K. apply N. now right.
Qed.
Lemma times_nodup e l : NoDup l -> times e l <= 1 /\ (times e l = 1 <-> In e l).
Proof.
  induction l as [|x l IH]; intros N; [cbn; split; [lia | split; [discriminate | intros []]]|]. inversion N as [|? ? N1 N2]; subst. change (x :: l) with ([x] ++ l). rewrite times_app.
  destruct (IH N2) as [K1 K2]. unfold times at 1 3. cbn [filter]. destruct ((fst x =? fst e) && (snd x =? snd e))%nat eqn:E; cbn [length].
  - assert (x = e) as -> by (apply andb_prop in E; destruct E as [E1 E2]; apply Nat.eqb_eq in E1, E2; destruct x, e; cbn in *; congruence).
    rewrite (times_zero _ _ N1). split; [lia|]. split; [now left | reflexivity].
  - cbn [app In plus]. split; [exact K1|]. rewrite K2. split; [now right|]. intros [->|K]; [|exact K]. now rewrite !Nat.eqb_refl in E.
Qed.

Section Consequences.
Variables (demangle : str -> str) (o : orders) (p : prog) (b : built) (tr : list (nat * stmt)).
Hypothesis (W : wf_prog p) (Fo : fair o) (E : build demangle o p = Ret b) (T : trace p (pg_defines p) tr).

Lemma counted_here : exists ks void, graph_of p ks void (b_g b) /\ counted_edges p tr ks void (b_g b) /\
    (forall n u, sget (b_indices b) n = Some u <-> (exists j, chosen p j n /\ nth_error ks u = Some (KReal j)) \/ nth_error ks u = Some (KSym n)).
Proof.
  destruct (build_counted _ _ _ _ W Fo E) as [tr' [ks [void [T' K]]]]. rewrite <- (trace_same p W _ _ _ T T') in K. now exists ks, void.
Qed.
Lemma how_often i n l u : i < length (pg_defined p) -> sget (b_indices b) n = Some u -> cast_target p n l ->
  exists c, times (i, u) (gedges (b_g b)) = times_cast i n tr + c /\ c <= 1 /\ (c = 1 <-> calls p tr i l).
Proof.
  intros Li Eu Tl. destruct counted_here as [ks [void [G [[C [O [P [ND [IO F]]]]] Ix]]]]. exists (times (i, u) O).
  assert (Ku : nth_error ks u = Some l).
  { apply Ix in Eu. destruct Eu as [[j [Cj K]]|K].
    - rewrite K. f_equal. apply (target_fun p n); [exact W | left; now exists j | exact Tl].
    - rewrite K. f_equal. apply (target_fun p n); [exact W | | exact Tl]. right. split; [|reflexivity]. apply nth_error_In in K. apply (go_nodes _ _ _ _ G) in K. inversion K as [|m Cr| | |]; subst.
      intros j Cj. destruct Cr as [[k [_ [_ [_ Q]]]]|[k [_ Q]]]; [exact (Q j (chosen_live _ _ _ Cj)) | exact (Q j Cj)]. }
  destruct (times_nodup (i, u) O ND) as [K1 K2]. split; [|split; [exact K1|]].
  - rewrite (times_perm _ _ _ P), times_app. f_equal. unfold times, times_cast. cbn [fst snd]. clear P IO ND K1 K2. induction F as [|[j f] [x y] a c [F1 [l' [F2 F3]]] F IH]; [reflexivity|].
    cbn [filter fst snd] in *. subst x. destruct (Nat.eqb_spec j i) as [->|N]; [|exact IH]. cbn [andb]. destruct (Nat.eqb_spec y u) as [->|Ny], (str_eqb_spec f n) as [->|Nf]; cbn [length].
    + now rewrite IH.
    + destruct Nf. rewrite Ku in F2. injection F2 as <-. exact (target_inj _ _ _ _ F3 Tl).
    + destruct Ny. rewrite (target_fun _ _ _ _ W F3 Tl) in F2. exact (key_inj _ _ _ _ G _ _ _ F2 Ku).
    + exact IH.
  - rewrite K2, IO. split.
    + intros [k [l' [A [A' K]]]]. rewrite (go_real _ _ _ _ G i Li) in A. injection A as <-. rewrite Ku in A'. injection A' as <-.
      inversion K as [? ? K'|? K'|? ? K'| |]; subst; [exact K' | destruct Tl as [[j [_ Tl]]|[_ Tl]]; discriminate Tl | destruct Tl as [[j [_ Tl]]|[_ Tl]]; discriminate Tl].
    + intros K. exists (KReal i), l. split; [exact (go_real _ _ _ _ G i Li)|]. split; [exact Ku | now apply on_call].
Qed.
Lemma times_pos e l : In e l <-> 0 < times e l.
Proof.
  split.
  - intros I. apply in_split in I. destruct I as [x [y ->]]. rewrite times_app. change (e :: y) with ([e] ++ y). rewrite times_app. unfold times at 2. cbn [filter]. rewrite !Nat.eqb_refl. cbn [andb length]. lia.
  - intros K. unfold times in K. destruct (filter _ l) as [|x r] eqn:F; [cbn in K; lia|]. assert (I : In x (x :: r)) by now left. rewrite <- F in I. apply filter_In in I. destruct I as [I B].
    apply andb_prop in B. destruct B as [E1 E2]. apply Nat.eqb_eq in E1, E2. destruct x, e. cbn in *. now subst.
Qed.
Lemma cast_pos i n : 0 < times_cast i n tr <-> body p i (BitcastCall (Some n)).
Proof.
  rewrite <- (trace_stmts p tr W T), <- casts_In. unfold times_cast. split.
  - intros K. destruct (filter _ (casts tr)) as [|x r] eqn:F; [cbn in K; lia|]. assert (I : In x (x :: r)) by now left. rewrite <- F in I. apply filter_In in I. destruct I as [I B].
    apply andb_prop in B. destruct B as [E1 E2]. apply Nat.eqb_eq in E1. apply str_eqb_eq in E2. destruct x. cbn in *. now subst.
  - intros I. assert (K : In (i, n) (filter (fun c => (fst c =? i)%nat && str_eqb (snd c) n) (casts tr))) by (apply filter_In; split; [exact I | cbn; now rewrite Nat.eqb_refl, str_eqb_refl]).
    destruct (filter _ (casts tr)); [destruct K | cbn; lia].
Qed.
Lemma edge_exact i n l u : i < length (pg_defined p) -> sget (b_indices b) n = Some u -> cast_target p n l ->
  (In (i, u) (gedges (b_g b)) <-> calls p tr i l \/ body p i (BitcastCall (Some n))).
Proof.
  intros Li Eu Tl. destruct (how_often i n l u Li Eu Tl) as [c [K1 [K2 K3]]]. rewrite times_pos, K1, <- cast_pos, <- K3. lia.
Qed.
Lemma functions_exact i j : i < length (pg_defined p) -> j < length (pg_defined p) ->
  (In (i, j) (gedges (b_g b)) <-> calls p tr i (KReal j) \/ exists f, chosen p j f /\ body p i (BitcastCall (Some f))).
Proof.
  intros Li Lj. destruct counted_here as [ks [void [G [_ Ix]]]].
  destruct (show_at _ _ _ _ G _ _ (go_real _ _ _ _ G j Lj)) as [nd [_ Sh]]. inversion Sh as [? c ? Cj _| | | |]; subst.
  assert (Ej : sget (b_indices b) c = Some j) by (apply Ix; left; exists j; split; [exact Cj | exact (go_real _ _ _ _ G j Lj)]).
  rewrite (edge_exact i c (KReal j) j Li Ej); [|left; now exists j]. split; (intros [K|K]; [now left|right]).
  - now exists c.
  - destruct K as [f [Cf K]]. now rewrite (chosen_fun p _ _ _ Cj Cf).
Qed.
Lemma repeated_exact : NoDup (gedges (b_g b)) <-> NoDup (casts tr) /\ forall i f l, In (i, f) (casts tr) -> cast_target p f l -> ~ calls p tr i l.
Proof.
  destruct counted_here as [ks [void [G [[C [O [P [ND [IO F]]]]] Ix]]]].
  assert (Q : NoDup (gedges (b_g b)) <-> NoDup (C ++ O)) by (split; apply Permutation_NoDup; [exact P | symmetry; exact P]). rewrite Q. clear Q.
  assert (Q : NoDup (casts tr) <-> NoDup C).
  { apply (Forall2_NoDup _ _ _) with (3 := F).
    - intros [j f] [x y] [x' y'] [A1 [l [A2 A3]]] [B1 [l' [B2 B3]]]. cbn [fst snd] in *. subst. f_equal. rewrite (target_fun _ _ _ _ W A3 B3) in A2. exact (key_inj _ _ _ _ G _ _ _ A2 B2).
    - intros [j f] [j' f'] [x y] [A1 [l [A2 A3]]] [B1 [l' [B2 B3]]]. cbn [fst snd] in *. subst. f_equal. rewrite A2 in B2. injection B2 as <-. exact (target_inj _ _ _ _ A3 B3). }
  rewrite Q. split.
  - intros N. apply nodup_app in N. destruct N as [N1 [_ D]]. split; [exact N1|]. intros i f l I Tl K. destruct (Forall2_In_l _ _ _ F _ I) as [[x y] [I' [A1 [l' [A2 A3]]]]]. cbn [fst snd] in *. subst x.
    apply (D _ I'). apply IO. exists (KReal i), l. rewrite (target_fun _ _ _ _ W A3 Tl) in A2. split; [|split; [exact A2 | now apply on_call]].
    apply (go_real _ _ _ _ G). apply casts_In in I. apply (trace_stmts p tr W T) in I. destruct I as [m [d [_ [Lm _]]]]. exact (live_lt _ _ _ Lm).
  - intros [N1 D]. apply NoDup_app_intro; [exact N1 | exact ND|]. intros [x y] A A'. destruct (Forall2_In_r _ _ _ F _ A) as [[i f] [I [A1 [l [A2 A3]]]]]. cbn [fst snd] in *. subst x.
    apply IO in A'. destruct A' as [k [l' [B1 [B2 K]]]]. rewrite A2 in B2. injection B2 as <-.
    assert (Li : i < length (pg_defined p)) by (apply casts_In in I; apply (trace_stmts p tr W T) in I; destruct I as [m [d [_ [Lm _]]]]; exact (live_lt _ _ _ Lm)).
    rewrite (go_real _ _ _ _ G i Li) in B1. injection B1 as <-. apply (D i f l I A3).
    inversion K as [? ? K'|? K'|? ? K'| |]; subst; [exact K' | destruct A3 as [[j [_ A3]]|[_ A3]]; discriminate A3 | destruct A3 as [[j [_ A3]]|[_ A3]]; discriminate A3].
Qed.
End Consequences.
