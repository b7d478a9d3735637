(** Lemmas: which maxima are exact, and what a call through a pointer reaches, in terms of the program. *)
From Coq Require Import Permutation.
From Verif Require Import M_base M_stack M_graph M_analysis M_filter M_names M_render M_thumb M_ty M_parse M_build M_run S_names S_graph S_filter S_sig S_build S_run L_base L_names L_ir2 L_trav L_maxprops L_mono L_filter2 L_build1 L_build2 L_build3 L_build4 L_build5 L_build6 L_build7 L_build8 X_build L_build9 L_run L_u64 L_run2 S_calls L_calls4 L_calls5 L_calls6 S_exact.
Local Open Scope string_scope.
Local Open Scope list_scope.

Section Exact.
Variables (demangle : str -> str) (o : orders) (p : prog) (b : built) (tr : list (nat * stmt)).
Hypothesis (W : wf_prog p) (Fo : fair o) (E : build demangle o p = Ret b) (T : trace p (pg_defines p) tr).

Lemma arrow_node void k l : void_type p void -> arrow p tr void k l -> is_node p l.
Proof.
  intros _ [H|[i [f [_ [I [[j [C ->]]|[N ->]]]]]]].
  - destruct H as [i l [[a [st [c [Et K]]]]|[j [-> J]]]|i B|i s C|s j C P|s C U].
    + assert (B : body p i st) by (apply (trace_stmts p tr W T); rewrite Et; apply in_or_app; right; now left).
      assert (M : forall n, made p a n -> created p n) by (intros n; apply (made_created p tr a n W T); rewrite Et; intros x Ix; apply in_or_app; now left).
      destruct K as [f j A L Q|f A N Q|f n j A L Q|f n A L Q D].
      * apply in_real. exact (live_lt _ _ _ L).
      * apply in_sym. destruct (list_eq_dec ascii_dec f memcmp) as [->|Ne]; [now apply M, Q|]. left. exists i. now split.
      * apply in_real. destruct Q as [ns [[x [X _]] _]]. apply nth_error_Some. rewrite X. discriminate.
      * apply in_sym. now apply M.
    + apply in_real. destruct J as [addr [size [an [_ [[off [_ [sym X]]]|[off [_ [[sym X] _]]]]]]]]; apply nth_error_Some; rewrite X; discriminate.
    + now apply in_code.
    + apply in_sig. now exists i.
    + apply in_real. assert (Lt : forall ns, names_at p j ns -> j < length (pg_defined p)) by (intros ns [x [X _]]; apply nth_error_Some; rewrite X; discriminate).
      destruct P as [[v [_ [_ [r [ns [n [d [X _]]]]]]]]|[_ [[ns [n [d [X _]]]]|[ns [n [X _]]]]]]; exact (Lt ns X).
    + now apply in_ext.
  - apply in_real. destruct C as [ns [[x [X _]] _]]. apply nth_error_Some. rewrite X. discriminate.
  - apply in_sym. right. exists i. split; [|exact N]. apply (trace_stmts p tr W T). now apply casts_In.
Qed.
(** The edges, for the correspondence of nodes under which they were counted. *)
Lemma arrow_graph ks void g : graph_of p ks void g -> counted_edges p tr ks void g ->
  (forall u v, In (u, v) (gedges g) <-> exists k l, nth_error ks u = Some k /\ nth_error ks v = Some l /\ arrow p tr void k l) /\
  (forall k l, arrow p tr void k l -> In l ks).
Proof.
  intros G C. split; [|intros k l A; apply (go_nodes _ _ _ _ G); exact (arrow_node void k l (go_void _ _ _ _ G) A)].
  destruct C as [bc [ot [P [_ [I F]]]]]. intros u v. split.
  - intros H. apply (Permutation_in _ P) in H. apply in_app_or in H. destruct H as [H|H].
    + destruct (in_split _ _ H) as [b1 [b2 Eb]]. subst bc. apply Forall2_app_inv_r in F. destruct F as [c1 [c2 [_ [F2 Ec]]]]. inversion F2 as [|[i f] y c2' l' [F3 [l [F4 F5]]] _ X1 X2]. subst. cbn [fst snd] in F3, F4, F5. subst u.
      assert (Ii : In (i, f) (casts tr)) by (rewrite Ec; apply in_or_app; right; now left).
      exists (KReal i), l. split; [|split; [exact F4 | right; exists i, f; now repeat split]]. apply (go_real _ _ _ _ G).
      apply casts_In, (trace_stmts p tr W T) in Ii. destruct Ii as [m [d [_ [Lm _]]]]. exact (live_lt _ _ _ Lm).
    + apply I in H. destruct H as [k [l [K1 [K2 K3]]]]. exists k, l. split; [exact K1|]. split; [exact K2|]. now left.
  - intros [k [l [K1 [K2 [K3|[i [f [-> [K4 K5]]]]]]]]]; apply (Permutation_in _ (Permutation_sym P)), in_or_app; [right; apply I; now exists k, l|]. left.
    destruct (in_split _ _ K4) as [c1 [c2 Ec]]. rewrite Ec in F. apply Forall2_app_inv_l in F. destruct F as [b1 [b2 [_ [F2 ->]]]]. inversion F2 as [|x [x1 x2] c' b' [F3 [l' [F4 F5]]] _ X1 X2]. subst. cbn [fst snd] in *. subst x1.
    rewrite (target_fun _ _ _ _ W F5 K5) in F4. rewrite (key_inj _ _ _ _ G _ _ _ F4 K2). rewrite (real_idx p ks void _ G _ _ K1). apply in_or_app. right. now left.
Qed.
Lemma arrow_times ks void g u v k l : graph_of p ks void g -> counted_edges p tr ks void g -> nth_error ks u = Some k -> nth_error ks v = Some l ->
  shown_times p tr void k l (times (u, v) (gedges g)).
Proof.
  intros G [C [O [P [ND [IO F]]]]] Ku Kv. exists (times (u, v) C), (times (u, v) O). destruct (times_nodup (u, v) O ND) as [K1 K2].
  split; [now rewrite (times_perm _ _ _ P), times_app|]. split; [exact K1|]. split; [|split].
  - rewrite K2, IO. split; [|intros K; now exists k, l]. intros [k' [l' [A [A' K]]]]. rewrite Ku in A. injection A as <-. rewrite Kv in A'. now injection A' as <-.
  - intros i f -> Tl. pose proof (real_idx p ks void _ G _ _ Ku) as X. subst u. unfold times, times_cast. cbn [fst snd]. clear P IO ND K1 K2. induction F as [|[j f'] [x y] a c [F1 [l' [F2 F3]]] F IH]; [reflexivity|].
    cbn [filter fst snd] in *. subst x. destruct (Nat.eqb_spec j i) as [->|N]; [|exact IH]. cbn [andb]. destruct (Nat.eqb_spec y v) as [->|Ny], (str_eqb_spec f' f) as [->|Nf]; cbn [length].
    + now rewrite IH.
    + destruct Nf. rewrite Kv in F2. injection F2 as <-. exact (target_inj _ _ _ _ F3 Tl).
    + destruct Ny. rewrite (target_fun _ _ _ _ W F3 Tl) in F2. exact (key_inj _ _ _ _ G _ _ _ F2 Kv).
    + exact IH.
  - intros N. apply times_zero. intros I. destruct (Forall2_In_r _ _ _ F _ I) as [[i f] [I' [A1 [l' [A2 A3]]]]]. cbn [fst snd] in *. subst u. rewrite Kv in A2. injection A2 as <-.
    assert (Li : i < length (pg_defined p)) by (apply casts_In in I'; apply (trace_stmts p tr W T) in I'; destruct I' as [m [d [_ [Lm _]]]]; exact (live_lt _ _ _ Lm)).
    rewrite (go_real _ _ _ _ G i Li) in Ku. injection Ku as <-. exact (N i f eq_refl A3).
Qed.
Lemma arrow_edge : exists ks void, graph_of p ks void (b_g b) /\
  (forall u v, In (u, v) (gedges (b_g b)) <-> exists k l, nth_error ks u = Some k /\ nth_error ks v = Some l /\ arrow p tr void k l) /\
  (forall u k l, nth_error ks u = Some k -> arrow p tr void k l -> exists v, nth_error ks v = Some l /\ In (u, v) (gedges (b_g b))).
Proof.
  destruct (build_counted _ _ _ _ W Fo E) as [tr' [ks [void [T' [G [C _]]]]]]. rewrite <- (trace_same p W _ _ _ T T') in C. clear tr' T'. exists ks, void. split; [exact G|].
  destruct (arrow_graph ks void _ G C) as [Ed Cl]. split; [exact Ed|]. intros u k l K A. pose proof (Cl k l A) as N.
  apply In_nth_error in N. destruct N as [v N]. exists v. split; [exact N|]. apply Ed. now exists k, l.
Qed.

Lemma exact_program g cs : max_stack true (b_g b) = Ret (g, cs) ->
  exists void, void_type p void /\ forall i m, i < length (pg_defined p) -> reported g i m ->
  (exact m <-> forall k, S_run.leads (arrow p tr void) (KReal i) k -> accounted p tr void k).
Proof.
  intros H. destruct arrow_edge as [ks [void [G [Ed Dn]]]]. exists void. split; [exact (go_void _ _ _ _ G)|]. pose proof (graph_wf p ks void _ G) as Wf.
  assert (Up : forall u v, reach (b_g b) u v -> forall k l, nth_error ks u = Some k -> nth_error ks v = Some l -> S_run.leads (arrow p tr void) k l).
  { intros u v R. induction R as [v|u w v C R IH]; intros k l K L; [rewrite K in L; injection L as ->; constructor|]. apply Ed in C. destruct C as [k' [j [C1 [C2 C3]]]]. rewrite K in C1. injection C1 as <-.
    apply (S_run.leads_step _ _ j); [exact C3 | now apply IH]. }
  assert (Dw : forall k l, S_run.leads (arrow p tr void) k l -> forall u, nth_error ks u = Some k -> exists v, nth_error ks v = Some l /\ reach (b_g b) u v).
  { intros k l R. induction R as [k|k j l A R IH]; intros u K; [exists u; split; [exact K | constructor]|]. destruct (Dn u k j K A) as [w [Kw Iw]]. destruct (IH w Kw) as [v [Kv Rv]]. exists v. split; [exact Kv|]. apply star_step with w; assumption. }
  assert (Rc : forall u k, nth_error ks u = Some k -> (recursive (b_g b) u <-> circular p tr void k)).
  { intros u k K. split.
    - intros [w [C R]]. apply Ed in C. destruct C as [k' [j [C1 [C2 C3]]]]. rewrite K in C1. injection C1 as <-. exists j. split; [exact C3|]. exact (Up w u R j k C2 K).
    - intros [l [A R]]. destruct (Dn u k l K A) as [w [Kw Iw]]. destruct (Dw l k R w Kw) as [v [Kv Rv]]. rewrite (key_inj _ _ _ _ G _ _ _ Kv K) in Rv. now exists w. }
  assert (Kn : forall u k n, nth_error ks u = Some k -> (known (b_g b) u n <-> match k with KReal j => usage p j (LExact n) | KSig _ => n = 0%N | _ => False end)).
  { intros u k n K. destruct (show_at _ _ _ _ G _ _ K) as [nd [N1 N2]]. unfold known, local_of. rewrite N1. destruct N2 as [j c l C U|c|j|s l Sl|s]; cbn [nlocal option_map].
    - split; [intros X; injection X as ->; exact U | intros X; now rewrite (usage_fun p j _ _ W U X)].
    - split; [discriminate | intros []].
    - split; [discriminate | intros []].
    - split; [intros X; now injection X as <- | now intros ->].
    - split; [discriminate | intros []]. }
  intros i m L R. pose proof (go_real _ _ _ _ G i L) as Ki. rewrite (exact_iff _ _ _ _ _ Wf H R). split.
  - intros [A B] k Lk. destruct (Dw _ _ Lk i Ki) as [v [Kv Rv]]. destruct (A v Rv) as [n Nv]. pose proof (proj1 (Kn v k n Kv) Nv) as Nk. destruct k as [j|c|j|s|s]; cbn [accounted]; try exact Nk; [|exact Logic.I].
    exists n. split; [exact Nk|]. intros Cc. pose proof (B v Rv (proj2 (Rc v _ Kv) Cc)) as Z. apply (Kn v _ _ Kv) in Z. pose proof (usage_fun p j _ _ W Nk Z) as X. now injection X as ->.
  - intros A. assert (Ak : forall v, reach (b_g b) i v -> exists k, nth_error ks v = Some k /\ accounted p tr void k).
    { intros v Rv. assert (X : exists k, nth_error ks v = Some k).
      { destruct (nth_error ks v) as [k|] eqn:X; [now exists k|]. exfalso. apply nth_error_None in X. clear - Rv Wf X L G. assert (Y : v < length ks); [|lia].
        assert (Lk : length ks = node_count (b_g b)) by exact (Forall2_len _ _ _ (go_show _ _ _ _ G)). pose proof (go_real _ _ _ _ G i L) as K. assert (Y : i < length ks) by (apply nth_error_Some; rewrite K; discriminate). clear - Y Rv Lk Wf.
        induction Rv as [v|u w v C R IH]; [exact Y|]. apply IH. destruct (Wf _ _ C) as [_ X]. lia. }
      destruct X as [k K]. exists k. split; [exact K|]. apply A. exact (Up i v Rv _ _ Ki K). }
    split.
    + intros v Rv. destruct (Ak v Rv) as [k [K1 K2]]. destruct k as [j|c|j|s|s]; try destruct K2.
      * destruct H0 as [X _]. exists x. now apply (Kn v _ _ K1).
      * exists 0%N. now apply (Kn v _ _ K1).
    + intros v Rv Rr. destruct (Ak v Rv) as [k [K1 K2]]. apply (Kn v _ _ K1). apply (Rc v _ K1) in Rr. destruct k as [j|c|j|s|s]; cbn [accounted] in K2; try destruct K2; [|reflexivity].
      destruct H0 as [X Y]. rewrite <- (Y Rr). exact X.
Qed.

Lemma pointers_exact : exists void, void_type p void /\ forall i j, i < length (pg_defined p) -> j < length (pg_defined p) ->
  ((exists d nd, In (i, d) (gedges (b_g b)) /\ In (d, j) (gedges (b_g b)) /\ nth_error (gnodes (b_g b)) d = Some nd /\ ndashed nd = true) <-> through p void i j).
Proof.
  destruct arrow_edge as [ks [void [G [Ed Dn]]]]. exists void. split; [exact (go_void _ _ _ _ G)|]. intros i j Li Lj. pose proof (go_real _ _ _ _ G i Li) as Ki. pose proof (go_real _ _ _ _ G j Lj) as Kj. split.
  - intros [d [nd [I1 [I2 [N D]]]]]. destruct (key_at _ _ _ _ G _ _ N) as [k [K S]]. apply Ed in I1, I2. destruct I1 as [a [k1 [A1 [A2 A3]]]]. destruct I2 as [k2 [c [C1 [C2 C3]]]].
    rewrite K in A2, C1. injection A2 as <-. injection C1 as <-. rewrite Ki in A1. injection A1 as <-. rewrite Kj in C2. injection C2 as <-. clear Ed Dn.
    destruct S as [x n l _ _|n|x|s l _|s]; try discriminate D. exists s. split.
    + destruct A3 as [A3|[x [f [_ [_ [[y [_ X]]|[_ X]]]]]]]; [|discriminate X|discriminate X]. inversion A3 as [x l' Cl X Y|x B X Y|x s' Cs X Y|s' y Cs P X Y|s' Cs U X Y]; subst; [|exact Cs].
      destruct Cl as [[a [st [c [_ Le]]]]|[y [X _]]]; [inversion Le | discriminate X].
    + destruct C3 as [C3|[x [f [X _]]]]; [|discriminate X]. inversion C3; subst. assumption.
  - intros [s [C P]]. destruct (Dn i (KReal i) (KSig s) Ki (or_introl (on_pointer p tr void i s C))) as [d [Kd Id]].
    destruct (show_at _ _ _ _ G _ _ Kd) as [nd [N S]]. exists d, nd. split; [exact Id|]. split; [|split; [exact N | now inversion S]].
    apply Ed. exists (KSig s), (KReal j). split; [exact Kd|]. split; [exact Kj|]. left. apply on_pointee; [now exists i | exact P].
Qed.
End Exact.

Lemma c40_exact demangle o p b : wf_prog p -> fair o -> build demangle o p = Ret b ->
  exists void, void_type p void /\ forall i j, i < length (pg_defined p) -> j < length (pg_defined p) ->
  ((exists d nd, In (i, d) (gedges (b_g b)) /\ In (d, j) (gedges (b_g b)) /\ nth_error (gnodes (b_g b)) d = Some nd /\ ndashed nd = true) <-> through p void i j).
Proof. intros W Fo E. destruct (build_counted _ _ _ _ W Fo E) as [tr [ks [void [T _]]]]. exact (pointers_exact demangle o p b tr W Fo E T). Qed.
