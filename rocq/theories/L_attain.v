(** The maxima are reached by chains of calls in the program. *)
From Verif Require Import M_base M_stack M_graph M_names M_thumb M_ty M_parse M_build M_run M_render M_driver M_wrapper S_names S_graph S_render S_sig S_build S_run S_driver S_attain L_base L_ir2 L_build1 L_build2 L_build3 L_build5 L_charge L_run L_report L_report2.

Lemma sublist_total (f : nat -> N) a b : sublist a b -> (total f a <= total f b)%N.
Proof. intros H. induction H as [l|x a b H IH|x a b H IH]; cbn [total]; lia. Qed.
Lemma fnsig_dec (a b : fnsig) : a = b \/ a <> b.
Proof. destruct (sig_eqb a b) eqn:E; [left; apply sig_eqb_eq; exact E | right; intros X; apply sig_eqb_eq in X; congruence]. Qed.
Section Down.
Variables (demangle : str -> str) (p : prog) (start : option str) (ks : list key) (void : option str) (nds : list node) (es : list (nat * nat)).
Hypothesis (Pi : pictures demangle p start ks void nds es) (Nm : no_memmove p).
Let g : graph node := mkG nds es.

Lemma key_node v : v < node_count g -> exists k nd, nth_error ks v = Some k /\ nth_error nds v = Some nd /\ shows demangle p k nd.
Proof.
  intros L. unfold node_count, g in L. cbn [gnodes] in L. pose proof (proj2 (pi_keys _ _ _ _ _ _ _ Pi)) as Lk.
  destruct (nth_error nds v) as [nd|] eqn:En; [|apply nth_error_None in En; lia]. destruct (nth_error ks v) as [k|] eqn:Ek; [|apply nth_error_None in Ek; lia].
  exists k, nd. split; [reflexivity|]. split; [reflexivity|]. exact (pi_show _ _ _ _ _ _ _ Pi v k nd Ek En).
Qed.
Lemma edge_may i j : edge p (created p) void (KReal i) (KReal j) -> may_call p i j.
Proof.
  intros H. inversion H as [a f b B N L M| |a f b B C| |a f n b T B Lo C| |a b J| | | |]; subst.
  - exact (mc_direct p i j f B N L).
  - exact (mc_cast p i j f B (chosen_live p _ _ C)).
  - destruct Lo as [r n I|r n I|r n I].
    + refine (mc_mem p i j _ n T B _ (chosen_live p _ _ C)). apply im_memcpy. cbn [map In] in *. tauto.
    + refine (mc_mem p i j _ n T B _ (chosen_live p _ _ C)). apply im_memset. cbn [map In] in *. tauto.
    + elim (Nm T i r B).
  - exact (mc_code p i j J).
Qed.
Lemma sig_may i s j : calls_sig p i s -> pointee p void s j -> may_call p i j.
Proof.
  intros [_ [s' [B M]]] [[v [V [-> [r T]]]]|[_ T]].
  - pose proof (pi_void _ _ _ _ _ _ _ Pi) as Vo. rewrite V in Vo. exact (mc_hidden p i j s' v r B Vo M T).
  - exact (mc_pointer p i j s' s B T M).
Qed.
Definition all_known_in (P : list nat) : Prop := forall u, In u P -> exists n, known g u n.
Lemma chain_down v P : chain g v P -> forall k, nth_error ks v = Some k ->
  match k with
  | KReal i => exists l, stacked p i l /\ known_depth p l (total (known_usage g) P) /\ (all_known_in P -> depth p l (total (known_usage g) P))
  | KSig s => total (known_usage g) P = 0%N \/
      exists j l, pointee p void s j /\ stacked p j l /\ known_depth p l (total (known_usage g) P) /\ (all_known_in P -> depth p l (total (known_usage g) P))
  | _ => total (known_usage g) P = 0%N
  end.
Proof.
  intros C.
  assert (U : forall v k nd, nth_error ks v = Some k -> nth_error nds v = Some nd ->
    match k with KReal i => i < length (pg_defined p) /\ ((exists n, usage p i (LExact n) /\ known_usage g v = n) \/ usage p i LUnknown /\ known_usage g v = 0%N /\ forall n, ~ known g v n) | _ => known_usage g v = 0%N end).
  { clear v P C. intros v k nd Ek En. destruct (pi_show _ _ _ _ _ _ _ Pi v k nd Ek En) as [vo [nd0 [N0 [L0 _]]]].
    assert (Ku : local_of g v = Some (nlocal nd0)) by (unfold local_of, g; cbn [gnodes]; rewrite En; cbn; now rewrite L0).
    unfold known_usage, known. rewrite Ku. destruct N0 as [i n l Ch Us|n|i|s l Sl|s]; cbn [nlocal]; try reflexivity.
    split. { pose proof (pi_nodes _ _ _ _ _ _ _ Pi _ (nth_error_In _ _ Ek)) as I. inversion I; assumption. }
    destruct l as [n0|]; [left; exists n0; split; [exact Us | reflexivity] | right; split; [exact Us|]; split; [reflexivity | intros n1 X; discriminate X]]. }
  assert (One : forall i v, nth_error ks v = Some (KReal i) -> forall Q l, v < node_count g -> (all_known_in Q -> True) ->
     known_depth p l (total (known_usage g) Q) -> known_depth p (i :: l) (known_usage g v + total (known_usage g) Q)).
  { intros i u Ei Q l Lv _ K. destruct (key_node u Lv) as [k [nd [E1 [E2 _]]]]. rewrite Ei in E1. injection E1 as <-. destruct (U u _ nd Ei E2) as [_ [[n [Us ->]]|[Us [-> _]]]]; [exact (kd_known p i n l _ Us K)|].
    rewrite N.add_0_l. exact (kd_unknown p i l _ Us K). }
  assert (Two : forall i v, nth_error ks v = Some (KReal i) -> forall d l, v < node_count g -> (exists n, known g v n) -> depth p l d -> depth p (i :: l) (known_usage g v + d)).
  { intros i u Ei d l Lv [n0 Kn] K. destruct (key_node u Lv) as [k [nd [E1 [E2 _]]]]. rewrite Ei in E1. injection E1 as <-. destruct (U u _ nd Ei E2) as [_ [[n [Us ->]]|[_ [_ X]]]]; [exact (depth_cons p i n l d Us K) | elim (X n0 Kn)]. }
  induction C as [v L|v w P C H IH]; intros k Ek.
  - destruct (key_node v L) as [k' [nd [E1 [E2 _]]]]. rewrite Ek in E1. injection E1 as <-. pose proof (U v k nd Ek E2) as Uk. cbn [total]. destruct k as [i|n|i|s|s]; try (rewrite Uk; reflexivity); [|left; rewrite Uk; reflexivity].
    exists [i]. split; [exact (sk_one p i (proj1 Uk))|]. split; [exact (One i v Ek [] [] L (fun _ => Logic.I) (kd_nil p))|]. intros A. exact (Two i v Ek 0%N [] L (A v (or_introl eq_refl)) (depth_nil p)).
  - destruct (pi_wf _ _ _ _ _ _ _ Pi v w C) as [Lv Lw]. pose proof (proj2 (pi_keys _ _ _ _ _ _ _ Pi)) as Lk. assert (Lv' : v < node_count g) by (unfold node_count, g; cbn [gnodes]; lia). assert (Lw' : w < node_count g) by (unfold node_count, g; cbn [gnodes]; lia).
    destruct (key_node v Lv') as [k' [nd [E1 [E2 _]]]]. rewrite Ek in E1. injection E1 as <-. pose proof (U v k nd Ek E2) as Uk. destruct (key_node w Lw') as [k2 [nd2 [F1 [F2 _]]]]. pose proof (pi_may _ _ _ _ _ _ _ Pi v w k k2 C Ek F1) as Ed.
    specialize (IH k2 F1). cbn [total].
    assert (Al : all_known_in (v :: P) -> all_known_in P) by (intros A u Iu; exact (A u (or_intror Iu))).
    assert (End : forall i, k = KReal i -> total (known_usage g) P = 0%N ->
       exists l, stacked p i l /\ known_depth p l (known_usage g v + total (known_usage g) P) /\ (all_known_in (v :: P) -> depth p l (known_usage g v + total (known_usage g) P))).
    { intros i -> Z. exists [i]. split; [exact (sk_one p i (proj1 Uk))|]. rewrite Z. split; [exact (One i v Ek [] [] Lv' (fun _ => Logic.I) (kd_nil p))|]. intros A. exact (Two i v Ek 0%N [] Lv' (A v (or_introl eq_refl)) (depth_nil p)). }
    destruct k as [i|n|i|s|s]; try (exfalso; inversion Ed; fail).
    + destruct k2 as [j|n|i2|s|s]; try (exact (End i eq_refl IH)); try (exfalso; inversion Ed; fail).
      * destruct IH as [l [S1 [S2 S3]]]. exists (i :: l). split; [exact (sk_call p i j l (edge_may i j Ed) S1)|]. split; [exact (One i v Ek P l Lv' (fun _ => Logic.I) S2)|]. intros A. exact (Two i v Ek _ l Lv' (A v (or_introl eq_refl)) (S3 (Al A))).
      * destruct IH as [Z|[j [l [Po [S1 [S2 S3]]]]]]; [exact (End i eq_refl Z)|]. assert (Cs : calls_sig p i s) by (inversion Ed; assumption).
        exists (i :: l). split; [exact (sk_call p i j l (sig_may i s j Cs Po) S1)|]. split; [exact (One i v Ek P l Lv' (fun _ => Logic.I) S2)|]. intros A. exact (Two i v Ek _ l Lv' (A v (or_introl eq_refl)) (S3 (Al A))).
    + rewrite Uk, N.add_0_l. destruct k2 as [j|n|i2|s2|s2]; try (left; exact IH); try (exfalso; inversion Ed; fail).
      right. destruct IH as [l [S1 [S2 S3]]]. exists j, l. split; [inversion Ed; assumption|]. split; [exact S1|]. split; [exact S2|]. intros A. exact (S3 (Al A)).
Qed.
(** ** Executions are chains of the graph that is shown *)
Lemma must_at v k l : nth_error ks v = Some k -> edge p (fun _ => False) void k l -> exists w, nth_error ks w = Some l /\ calls g v w.
Proof.
  intros Ek Ed. destruct (pi_must _ _ _ _ _ _ _ Pi k l (nth_error_In _ _ Ek) Ed) as [u [w [Eu [Ew I]]]]. exists w. split; [exact Ew|].
  replace v with u; [exact I|]. apply (proj1 (NoDup_nth_error ks) (proj1 (pi_keys _ _ _ _ _ _ _ Pi))); [apply nth_error_Some; rewrite Eu; discriminate | congruence].
Qed.
Lemma known_at v k n : nth_error ks v = Some k -> known g v n -> match k with KReal i => usage p i (LExact n) | KSig _ => n = 0%N | _ => False end.
Proof.
  intros Ek K. unfold known, local_of, g in K. cbn [gnodes] in K. destruct (nth_error nds v) as [nd|] eqn:En; [|discriminate K]. cbn [option_map] in K. injection K as K.
  destruct (pi_show _ _ _ _ _ _ _ Pi v k nd Ek En) as [vo [nd0 [N0 [L0 _]]]]. rewrite L0 in K. destruct N0 as [i n0 l Ch Us|n0|i|s l Sl|s]; cbn [nlocal] in K; try discriminate K; [subst l; exact Us | injection K as <-; reflexivity].
Qed.
Lemma noticed_edges v i j : nth_error ks v = Some (KReal i) -> (forall u, reach g v u -> exists n, known g u n) -> noticed p i j ->
  exists w, nth_error ks w = Some (KReal j) /\ (calls g v w \/ exists x, calls g v x /\ calls g x w /\ known_usage g x = 0%N).
Proof.
  intros Ek A No.
  assert (Dr : edge p (fun _ => False) void (KReal i) (KReal j) -> exists w, nth_error ks w = Some (KReal j) /\ (calls g v w \/ exists x, calls g v x /\ calls g x w /\ known_usage g x = 0%N)).
  { intros Ed. destruct (must_at v _ _ Ek Ed) as [w [W1 W2]]. exists w. split; [exact W1 | left; exact W2]. }
  destruct No as [f B N L M|f B C|f n T B Lo C|s' s B M T|s U Cs|J|Bl].
  - apply Dr. apply (ed_direct p _ void i f j B N L). intros X. left. exact (M X).
  - apply Dr. exact (ed_cast p _ void i f j B C).
  - apply Dr. exact (ed_mem p _ void i f n j T B Lo C).
  - assert (Tp : typed p j s) by (destruct T as [T|[T _]]; [left; exact T | right; exact T]). assert (Cs : calls_sig p i s) by (split; [exists j; exact Tp | exists s'; split; [exact B | exact M]]).
    destruct (must_at v _ _ Ek (ed_pointer p _ void i s Cs)) as [x [X1 X2]].
    assert (Po : pointee p void s j).
    { destruct void as [vo|]; [|right; split; [intros v0 X; discriminate X | exact Tp]].
      destruct T as [T|[T Nf]]; [|right; split; [intros v0 _; apply Nf | exact Tp]].
      destruct (fnsig_dec s (fmt_sig (TAlias vo))) as [->|D]; [left; exists vo; split; [reflexivity|]; split; [reflexivity|]; exists (TAlias vo); exact T | right; split; [intros v0 X; injection X as <-; exact D | exact Tp]]. }
    destruct (must_at x _ _ X1 (ed_pointee p _ void s j (ex_intro _ i Cs) Po)) as [w [W1 W2]]. exists w. split; [exact W1|]. right. exists x. split; [exact X2|]. split; [exact W2|].
    destruct (A x (star_step _ _ _ _ X2 (star_refl _ _))) as [n Kn]. pose proof (known_at x _ n X1 Kn) as Z. cbn in Z. subst n. exact (known_usage_known g x _ Kn).
  - exfalso. destruct (must_at v _ _ Ek (ed_pointer p _ void i s Cs)) as [x [X1 X2]]. destruct (must_at x _ _ X1 (ed_outside p _ void s (ex_intro _ i Cs) (ex_intro _ j U))) as [y [Y1 Y2]].
    destruct (A y (star_step _ _ _ _ X2 (star_step _ _ _ _ Y2 (star_refl _ _)))) as [n Kn]. exact (known_at y _ n Y1 Kn).
  - apply Dr. exact (ed_code p _ void i j J).
  - exfalso. destruct (must_at v _ _ Ek (ed_blind p _ void i Bl)) as [x [X1 X2]]. destruct (A x (star_step _ _ _ _ X2 (star_refl _ _))) as [n Kn]. exact (known_at x _ n X1 Kn).
Qed.
Lemma chain_up i l : runs_noticed p i l -> forall v, nth_error ks v = Some (KReal i) -> (forall u, reach g v u -> exists n, known g u n) ->
  exists P d, chain g v P /\ depth p l d /\ d = total (known_usage g) P.
Proof.
  intros R. induction R as [i Hi|i j l No R IH]; intros v Ek A.
  - destruct (A v (star_refl _ _)) as [n Kn]. exists [v], (n + 0)%N. split; [|split].
    + constructor. unfold node_count, g. cbn [gnodes]. pose proof (proj2 (pi_keys _ _ _ _ _ _ _ Pi)) as Lk. assert (v < length ks) by (apply nth_error_Some; rewrite Ek; discriminate). lia.
    + constructor; [exact (known_at v _ n Ek Kn) | constructor].
    + cbn [total]. rewrite (known_usage_known g v n Kn). reflexivity.
  - destruct (noticed_edges v i j Ek A No) as [w [W1 W2]]. destruct (A v (star_refl _ _)) as [n Kn]. pose proof (known_at v _ n Ek Kn) as Us. cbn in Us.
    destruct W2 as [C|[x [C1 [C2 Z]]]].
    + destruct (IH w W1) as [P [d [H1 [H2 H3]]]]; [intros u Ru; apply A; exact (star_step _ _ _ _ C Ru)|]. exists (v :: P), (n + d)%N. split; [exact (chain_call _ _ _ _ C H1)|]. split; [constructor; assumption|].
      cbn [total]. rewrite (known_usage_known g v n Kn), H3. reflexivity.
    + destruct (IH w W1) as [P [d [H1 [H2 H3]]]]; [intros u Ru; apply A; exact (star_step _ _ _ _ C1 (star_step _ _ _ _ C2 Ru))|]. exists (v :: x :: P), (n + d)%N. split; [exact (chain_call _ _ _ _ C1 (chain_call _ _ _ _ C2 H1))|]. split; [constructor; assumption|].
      cbn [total]. rewrite (known_usage_known g v n Kn), H3, Z. reflexivity.
Qed.
Lemma runs_up k i n : figures nds es -> nth_error ks k = Some (KReal i) -> reported g k (MExact n) -> below_2_64 g k -> forall l, runs_noticed p i l -> exists d, depth p l d /\ (d <= n)%N.
Proof.
  intros Fg Ek R Bl l Rn. destruct (Fg k (MExact n) R) as [Ex Cg]. pose proof (proj2 (Cg Bl n) eq_refl) as Ch. destruct (proj1 Ex Logic.I) as [Kn Z].
  destruct (chain_up i l Rn k Ek Kn) as [P [d [H1 [H2 H3]]]]. exists d. split; [exact H2|]. rewrite H3. exact (certain_bound g k n Z Ch P H1).
Qed.
Hypothesis (Fg : figures nds es).
Lemma reached_maximum k i m : nth_error ks k = Some (KReal i) -> reported g k m -> below_2_64 g k ->
  exists l d, stacked p i l /\ known_depth p l d /\ (num m <= d)%N /\ (exact m -> depth p l (num m)).
Proof.
  intros Ek R Bl. destruct (Fg k m R) as [Ex Cg]. pose proof (proj2 (Cg Bl (num m)) eq_refl) as Ch. pose proof Ch as [[P [q [C [Sb [_ T]]]]] _].
  destruct (chain_down k P C _ Ek) as [l [S1 [S2 S3]]]. exists l, (total (known_usage g) P). split; [exact S1|]. split; [exact S2|].
  assert (Le : (num m <= total (known_usage g) P)%N).
  { rewrite <- T. exact (sublist_total _ _ _ Sb). }
  split; [exact Le|]. intros X. destruct (proj1 Ex X) as [Kn Z]. pose proof (certain_bound g k (num m) Z Ch P C) as Ub.
  replace (num m) with (total (known_usage g) P) by lia. apply S3. intros u Iu. apply Kn. exact (chain_reach g k P C u Iu).
Qed.
End Down.

Theorem maxima_reached demangle o start p g cs : wf_prog p -> fair o -> report demangle o start p = Ret (g, cs) -> no_memmove p ->
  exists ks void, pictures demangle p start ks void (gnodes g) (gedges g) /\
  forall k i m, nth_error ks k = Some (KReal i) -> reported g k m -> below_2_64 g k ->
  exists l d, stacked p i l /\ known_depth p l d /\ (num m <= d)%N /\ (exact m -> depth p l (num m)).
Proof.
  intros W Fo R Nm. unfold report in R. apply bind_Ret in R. destruct R as [b [B F]]. destruct (report_graph demangle o p b W Fo B start g cs F) as [ks [void Pi]].
  exists ks, void. split; [exact Pi|]. pose proof (proj1 (report_figures demangle o p b W Fo B start g cs F)) as Fg. destruct g as [nds es]. exact (reached_maximum demangle p start ks void nds es Pi Nm Fg).
Qed.

Lemma stacked_runs p i l : (forall v, ~ true_void p v) -> stacked p i l -> runs p i l.
Proof.
  intros Nv H. induction H as [i Hi|i j l C S IH]; [constructor; exact Hi|]. refine (runs_call p i j l _ IH).
  destruct C as [f B N L|f B L|f n T B M L|s' s B T M|s' v r B V M T|J]; [eapply iv_direct; eassumption | eapply iv_cast; eassumption | eapply iv_mem; [left | ..]; eassumption | eapply iv_pointer; [eassumption | apply typed_bears; eassumption | eassumption] | elim (Nv v V) | exact (iv_code p i j J)].
Qed.
Theorem exact_is_largest demangle o start p g cs : wf_prog p -> fair o -> report demangle o start p = Ret (g, cs) -> no_memmove p -> covered p -> (forall v, ~ true_void p v) ->
  exists ks void, pictures demangle p start ks void (gnodes g) (gedges g) /\
  forall k i n, nth_error ks k = Some (KReal i) -> reported g k (MExact n) -> below_2_64 g k ->
  (forall l, runs p i l -> exists d, depth p l d /\ (d <= n)%N) /\ exists l, runs p i l /\ depth p l n.
Proof.
  intros W Fo R Nm Cv Nv. unfold report in R. apply bind_Ret in R. destruct R as [b [B F]]. destruct (report_graph demangle o p b W Fo B start g cs F) as [ks [void Pi]].
  exists ks, void. split; [exact Pi|]. pose proof (proj1 (report_figures demangle o p b W Fo B start g cs F)) as Fg. destruct g as [nds es]. intros k i n Ek Rp Bl. split.
  - intros l Rn. exact (runs_up demangle p start ks void nds es Pi k i n Fg Ek Rp Bl l (runs_covered p i l Rn (fun x _ => Cv x))).
  - destruct (reached_maximum demangle p start ks void nds es Pi Nm Fg k i (MExact n) Ek Rp Bl) as [l [d [S1 [_ [_ S2]]]]]. exists l. split; [exact (stacked_runs p i l Nv S1) | exact (S2 Logic.I)].
Qed.
Theorem printed_reached demangle w t c : sane w -> main demangle w = (t, c) -> c = 0%Z -> a_format (w_args w) = Dot ->
  exists target file rlib ll p out, analyses w target file rlib ll p /\ one_artifact (w_args w) file /\ printed t = [out] /\
  ((forall g cycles nd, report demangle (w_orders w) (a_start (w_args w)) p = Ret (g, cycles) -> In nd (gnodes g) -> no_backslash (demangle (nname nd))) ->
   exists st ks nds es, read_dot out = Some st /\ length ks = length nds /\
     file_nodes st = map (fun x => (Some (N.of_nat (fst x)), Some (demangle (nname (snd x)), nmax (snd x), nlocal (snd x)), ndashed (snd x))) (combine (seq 0 (length nds)) nds) /\
     file_edges st = map (fun e => (Some (N.of_nat (fst e)), Some (N.of_nat (snd e)))) es /\
     (forall k key nd, nth_error ks k = Some key -> nth_error nds k = Some nd -> shows demangle p key nd) /\
     (no_memmove p -> forall k i nd m, nth_error ks k = Some (KReal i) -> nth_error nds k = Some nd -> nmax nd = Some m -> below_2_64 (mkG nds es) k ->
        exists l d, stacked p i l /\ known_depth p l d /\ (num m <= d)%N /\ (exact m -> depth p l (num m))) /\
     (no_memmove p -> covered p -> (forall v, ~ true_void p v) ->
        forall k i n nd, nth_error ks k = Some (KReal i) -> nth_error nds k = Some nd -> nmax nd = Some (MExact n) -> below_2_64 (mkG nds es) k ->
        (forall l, runs p i l -> exists d, depth p l d /\ (d <= n)%N) /\ exists l, runs p i l /\ depth p l n)).
Proof.
  intros S M N D. destruct (printed_graph demangle w t c S M N D) as [target [file [rlib [ll [p [out [A [Ar [P H]]]]]]]]]. exists target, file, rlib, ll, p, out. split; [exact A|]. split; [exact Ar|]. split; [exact P|].
  intros Nb. destruct (H Nb) as [st [nds [es [cs [R1 [R2 [R3 [_ [[ks [void Pi]] [Fg _]]]]]]]]]]. exists st, ks, nds, es. split; [exact R1|]. split; [exact (proj2 (pi_keys _ _ _ _ _ _ _ Pi))|]. split; [exact R2|]. split; [exact R3|].
  split; [exact (pi_show _ _ _ _ _ _ _ Pi)|]. split.
  - intros Nm k i nd m Ek En Mx Bl. exact (reached_maximum demangle p _ ks void nds es Pi Nm Fg k i m Ek (ex_intro _ nd (conj En Mx)) Bl).
  - intros Nm Cv Nv k i n nd Ek En Mx Bl. pose proof (ex_intro _ nd (conj En Mx) : reported (mkG nds es) k (MExact n)) as Rp. split.
    + intros l Rn. exact (runs_up demangle p _ ks void nds es Pi k i n Fg Ek Rp Bl l (runs_covered p i l Rn (fun x _ => Cv x))).
    + destruct (reached_maximum demangle p _ ks void nds es Pi Nm Fg k i (MExact n) Ek Rp Bl) as [l [d [S1 [_ [_ S2]]]]]. exists l. split; [exact (stacked_runs p i l Nv S1) | exact (S2 Logic.I)].
Qed.
