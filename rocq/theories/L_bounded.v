(** An exact maximum is reported exactly if the executions are bounded: lemmas for C99. *)
From Verif Require Import M_base M_stack M_graph M_names M_thumb M_ty M_parse M_build M_run M_render M_log M_wrapper M_driver S_names S_graph S_filter S_render S_sig S_build S_run S_log S_driver S_attain S_bounded.
From Verif Require Import L_base L_trav L_ir2 L_build1 L_build2 L_build3 L_build4 L_build5 L_build6 L_build7 L_build6  L_charge L_maxprops L_run L_report L_report2 L_driver5 L_render L_attain L_log3 L_log7 L_log8.

Lemma chain_sum g v P q : wf_graph g -> chain g v P -> sublist q P -> one_per_group g q -> (total (known_usage g) q <= sum_known g)%N.
Proof.
  intros Wg C S O. apply total_sub; [eapply opg_NoDup; exact O|]. intros x Hx. apply in_seq. pose proof (L_charge.chain_lt g Wg v P C x (sublist_In _ _ _ S Hx)). lia.
Qed.
(** ** Repeating a recursion *)
Lemma runs_inv p i x r : runs p i (x :: r) -> x = i /\ (r = [] /\ i < length (pg_defined p) \/ exists k, invokes p i k /\ runs p k r).
Proof. intros H. remember (x :: r) as l eqn:E. destruct H as [i Hi|i j l C R]; injection E as -> ->; (split; [reflexivity|]); [left; split; [reflexivity | exact Hi] | right; exists j; split; assumption]. Qed.
Lemma runs_app p i j l l2 : runs p i (l ++ [j]) -> runs p j l2 -> runs p i (l ++ l2).
Proof.
  revert i. induction l as [|x l IH]; intros i H H2; cbn [app] in *.
  - destruct (runs_inv _ _ _ _ H) as [-> _]. exact H2.
  - destruct (runs_inv _ _ _ _ H) as [-> [[X _]|[k [C R]]]]; [destruct l; discriminate X|]. exact (runs_call p i k _ C (IH k R H2)).
Qed.
Fixpoint laps (l : list nat) (j m : nat) : list nat := match m with 0 => [j] | S m' => l ++ laps l j m' end.
Lemma laps_runs p j l m : j < length (pg_defined p) -> runs p j (l ++ [j]) -> runs p j (laps l j m).
Proof. intros Lj H. induction m as [|m IH]; cbn [laps]; [constructor; exact Lj | exact (runs_app p j j l _ H IH)]. Qed.
Lemma depth_parts p a c d : depth p (a ++ c) d -> exists d1 d2, depth p a d1 /\ depth p c d2 /\ d = (d1 + d2)%N.
Proof.
  revert d. induction a as [|x a IH]; intros d H; cbn [app] in H; [exists 0%N, d; split; [constructor|]; split; [exact H | reflexivity]|].
  inversion H as [|? k ? d' U D]; subst. destruct (IH d' D) as [d1 [d2 [D1 [D2 ->]]]]. exists (k + d1)%N, d2. split; [constructor; assumption|]. split; [exact D2 | lia].
Qed.
Lemma laps_depth p j l n m d : wf_prog p -> usage p j (LExact n) -> depth p (laps (j :: l) j m) d -> (N.of_nat m * n <= d)%N.
Proof.
  intros W U. revert d. induction m as [|m IH]; intros d D; [lia|]. cbn [laps] in D. destruct (depth_parts p _ _ _ D) as [d1 [d2 [D1 [D2 ->]]]]. specialize (IH d2 D2).
  inversion D1 as [|? k ? d' U' D']; subst. pose proof (usage_fun p j _ _ W U U') as X. injection X as <-. lia.
Qed.
Lemma bounded_laps p i j l0 l n : wf_prog p -> bounded p i -> runs p i (l0 ++ [j]) -> runs p j (j :: l ++ [j]) -> usage p j (LExact n) -> n = 0%N.
Proof.
  intros W [B Hb] R0 R U. destruct (N.eq_dec n 0) as [Z|Z]; [exact Z|exfalso].
  assert (Lj : j < length (pg_defined p)) by (clear - R0; revert i R0; induction l0 as [|x l0 IH]; intros i H; cbn [app] in H; destruct (runs_inv _ _ _ _ H) as [-> [[X L]|[k [C R]]]]; [exact L | inversion R | destruct l0; discriminate X | exact (IH k R)]).
  pose proof (laps_runs p j (j :: l) (S (N.to_nat B)) Lj R) as Rl. pose proof (runs_app p i j l0 _ R0 Rl) as Rf. destruct (Hb _ Rf) as [d [D Le]]. destruct (depth_parts p _ _ _ D) as [d1 [d2 [_ [D2 ->]]]].
  pose proof (laps_depth p j l n _ d2 W U D2) as Q. assert (N.of_nat (S (N.to_nat B)) = B + 1)%N by lia. rewrite H in Q. nia.
Qed.

(** ** Paths in the graph are executions *)
Section Paths.
Variables (demangle : str -> str) (p : prog) (start : option str) (ks : list key) (void : option str) (nds : list node) (es : list (nat * nat)).
Hypothesis (Pi : pictures demangle p start ks void nds es) (Nm : no_memmove p).
Let g : graph node := mkG nds es.
Definition begins (k : key) (l : list nat) : Prop := match k with KReal i => stacked p i l | KSig s => exists j, pointee p void s j /\ stacked p j l | _ => False end.
Definition adds (k : key) : list nat := match k with KReal i => [i] | _ => [] end.
Lemma key_at v w : calls g v w -> exists k l, nth_error ks v = Some k /\ nth_error ks w = Some l /\ edge p (created p) void k l.
Proof.
  intros C. destruct (pi_wf _ _ _ _ _ _ _ Pi v w C) as [Lv Lw]. destruct (nth_error ks v) as [k|] eqn:Ek; [|apply nth_error_None in Ek; lia]. destruct (nth_error ks w) as [l|] eqn:El; [|apply nth_error_None in El; lia].
  exists k, l. split; [reflexivity|]. split; [reflexivity|]. exact (pi_may _ _ _ _ _ _ _ Pi v w k l C Ek El).
Qed.
Lemma step_back k k2 l : edge p (created p) void k k2 -> begins k2 l -> begins k (adds k ++ l).
Proof.
  intros Ed B. destruct k as [i|n|i|s|s]; try (exfalso; inversion Ed; fail).
  - cbn [begins adds app]. destruct k2 as [j|n|i2|s|s]; cbn [begins] in B; try (destruct B; fail).
    + exact (sk_call p i j l (edge_may p void Nm i j Ed) B).
    + destruct B as [j [Po S]]. assert (Cs : calls_sig p i s) by (inversion Ed; assumption). exact (sk_call p i j l (sig_may demangle p start ks void nds es Pi i s j Cs Po) S).
  - cbn [begins adds app]. destruct k2 as [j|n|i2|s2|s2]; cbn [begins] in B; try (destruct B; fail); [|exfalso; inversion Ed]. exists j. split; [inversion Ed; assumption | exact B].
Qed.
Lemma path_back v w j : reach g v w -> nth_error ks w = Some (KReal j) -> forall k, nth_error ks v = Some k -> exists l, begins k (l ++ [j]).
Proof.
  intros R. induction R as [v|v x w C R IH]; intros Ej k Ek.
  - rewrite Ej in Ek. injection Ek as <-. exists []. cbn [begins app]. constructor. pose proof (pi_nodes _ _ _ _ _ _ _ Pi _ (nth_error_In _ _ Ej)) as I. inversion I; assumption.
  - destruct (key_at v x C) as [k' [k2 [E1 [E2 Ed]]]]. rewrite Ek in E1. injection E1 as <-. destruct (IH Ej k2 E2) as [l B]. exists (adds k ++ l). rewrite <- app_assoc. exact (step_back k k2 _ Ed B).
Qed.
Lemma cycle_back v j : recursive g v -> nth_error ks v = Some (KReal j) -> exists l, stacked p j (j :: l ++ [j]).
Proof.
  intros [x [C R]] Ej. destruct (key_at v x C) as [k' [k2 [E1 [E2 Ed]]]]. rewrite Ej in E1. injection E1 as <-. destruct (path_back x v j R Ej k2 E2) as [l B]. exists l. exact (step_back (KReal j) k2 _ Ed B).
Qed.

Hypothesis (W : wf_prog p) (Fg : figures nds es) (Cv : covered p) (Nv : forall v, ~ true_void p v) (St : stable p).
Lemma seen_lt u v : reach g v u -> v < length ks -> u < length ks.
Proof. intros R. induction R as [v|a c d X R IH]; intros L; [exact L|]. apply IH. exact (proj2 (pi_wf _ _ _ _ _ _ _ Pi _ _ X)). Qed.
Lemma last_call v u : reach g v u -> v = u \/ exists w, reach g v w /\ calls g w u.
Proof.
  intros R. induction R as [v|v x u C R IH]; [left; reflexivity|]. right. destruct IH as [<-|[w [H1 H2]]]; [exists v; split; [constructor | exact C]|]. exists w. split; [exact (star_step _ _ _ _ C H1) | exact H2].
Qed.
Lemma seen_calls v u l : reach g v u -> nth_error ks u = Some l -> v <> u -> exists w k, reach g v w /\ nth_error ks w = Some k /\ edge p (created p) void k l.
Proof.
  intros R El Ne. destruct (last_call v u R) as [X|[w [R1 C]]]; [destruct (Ne X)|]. destruct (key_at w u C) as [k [l2 [E1 [E2 Ed]]]]. rewrite El in E2. injection E2 as <-. exists w, k. split; [exact R1|]. split; assumption.
Qed.
(** What a function whose figures are all known calls has a node. *)
Lemma seen_runs i l : runs_noticed p i l -> forall l0 j v, l = l0 ++ [j] -> nth_error ks v = Some (KReal i) -> (forall u, reach g v u -> exists n, known g u n) ->
  exists w, reach g v w /\ nth_error ks w = Some (KReal j).
Proof.
  intros R. induction R as [i Hi|i j l No R IH]; intros l0 j0 v E Ek A.
  - destruct l0 as [|x [|y l0]]; [|discriminate E..]. injection E as ->. exists v. split; [constructor | exact Ek].
  - destruct l0 as [|x l0]; cbn [app] in E; injection E as E1 E2; [subst l; inversion R|].
    destruct (noticed_edges demangle p start ks void nds es Pi v i j Ek A No) as [w [W1 [C|[y [C1 [C2 _]]]]]].
    + destruct (IH l0 j0 w E2 W1) as [w2 [R2 E3]]; [intros u Ru; apply A; exact (star_step _ _ _ _ C Ru)|]. exists w2. split; [exact (star_step _ _ _ _ C R2) | exact E3].
    + destruct (IH l0 j0 w E2 W1) as [w2 [R2 E3]]; [intros u Ru; apply A; exact (star_step _ _ _ _ C1 (star_step _ _ _ _ C2 Ru))|]. exists w2. split; [exact (star_step _ _ _ _ C1 (star_step _ _ _ _ C2 R2)) | exact E3].
Qed.
Lemma known_inside v j : nth_error ks v = Some (KReal j) -> (forall u, reach g v u -> exists n, known g u n) -> ~ escapes p j.
Proof.
  intros Ek A.
  assert (No : forall l, edge p (fun _ => False) void (KReal j) l -> match l with KReal _ | KSig _ => True | _ => False end).
  { intros l Ed. destruct (must_at demangle p start ks void nds es Pi v _ _ Ek Ed) as [w [W1 C]]. destruct (A w (star_step _ _ _ _ C (star_refl _ _))) as [n K]. pose proof (known_at demangle p start ks void nds es Pi w l n W1 K) as Q.
    destruct l; try exact Logic.I; destruct Q. }
  intros [f B Ni Nf L|f B L|Bl|s' B U].
  - apply (No (KSym f)). apply ed_extern; assumption.
  - apply (No (KSym f)). apply ed_cast_extern; assumption.
  - apply (No (KCode j)). apply ed_blind. exact Bl.
  - destruct (cv_pointer _ _ (Cv j) U s' B) as [s Cs]. destruct (must_at demangle p start ks void nds es Pi v _ _ Ek (ed_pointer p _ void j s Cs)) as [w [W1 C]].
    destruct (must_at demangle p start ks void nds es Pi w _ _ W1 (ed_outside p _ void s (ex_intro _ j Cs) U)) as [x [X1 C2]]. destruct (A x (star_step _ _ _ _ C (star_step _ _ _ _ C2 (star_refl _ _)))) as [n K].
    exact (known_at demangle p start ks void nds es Pi x _ n X1 K).
Qed.
Theorem exact_bounded k i m : nth_error ks k = Some (KReal i) -> reported g k m -> (exact m <-> bounded p i /\ inside p i).
Proof.
  intros Ek Rp. destruct (Fg k m Rp) as [Ex _]. fold g in Ex. pose proof (proj2 (pi_keys _ _ _ _ _ _ _ Pi)) as Lk. assert (Lv : k < length ks) by (apply nth_error_Some; rewrite Ek; discriminate). split.
  - intros X. destruct (proj1 Ex X) as [Kn Z]. split; [|intros l j Rl; destruct (seen_runs i _ (runs_covered p i _ Rl (fun x _ => Cv x)) l j k eq_refl Ek Kn) as [w [Rw Ew]]; apply (known_inside w j Ew); intros u Ru; apply Kn; exact (L_trav.star_trans _ _ _ _ Rw Ru)].
    exists (sum_known g). intros l Rl. destruct (chain_up demangle p start ks void nds es Pi i l (runs_covered p i l Rl (fun x _ => Cv x)) k Ek Kn) as [P [d [C [D ->]]]].
    exists (total (known_usage g) P). split; [exact D|]. rewrite <- total_nz. apply chain_sum with k P; [|exact C | apply sublist_filter|].
    + intros a b I. destruct (pi_wf _ _ _ _ _ _ _ Pi a b I). unfold node_count, g. cbn [gnodes]. lia.
    + apply (chain_nz_opg g k P C). intros x Hx Hr. specialize (Z x (L_charge.chain_reach g k P C x Hx) Hr). unfold known_usage. now rewrite Z.
  - intros [Bd In]. apply Ex.
    assert (Real : forall u j, reach g k u -> nth_error ks u = Some (KReal j) -> exists l, runs p i (l ++ [j])).
    { intros u j Ru Ej. destruct (path_back k u j Ru Ej _ Ek) as [l S]. exists l. exact (stacked_runs p i _ Nv S). }
    assert (Kn : forall u, reach g k u -> exists n, known g u n).
    { intros u Ru. pose proof (seen_lt u k Ru Lv) as Lu. destruct (nth_error ks u) as [ku|] eqn:Eu; [|apply nth_error_None in Eu; lia]. destruct (nth_error nds u) as [nd|] eqn:En; [|apply nth_error_None in En; lia].
      destruct (pi_show _ _ _ _ _ _ _ Pi _ _ _ Eu En) as [vv [nd0 [No [Lo _]]]]. pose proof (pi_nodes _ _ _ _ _ _ _ Pi ku (nth_error_In _ _ Eu)) as Nk.
      unfold known, local_of, g. cbn [gnodes]. rewrite En. cbn [option_map]. rewrite Lo. destruct No as [j n l C U|n|j|s l L|s]; cbn [nlocal].
      - destruct (Real u j Ru Eu) as [l0 R0]. destruct Bd as [B Hb]. destruct (Hb _ R0) as [d [D _]]. destruct (depth_parts p _ _ _ D) as [d1 [d2 [_ [D2 _]]]]. inversion D2 as [|? q ? d' Uq _]; subst. rewrite (usage_fun p j _ _ W U Uq). now exists q.
      - exfalso. destruct (seen_calls k u _ Ru Eu) as [w [kw [Rw [Ew Ed]]]]; [intros <-; congruence|]. inversion Nk as [|? Cr| | |]; subst. destruct (St n Cr) as [Nc Nl].
        inversion Ed as [|j f B Ni L M| |j f B L| |j f n0 T B Lw| | | | |]; subst; destruct (Real w j Rw Ew) as [l0 R0]; apply (In l0 j R0).
        + exact (es_name p j n B Ni Nc L).
        + exact (es_cast p j n B L).
        + destruct (Nl f Lw).
      - exfalso. destruct (seen_calls k u _ Ru Eu) as [w [kw [Rw [Ew Ed]]]]; [intros <-; congruence|]. inversion Nk as [| |? Bl| |]; subst. assert (X : kw = KReal j) by (inversion Ed; reflexivity). subst kw.
        destruct (Real w j Rw Ew) as [l0 R0]. exact (In l0 j R0 (es_blind p j Bl)).
      - now exists 0%N.
      - exfalso. destruct (seen_calls k u _ Ru Eu) as [w [kw [Rw [Ew Ed]]]]; [intros <-; congruence|]. inversion Nk as [| | | |? _ Ut]; subst. assert (X : kw = KSig s) by (inversion Ed; reflexivity). subst kw.
        destruct (seen_calls k w _ Rw Ew) as [x [kx [Rx [E1 E2]]]]; [intros <-; congruence|]. inversion E2 as [| | | | | | | |j s0 Cs| |]; subst. destruct Cs as [_ [s' [B _]]].
        destruct (Real x j Rx E1) as [l0 R0]. exact (In l0 j R0 (es_pointer p j s' B Ut)). }
    split; [exact Kn|]. intros u Ru Rr. destruct (Kn u Ru) as [n K]. pose proof (seen_lt u k Ru Lv) as Lu. destruct (nth_error ks u) as [ku|] eqn:Eu; [|apply nth_error_None in Eu; lia].
    pose proof (known_at demangle p start ks void nds es Pi u ku n Eu K) as Ka. destruct ku as [j|s|j|s|s]; try (destruct Ka; fail); [|subst n; exact K].
    destruct (Real u j Ru Eu) as [l0 R0]. destruct (cycle_back u j Rr Eu) as [l S]. pose proof (bounded_laps p i j l0 l n W Bd R0 (stacked_runs p j _ Nv S) Ka) as ->. exact K.
Qed.
End Paths.

Theorem exact_iff_inside demangle o start p g cs : wf_prog p -> fair o -> report demangle o start p = Ret (g, cs) -> no_memmove p -> covered p -> (forall v, ~ true_void p v) -> stable p ->
  exists ks void, pictures demangle p start ks void (gnodes g) (gedges g) /\
  forall k i m, nth_error ks k = Some (KReal i) -> reported g k m ->
  (exact m <-> bounded p i /\ inside p i) /\
  (exact m -> below_2_64 g k -> (forall l, runs p i l -> exists d, depth p l d /\ (d <= num m)%N) /\ exists l, runs p i l /\ depth p l (num m)).
Proof.
  intros W Fo R Nm Cv Nv St. unfold report in R. apply bind_Ret in R. destruct R as [b [B F]]. destruct (report_graph demangle o p b W Fo B start g cs F) as [ks [void Pi]].
  exists ks, void. split; [exact Pi|]. pose proof (proj1 (report_figures demangle o p b W Fo B start g cs F)) as Fg. destruct g as [nds es]. intros k i m Ek Rp. split.
  - exact (exact_bounded demangle p start ks void nds es Pi Nm W Fg Cv Nv St k i m Ek Rp).
  - intros X Bl. destruct m as [n|n]; [|destruct X]. split.
    + intros l Rn. exact (runs_up demangle p start ks void nds es Pi k i n Fg Ek Rp Bl l (runs_covered p i l Rn (fun x _ => Cv x))).
    + destruct (reached_maximum demangle p start ks void nds es Pi Nm Fg k i (MExact n) Ek Rp Bl) as [l [d [S1 [_ [_ S2]]]]]. exists l. split; [exact (stacked_runs p i l Nv S1) | exact (S2 Logic.I)].
Qed.
Lemma closed_stable p : closed p -> stable p.
Proof. intros C n H. destruct (cl_symbols p C n H). Qed.
Lemma closed_inside p i : closed p -> inside p i.
Proof.
  intros C l j _ [f B Ni Nf L|f B L|Bl|s' B U]; [|..|exact (cl_typed p C U)].
  - apply (cl_symbols p C f). left. exists j. repeat split; assumption.
  - apply (cl_symbols p C f). right. exists j. split; assumption.
  - exact (cl_blind p C j Bl).
Qed.
Theorem exact_iff_bounded demangle o start p g cs : wf_prog p -> fair o -> report demangle o start p = Ret (g, cs) -> no_memmove p -> covered p -> (forall v, ~ true_void p v) -> closed p ->
  exists ks void, pictures demangle p start ks void (gnodes g) (gedges g) /\
  forall k i m, nth_error ks k = Some (KReal i) -> reported g k m ->
  (exact m <-> bounded p i) /\
  (exact m -> below_2_64 g k -> (forall l, runs p i l -> exists d, depth p l d /\ (d <= num m)%N) /\ exists l, runs p i l /\ depth p l (num m)).
Proof.
  intros W Fo R Nm Cv Nv Cl. destruct (exact_iff_inside demangle o start p g cs W Fo R Nm Cv Nv (closed_stable p Cl)) as [ks [void [Pi H]]]. exists ks, void. split; [exact Pi|].
  intros k i m Ek Rp. destruct (H k i m Ek Rp) as [H1 H2]. split; [|exact H2]. rewrite H1. split; [intros [X _]; exact X | intros X; split; [exact X | exact (closed_inside p i Cl)]].
Qed.
(** A silent run in which every function called by name is known shows that the program is closed. *)
Lemma silent_closed demangle o start p r : wf_prog p -> fair o -> report_log demangle o start p = ([], Ret r) -> (forall i f, body p i (DirectCall f) -> ~ intrinsic f -> exists j, live p f j) -> closed p.
Proof.
  intros W Fo E D. destruct r as [g cs]. destruct (told demangle o start p [] g cs W Fo E) as [void [_ [_ Un]]]. pose proof (proj1 Un eq_refl) as Em. constructor.
  - exact (none_created demangle p W start void Em (notes_trace demangle p start [] (report_log_notes _ _ _ _ _ _ W Fo E)) D).
  - exact (un_blind _ _ _ _ Em).
  - exact (un_typed _ _ _ _ Em).
Qed.
Theorem printed_bounded demangle w t c : sane w -> main demangle w = (t, c) -> c = 0%Z -> a_format (w_args w) = Dot ->
  exists target file rlib ll p out, analyses w target file rlib ll p /\ one_artifact (w_args w) file /\ printed t = [out] /\
  ((forall g cycles nd, report demangle (w_orders w) (a_start (w_args w)) p = Ret (g, cycles) -> In nd (gnodes g) -> no_backslash (demangle (nname nd))) ->
   no_memmove p -> covered p -> (forall v, ~ true_void p v) -> stable p ->
   exists st ks nds, read_dot out = Some st /\ length ks = length nds /\
     file_nodes st = map (fun x => (Some (N.of_nat (fst x)), Some (demangle (nname (snd x)), nmax (snd x), nlocal (snd x)), ndashed (snd x))) (combine (seq 0 (length nds)) nds) /\
     (forall k key nd, nth_error ks k = Some key -> nth_error nds k = Some nd -> shows demangle p key nd) /\
     (forall k i nd m, nth_error ks k = Some (KReal i) -> nth_error nds k = Some nd -> nmax nd = Some m -> (exact m <-> bounded p i /\ inside p i))).
Proof.
  intros S M N D. destruct (printed_of demangle w t c S M N) as [file [config [cfg [text [rlib [ll [p [echo [out [Ar [_ [_ [_ [_ [_ [Wf [A [O P]]]]]]]]]]]]]]]]]].
  exists (target_of w config), file, rlib, ll, p, out. split; [exact A|]. split; [exact Ar|]. split; [exact P|]. intros Nb Nm Cv Nv St.
  unfold output in O. apply bind_Ret in O. destruct O as [[g cycles] [O1 O2]]. rewrite D in O2. injection O2 as <-. destruct (dot_read_back demangle g cycles (fun nd => Nb g cycles nd O1)) as [st [R1 [R2 _]]].
  destruct (exact_iff_inside demangle (w_orders w) _ p g cycles Wf (sane_orders w S) O1 Nm Cv Nv St) as [ks [void [Pi H]]]. exists st, ks, (gnodes g).
  split; [exact R1|]. split; [exact (proj2 (pi_keys _ _ _ _ _ _ _ Pi))|]. split; [exact R2|]. split; [exact (pi_show _ _ _ _ _ _ _ Pi)|].
  intros k i nd m Ek En Mx. exact (proj1 (H k i m Ek (ex_intro _ nd (conj En Mx)))).
Qed.
