(** Other stack sizes for the same code: what becomes of the maxima. *)
From Coq Require Import Permutation.
From Verif Require Import M_base M_stack M_graph M_analysis M_filter M_names M_thumb M_ty M_parse M_render M_build M_run
  S_names S_sig L_base L_ir2 L_trav L_driver3 L_filter2 S_calls S_build S_run S_below S_graph S_mono S_fewer S_resize L_charge L_build1 L_build3 L_build4 L_build5 L_build6 L_build7 L_build9 L_run L_analysis L_maxprops L_mono L_report L_debug6 L_below L_resize.

(** ** Call graphs *)
Lemma total_raised (f h d : nat -> N) xs q : NoDup q -> (forall u, In u q -> (h u <= f u + d u)%N) -> (forall u, In u q -> ~ In u xs -> (h u <= f u)%N) -> (total h q <= total f q + total d xs)%N.
Proof.
  intros Nd Le Out. assert (H : (total h q <= total f q + total d (filter (fun u => if in_dec Nat.eq_dec u xs then true else false) q))%N).
  { clear Nd. induction q as [|u q IH]; [cbn; lia|]. cbn [total filter]. specialize (IH (fun x I => Le x (or_intror I)) (fun x I => Out x (or_intror I))).
    destruct (in_dec Nat.eq_dec u xs) as [I|N]; [pose proof (Le u (or_introl eq_refl)); cbn [total]; lia | pose proof (Out u (or_introl eq_refl) N); lia]. }
  eapply N.le_trans; [exact H|]. apply N.add_le_mono_l. apply L_charge.total_sub; [apply NoDup_filter; exact Nd|]. intros x I. apply filter_In in I. destruct I as [_ I]. destruct (in_dec Nat.eq_dec x xs) as [J|J]; [exact J | discriminate I].
Qed.
Theorem raised_max g1 g2 v g1' g2' c1 c2 m1 m2 xs d : wf_graph g1 -> same_calls g1 g2 -> below_2_64 g1 v -> below_2_64 g2 v ->
  (forall u, reach g1 v u -> (known_usage g2 u <= known_usage g1 u + d u)%N /\ (~ In u xs -> (known_usage g2 u <= known_usage g1 u)%N)) ->
  max_stack true g1 = Ret (g1', c1) -> max_stack true g2 = Ret (g2', c2) -> reported g1' v m1 -> reported g2' v m2 -> (num m2 <= num m1 + total d xs)%N.
Proof.
  intros Wf Sc B1 B2 Ra R1 R2 M1 M2.
  assert (Ca : forall a b, calls g1 a b <-> calls g2 a b) by (intros a b; unfold calls; rewrite (sc_edges _ _ Sc); reflexivity).
  assert (Re : forall a b, reach g1 a b <-> reach g2 a b) by (intros a b; unfold reach; split; apply star_mono; intros x y; apply Ca).
  assert (Wf2 : wf_graph g2) by (intros a b C; rewrite <- (sc_count _ _ Sc); apply Wf; apply Ca; exact C).
  destruct (max_stack_best _ _ _ _ _ Wf R1 M1) as [X1 _], (max_stack_best _ _ _ _ _ Wf2 R2 M2) as [X2 _].
  destruct (X1 B1) as [_ Up]. destruct (X2 B2) as [[P [q [C [S [O <-]]]]] _].
  assert (C1 : chain g1 v P) by (clear - C Ca Sc; induction C as [v L|v w P K C IH]; [constructor; rewrite (sc_count _ _ Sc); exact L | apply chain_call with w; [apply Ca; exact K | exact IH]]).
  assert (O1 : one_per_group g1 q) by (clear - O Re; induction O as [|v q N O IH]; constructor; [intros u I [A B]; apply (N u I); split; apply Re; assumption | exact IH]).
  eapply N.le_trans; [|apply N.add_le_mono_r; exact (Up P q C1 S O1)].
  assert (Rq : forall u, In u q -> reach g1 v u) by (intros u I; exact (L_charge.chain_reach g1 v P C1 u (sublist_In _ _ _ S I))).
  apply total_raised; [exact (opg_NoDup g1 q O1) | intros u I; apply Ra; exact (Rq u I) | intros u I N; apply Ra; [exact (Rq u I) | exact N]].
Qed.
Theorem same_exact g1 g2 v g1' g2' c1 c2 m1 m2 : wf_graph g1 -> same_calls g1 g2 -> (forall u, (exists n, known g1 u n) <-> (exists n, known g2 u n)) -> (forall u, recursive g1 u -> (known g1 u 0%N <-> known g2 u 0%N)) ->
  max_stack true g1 = Ret (g1', c1) -> max_stack true g2 = Ret (g2', c2) -> reported g1' v m1 -> reported g2' v m2 -> (exact m1 <-> exact m2).
Proof.
  intros Wf Sc Kn Ze R1 R2 M1 M2.
  assert (Ca : forall a b, calls g1 a b <-> calls g2 a b) by (intros a b; unfold calls; rewrite (sc_edges _ _ Sc); reflexivity).
  assert (Re : forall a b, reach g1 a b <-> reach g2 a b) by (intros a b; unfold reach; split; apply star_mono; intros x y; apply Ca).
  assert (Rc : forall a, recursive g1 a <-> recursive g2 a) by (intros a; unfold recursive; split; intros [w [C R]]; exists w; (split; [apply Ca; exact C | apply Re; exact R])).
  assert (Wf2 : wf_graph g2) by (intros a b C; rewrite <- (sc_count _ _ Sc); apply Wf; apply Ca; exact C).
  rewrite (exact_iff g1 g1' c1 v m1 Wf R1 M1), (exact_iff g2 g2' c2 v m2 Wf2 R2 M2). split; intros [A B]; split.
  - intros u R. apply Kn. apply A. apply Re. exact R.
  - intros u R Cu. apply Ze; [apply Rc; exact Cu|]. apply B; [apply Re; exact R | apply Rc; exact Cu].
  - intros u R. apply Kn. apply A. apply Re. exact R.
  - intros u R Cu. apply Ze; [exact Cu|]. apply B; [apply Re; exact R | apply Rc; exact Cu].
Qed.
Theorem divisible_max g v g' cs m k : wf_graph g -> below_2_64 g v -> (forall u n, reach g v u -> known g u n -> (k | n)%N) ->
  max_stack true g = Ret (g', cs) -> reported g' v m -> (k | num m)%N.
Proof.
  intros Wf B D R M. destruct (max_stack_best _ _ _ _ _ Wf R M) as [X _]. destruct (X B) as [[P [q [C [S [_ <-]]]]] _].
  assert (Rq : forall u, In u q -> reach g v u) by (intros u I; exact (L_charge.chain_reach g v P C u (sublist_In _ _ _ S I))).
  clear S. induction q as [|u q IH]; [exists 0%N; reflexivity|]. cbn [total]. apply N.divide_add_r; [|apply IH; intros x I; apply Rq; right; exact I].
  unfold known_usage. destruct (local_of g u) as [[n|]|] eqn:E; [|exists 0%N; reflexivity..]. exact (D u n (Rq u (or_introl eq_refl)) E).
Qed.

(** ** Reports *)
Section Programs.
Variables (demangle : str -> str) (o o' : orders) (p : prog) (l : list (str * N)) (b b' : built).
Notation q := (with_sizes p l).
Hypothesis (W : wf_prog p) (W' : wf_prog q) (Sk : same_known p l) (Fo : fair o) (Fo' : fair o') (Sz' : sizes_u64 q) (Ov : one_void p).
Hypothesis (E : build demangle o p = Ret b) (E' : build demangle o' q = Ret b').
Lemma built_raised i xs d g3 c3 g3' c3' m m' : i < length (pg_defined p) -> fits p -> fits q -> raised p l xs d ->
  max_stack true (b_g b) = Ret (g3, c3) -> max_stack true (b_g b') = Ret (g3', c3') -> reported g3 i m -> reported g3' i m' -> (num m' <= num m + total d xs)%N.
Proof.
  intros Hi Ft Ft' Ra X X' M M'. destruct (built_resized demangle o o' p l b b' W W' Sk Fo Fo' Sz' Ov E E' g3' c3' X') as [ks [void [g [G [G' [Eg [Ug [ga [ca [Ha Hr]]]]]]]]]].
  pose proof (graph_wf p ks void _ G) as Wf. pose proof (graph_wf _ ks void _ G') as Wg. pose proof (Forall2_len _ _ _ (go_show _ _ _ _ G)) as Lg. pose proof (Forall2_len _ _ _ (go_show _ _ _ _ G')) as Lg'.
  apply (raised_max (b_g b) g i g3 ga c3 ca m m' xs d); [exact Wf | constructor; [unfold node_count; congruence | symmetry; exact Eg] | apply sum_below; [exact Wf | exact (fits_sum p ks void _ G Ft)] | apply sum_below; [exact Wg | exact (fits_sum q ks void _ G' Ft')] | | exact X | exact Ha | exact M | exact (Hr i m' Hi M')].
  intros u _. destruct (nth_error ks u) as [k|] eqn:K.
  - destruct (show_at _ ks void _ G' _ _ K) as [nd [N1 N2]]. destruct (show_at p ks void _ G _ _ K) as [nd' [N1' N2']]. unfold known_usage, local_of. rewrite N1, N1'. cbn [option_map].
    inversion N2; subst; inversion N2'; subst; cbn [nlocal]; try (split; [lia | intros _; lia]).
    pose proof (real_idx p ks void _ G _ _ K). subst. match goal with A : usage p ?j ?x, B : usage q ?j ?y |- _ => destruct y as [c|]; [destruct (Ra j x c A B) as [R1 R2]; destruct x; cbn [at_least] in *; split; assumption | split; [destruct x; lia | intros _; destruct x; lia]] end.
  - apply nth_error_None in K. assert (N : nth_error (gnodes g) u = None) by (apply nth_error_None; lia). unfold known_usage at 1 3, local_of. rewrite N. cbn [option_map]. split; [lia | intros _; lia].
Qed.
Lemma built_kind i g3 c3 g3' c3' m m' : i < length (pg_defined p) -> same_kind p l ->
  max_stack true (b_g b) = Ret (g3, c3) -> max_stack true (b_g b') = Ret (g3', c3') -> reported g3 i m -> reported g3' i m' -> (exact m <-> exact m').
Proof.
  intros Hi Kd X X' M M'. destruct (built_resized demangle o o' p l b b' W W' Sk Fo Fo' Sz' Ov E E' g3' c3' X') as [ks [void [g [G [G' [Eg [Ug [ga [ca [Ha Hr]]]]]]]]]].
  pose proof (graph_wf p ks void _ G) as Wf. pose proof (graph_wf _ ks void _ G') as Wg. pose proof (Forall2_len _ _ _ (go_show _ _ _ _ G)) as Lg. pose proof (Forall2_len _ _ _ (go_show _ _ _ _ G')) as Lg'.
  assert (Al : forall u, match local_of (b_g b) u, local_of g u with
    | Some LUnknown, Some LUnknown | None, None => True | Some (LExact a), Some (LExact c) => a = 0%N <-> c = 0%N | _, _ => False end).
  { intros u. destruct (nth_error ks u) as [k|] eqn:K.
    - destruct (show_at _ ks void _ G' _ _ K) as [nd [N1 N2]]. destruct (show_at p ks void _ G _ _ K) as [nd' [N1' N2']]. unfold local_of. rewrite N1, N1'. cbn [option_map].
      inversion N2; subst; inversion N2'; subst; cbn [nlocal]; try exact Logic.I; [|reflexivity].
      match goal with A : usage p ?j ?x, B : usage q ?j ?y |- _ => destruct (Kd j) as [K1 K2]; destruct x as [a|], y as [c|] end.
      + split; intros ->; [match goal with A : usage p ?j _ |- _ => pose proof (proj2 K2 A) as Z end | match goal with B : usage q ?j _ |- _ => pose proof (proj1 K2 B) as Z end].
        * match goal with B : usage q ?j (LExact c) |- _ => pose proof (usage_fun q j _ _ W' B Z) as Y end. injection Y as ->. reflexivity.
        * match goal with B : usage p ?j (LExact a) |- _ => pose proof (usage_fun p j _ _ W B Z) as Y end. injection Y as ->. reflexivity.
      + match goal with A : usage p ?j (LExact a), B : usage q ?j LUnknown |- _ => pose proof (usage_fun p j _ _ W A (proj1 K1 B)) as Y end. discriminate Y.
      + match goal with A : usage p ?j LUnknown, B : usage q ?j (LExact c) |- _ => pose proof (usage_fun q j _ _ W' B (proj2 K1 A)) as Y end. discriminate Y.
      + exact Logic.I.
    - apply nth_error_None in K. unfold local_of. assert (N : nth_error (gnodes g) u = None) by (apply nth_error_None; lia). assert (N' : nth_error (gnodes (b_g b)) u = None) by (apply nth_error_None; lia). rewrite N, N'. exact Logic.I. }
  apply (same_exact (b_g b) g i g3 ga c3 ca m m'); [exact Wf | constructor; [unfold node_count; congruence | symmetry; exact Eg] | | | exact X | exact Ha | exact M | exact (Hr i m' Hi M')].
  - intros u. specialize (Al u). unfold known. destruct (local_of (b_g b) u) as [[a|]|], (local_of g u) as [[c|]|]; try contradiction; split; intros [n H]; try discriminate H; [exists c | exists a]; reflexivity.
  - intros u _. specialize (Al u). unfold known. destruct (local_of (b_g b) u) as [[a|]|], (local_of g u) as [[c|]|]; try contradiction; split; intros H; try discriminate H; injection H as H; f_equal; f_equal; apply Al; exact H.
Qed.
End Programs.
Theorem resized_starts demangle o o' start start' p l g cs g' cs' : wf_prog p -> wf_prog (with_sizes p l) -> same_known p l -> fair o -> fair o' -> sizes_u64 p -> sizes_u64 (with_sizes p l) -> one_void p ->
  report demangle o start p = Ret (g, cs) -> report demangle o' start' (with_sizes p l) = Ret (g', cs') ->
  exists ks void ks' void', pictures demangle p start ks void (gnodes g) (gedges g) /\ pictures demangle (with_sizes p l) start' ks' void' (gnodes g') (gedges g') /\
  forall i k k' m m', nth_error ks k = Some (KReal i) -> nth_error ks' k' = Some (KReal i) -> reported g k m -> reported g' k' m' ->
  (fits p -> fits (with_sizes p l) -> forall xs d, raised p l xs d -> (num m' <= num m + total d xs)%N) /\ (same_kind p l -> (exact m <-> exact m')).
Proof.
  intros W W' Sk Fo Fo' Sz Sz' Ov Rp Rp'. unfold report in Rp, Rp'. destruct (bind_inv _ _ _ Rp) as [b [E H]], (bind_inv _ _ _ Rp') as [b' [E' H']]. clear Rp Rp'.
  destruct (finish_any demangle o p b start g cs W Fo Sz E H) as [ks [void [ks0 [Pi [G X]]]]], (finish_any demangle o' _ b' start' g' cs' W' Fo' Sz' E' H') as [ks' [void' [ks0' [Pi' [G' X']]]]].
  exists ks, void, ks', void'. split; [exact Pi|]. split; [exact Pi'|]. intros i k k' m m' K K' M M'.
  destruct (X k i m K M) as [Hi [g3 [c3 [X1 X2]]]], (X' k' i m' K' M') as [_ [g3' [c3' [Y1 Y2]]]]. split.
  - intros Ft Ft' xs d Ra. eapply (built_raised demangle o o' p l b b' W W' Sk Fo Fo' Sz' Ov E E' i xs d); eassumption.
  - intros Kd. eapply (built_kind demangle o o' p l b b' W W' Sk Fo Fo' Sz' Ov E E' i); eassumption.
Qed.
(** Stack sizes that are multiples of [k]. *)
Theorem divisible_starts demangle o start p g cs c : wf_prog p -> fair o -> sizes_u64 p -> fits p -> (forall i n, usage p i (LExact n) -> (c | n)%N) ->
  report demangle o start p = Ret (g, cs) ->
  exists ks void, pictures demangle p start ks void (gnodes g) (gedges g) /\ forall i k m, nth_error ks k = Some (KReal i) -> reported g k m -> (c | num m)%N.
Proof.
  intros W Fo Sz Ft D Rp. unfold report in Rp. destruct (bind_inv _ _ _ Rp) as [b [E H]]. clear Rp.
  destruct (finish_any demangle o p b start g cs W Fo Sz E H) as [ks [void [ks0 [Pi [G X]]]]]. exists ks, void. split; [exact Pi|]. intros i k m K M.
  destruct (X k i m K M) as [Hi [g3 [c3 [X1 X2]]]]. pose proof (graph_wf p ks0 void _ G) as Wf. apply (divisible_max (b_g b) i g3 c3 m c Wf); [apply sum_below; [exact Wf | exact (fits_sum p ks0 void _ G Ft)] | | exact X1 | exact X2].
  intros u n _ Kn. pose proof (Forall2_len _ _ _ (go_show _ _ _ _ G)) as Lg. destruct (nth_error ks0 u) as [k0|] eqn:K0.
  - destruct (show_at p ks0 void _ G _ _ K0) as [nd [N1 N2]]. unfold known, local_of in Kn. rewrite N1 in Kn. cbn [option_map] in Kn. injection Kn as Kn. inversion N2; subst; cbn [nlocal] in Kn; try discriminate Kn; [subst; eapply D; eassumption | injection Kn as <-; exists 0%N; reflexivity].
  - apply nth_error_None in K0. unfold known, local_of in Kn. rewrite (proj2 (nth_error_None (gnodes (b_g b)) u)) in Kn by lia. discriminate Kn.
Qed.
