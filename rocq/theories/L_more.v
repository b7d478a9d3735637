(** Programs that do more do not have smaller exact maxima. *)
From Verif Require Import M_base M_stack M_graph M_analysis M_filter M_names M_thumb M_ty M_parse M_render M_build M_run
  S_names S_sig L_base L_ir2 L_driver3 L_filter2 S_graph S_mono S_build S_run S_below S_more L_build1 L_build3 L_build4 L_build5 L_build6 L_build7 L_run L_charge L_analysis L_maxprops L_mono L_report L_debug6 L_below.

(** ** Call graphs *)
Section Image.
Local Open Scope N_scope.
Variables (g1 g2 : graph node) (f : nat -> nat) (v : nat).
Hypothesis (Hwf1 : wf_graph g1) (Hwf2 : wf_graph g2) (Hv1 : (v < node_count g1)%nat) (Hv2 : (f v < node_count g2)%nat).
Hypothesis (Hc : forall a b, reach g1 v a -> calls g1 a b -> calls g2 (f a) (f b)).
Hypothesis (Hu : forall a c, reach g1 v a -> known g2 (f a) c -> exists k, known g1 a k /\ k <= c).
Lemma image_reach a b : reach g1 v a -> star (calls g1) a b -> reach g2 (f a) (f b).
Proof.
  intros Ra S. induction S as [a|a w b C S IH]; [constructor|]. apply star_step with (f w); [exact (Hc a w Ra C)|]. apply IH. apply (L_trav.star_trans _ _ a _ Ra). apply star_step with w; [exact C | constructor].
Qed.
Lemma image_chain a l : chain g1 a l -> reach g1 v a -> (f a < node_count g2)%nat -> chain g2 (f a) (map f l) /\ forall x, In x l -> reach g1 v x.
Proof.
  induction 1 as [a Ha|a w l C Hl IH]; intros Ra La; [split; [constructor; exact La | intros x [<-|[]]; exact Ra]|].
  assert (Rw : reach g1 v w) by (apply (L_trav.star_trans _ _ a _ Ra); apply star_step with w; [exact C | constructor]).
  destruct (IH Rw (proj2 (Hwf2 _ _ (Hc a w Ra C)))) as [I1 I2]. split; [cbn [map]; apply chain_call with (f w); [exact (Hc a w Ra C) | exact I1] | intros x [<-|I]; [exact Ra | exact (I2 x I)]].
Qed.
Lemma image_total l : (forall x, In x l -> known_usage g1 x <= known_usage g2 (f x)) -> total (known_usage g1) l <= total (known_usage g2) (map f l).
Proof. induction l as [|x l IH]; intros H; cbn [map total]; [lia|]. pose proof (H x (or_introl eq_refl)). pose proof (IH (fun y I => H y (or_intror I))). lia. Qed.
Theorem image_exact g1' g2' c1 c2 m1 m2 : below_2_64 g2 (f v) -> max_stack true g1 = Ret (g1', c1) -> max_stack true g2 = Ret (g2', c2) ->
  reported g1' v m1 -> reported g2' (f v) m2 -> exact m2 -> num m1 <= num m2 /\ exact m1.
Proof.
  intros Hs2 Hr1 Hr2 Hm1 Hm2 He. destruct m2 as [n|n]; [|destruct He].
  destruct (exact_tight g2 g2' c2 (f v) n (known_usage g2) Hwf2 Hs2 Hr2 Hm2) as [Hub _]; [intros x k Hk; apply known_usage_known; exact Hk|].
  apply (exact_iff g2 g2' c2 (f v) _ Hwf2 Hr2 Hm2) in He as [E1 E2].
  assert (K : forall a, reach g1 v a -> exists c k, known g2 (f a) c /\ known g1 a k /\ k <= c).
  { intros a Ra. destruct (E1 (f a) (image_reach v a (star_refl _ v) Ra)) as [c Kc]. destruct (Hu a c Ra Kc) as [k [Kk L]]. exists c, k. split; [exact Kc|]. split; [exact Kk | exact L]. }
  assert (Kle : forall a, reach g1 v a -> known_usage g1 a <= known_usage g2 (f a)).
  { intros a Ra. destruct (K a Ra) as [c [k [Kc [Kk L]]]]. rewrite (known_usage_known _ _ _ Kc), (known_usage_known _ _ _ Kk). exact L. }
  assert (Tb : forall p, chain g1 v p -> total (known_usage g1) p <= n).
  { intros p Hp. destruct (image_chain v p Hp (star_refl _ v) Hv2) as [Hp2 Rp]. eapply N.le_trans; [apply image_total; intros x I; exact (Kle x (Rp x I)) | apply Hub; exact Hp2]. }
  assert (Hn : n < two64) by (destruct (max_stack_best _ _ _ _ _ Hwf2 Hr2 Hm2) as [B1 _]; exact (below_charge g2 (f v) _ Hs2 (B1 Hs2))).
  assert (Hs1 : below_2_64 g1 v) by (intros p q Hp Hs Ho; eapply N.le_lt_trans; [apply sublist_total; exact Hs|]; eapply N.le_lt_trans; [exact (Tb p Hp) | exact Hn]).
  split.
  - destruct (max_stack_best _ _ _ _ _ Hwf1 Hr1 Hm1) as [A1 _]. destruct (A1 Hs1) as [[p [q [Hp [Hs [Ho <-]]]]] _]. cbn [num]. eapply N.le_trans; [apply sublist_total; exact Hs | exact (Tb p Hp)].
  - apply (exact_iff g1 g1' c1 v _ Hwf1 Hr1 Hm1). split; [intros a Ra; destruct (K a Ra) as [c [k [_ [Kk _]]]]; exists k; exact Kk|].
    intros a Ra [w [C Rw]]. destruct (K a Ra) as [c [k [Kc [Kk L]]]].
    assert (Z : known g2 (f a) 0).
    { apply E2; [exact (image_reach v a (star_refl _ v) Ra)|]. exists (f w). split; [exact (Hc a w Ra C)|]. apply image_reach; [|exact Rw]. apply (L_trav.star_trans _ _ a _ Ra). apply star_step with w; [exact C | constructor]. }
    unfold known in *. rewrite Z in Kc. injection Kc as <-. replace 0 with k by lia. exact Kk.
Qed.
End Image.

(** ** Programs *)
Section Keys.
Variables (p q : prog) (f : nat -> nat) (i : nat) (void : option str).
Notation F := (fun _ : str => False).
Notation R := (fun j => leads p void (KReal i) (KReal j)).
Hypothesis (Am : at_most p q f R).
Lemma more_candidates j s : R j -> calls_sig p j s -> calls_sig q (f j) s.
Proof. intros Rj [[k T] [s' [B M]]]. split; [exists (f k); exact (am_sig _ _ _ _ Am j s s' k Rj B M T) | exists s'; split; [exact (am_body _ _ _ _ Am j _ Rj B) | exact M]]. Qed.
Lemma more_pointees j s k : R j -> calls_sig p j s -> pointee p void s k -> pointee q void s (f k).
Proof.
  intros Rj [_ [s' [B M]]] [[v [Ev [Es [r T]]]]|[N T]].
  - subst s. left. exists v. split; [exact Ev|]. split; [reflexivity|]. exists r. exact (am_fmt _ _ _ _ Am j v s' r k Rj B M T).
  - right. split; [exact N | exact (am_sig _ _ _ _ Am j s s' k Rj B M T)].
Qed.
Lemma more_edge k l : leads p void (KReal i) k -> edge p F void k l -> edge q F void (moved f k) (moved f l).
Proof.
  intros Lk E. destruct E as [j n k B Ni Lv Mc|j n B Ni Lv Mc|j n k B C|j n B C|j n m k T B Lo C|j n m T B Lo C Kn|j k J|j Bl|j s Cs|s k Cd P|s Cd U]; cbn [moved].
  - apply ed_direct with n; [exact (am_body _ _ _ _ Am j _ Lk B) | exact Ni | exact (am_live _ _ _ _ Am j n k Lk B Lv)|].
    intros E. destruct (Mc E) as [C|[]]. left. subst n. exact (am_chosen _ _ _ _ Am j _ memcmp k Lk B lu_memcmp C).
  - apply ed_extern; [exact (am_body _ _ _ _ Am j _ Lk B) | exact Ni | exact (am_outside _ _ _ _ Am j n Lk B Lv) | exact Mc].
  - apply ed_cast with n; [exact (am_body _ _ _ _ Am j _ Lk B) | exact (am_chosen _ _ _ _ Am j _ n k Lk B (lu_cast n) C)].
  - apply ed_cast_extern; [exact (am_body _ _ _ _ Am j _ Lk B) | exact (am_unchosen _ _ _ _ Am j _ n Lk B (lu_cast n) C)].
  - apply ed_mem with n m; [rewrite (am_target _ _ _ _ Am); exact T | exact (am_body _ _ _ _ Am j _ Lk B) | exact Lo | exact (am_chosen _ _ _ _ Am j _ m k Lk B (lu_lowered n m Lo) C)].
  - destruct Kn.
  - apply ed_code. exact (am_jumps _ _ _ _ Am j k Lk J).
  - apply ed_blind. exact (am_blind _ _ _ _ Am j Lk Bl).
  - apply ed_pointer. apply more_candidates; assumption.
  - destruct (sig_called p i void s Lk) as [j [Rj Cs]]. apply ed_pointee; [exists (f j); exact (more_candidates j s Rj Cs) | exact (more_pointees j s k Rj Cs P)].
  - destruct (sig_called p i void s Lk) as [j [Rj Cs]]. apply ed_outside; [exists (f j); exact (more_candidates j s Rj Cs) | apply (am_untyped _ _ _ _ Am); exact U].
Qed.
Variables (ks ks' : list key) (g g' : graph node).
Hypothesis (W : wf_prog p) (G : graph_of p ks void g) (G' : graph_of q ks' void g') (St : settled p R).
Hypothesis (Hi : i < length (pg_defined p)) (Hf : f i < length (pg_defined q)).
Notation to := (there f ks ks').
Lemma more_node k : leads p void (KReal i) k -> In (moved f k) ks'.
Proof.
  intros L. remember (KReal i) as k0 eqn:E0. destruct L as [k|k m l L E]; subst.
  - cbn [moved]. apply nth_error_In with (f i). exact (go_real _ _ _ _ G' _ Hf).
  - pose proof (more_edge m l L E) as E'. destruct (go_must _ _ _ _ G' _ _ E') as [u [v [_ [V _]]]]. exact (nth_error_In _ _ V).
Qed.
Lemma more_step u v k : leads p void (KReal i) k -> nth_error ks u = Some k -> calls g u v -> exists l, nth_error ks v = Some l /\ edge p F void k l /\ leads p void (KReal i) l.
Proof.
  intros L Ku C. destruct (go_wf _ _ _ _ G u v C) as [_ Lv]. destruct (nth_error ks v) as [l|] eqn:Ev; [|apply nth_error_None in Ev; lia].
  pose proof (go_may _ _ _ _ G u v k l C Ku Ev) as E. apply (edge_settled p void R) in E; [|exact St | intros j ->; exact L].
  exists l. split; [reflexivity|]. split; [exact E|]. exact (le_step _ _ _ _ _ L E).
Qed.
Lemma more_reach a : reach g i a -> exists k, nth_error ks a = Some k /\ leads p void (KReal i) k.
Proof.
  intros Ra. assert (H : forall u w, star (calls g) u w -> forall k, nth_error ks u = Some k -> leads p void (KReal i) k -> exists l, nth_error ks w = Some l /\ leads p void (KReal i) l).
  { intros u w S. induction S as [v|u v w C S IH]; intros k K L; [exists k; split; assumption|]. destruct (more_step u v k L K C) as [l [V [_ Ll]]]. exact (IH l V Ll). }
  apply (H i a Ra (KReal i)); [exact (go_real _ _ _ _ G _ Hi) | constructor].
Qed.
Lemma more_at a k : nth_error ks a = Some k -> leads p void (KReal i) k -> nth_error ks' (to a) = Some (moved f k).
Proof. intros K L. unfold there. rewrite K. apply place_at. exact (more_node k L). Qed.
Lemma more_start : to i = f i.
Proof. pose proof (more_at i (KReal i) (go_real _ _ _ _ G _ Hi) (le_here _ _ _)) as T. cbn [moved] in T. exact (real_idx q ks' void g' G' _ _ T). Qed.
Lemma more_calls a b : reach g i a -> calls g a b -> calls g' (to a) (to b).
Proof.
  intros Ra C. destruct (more_reach a Ra) as [k [Ka La]]. destruct (more_step a b k La Ka C) as [l [Kb [E Lb]]].
  pose proof (more_edge k l La E) as E'. destruct (go_must _ _ _ _ G' _ _ E') as [u [v [U [V C']]]].
  rewrite (key_inj q ks' void g' G' _ _ _ (more_at a k Ka La) U), (key_inj q ks' void g' G' _ _ _ (more_at b l Kb Lb) V). exact C'.
Qed.
Lemma more_usage a c : reach g i a -> known g' (to a) c -> exists k, known g a k /\ (k <= c)%N.
Proof.
  intros Ra Kc. destruct (more_reach a Ra) as [k [Ka La]]. pose proof (more_at a k Ka La) as Ta. destruct (show_at p ks void g G _ _ Ka) as [nd [N1 N2]], (show_at q ks' void g' G' _ _ Ta) as [nd' [N1' N2']].
  unfold known, local_of in *. rewrite N1' in Kc. rewrite N1. cbn [option_map] in *. injection Kc as Kc. destruct k as [j|n|j|s|s]; cbn [moved] in N2'; inversion N2; inversion N2'; subst; cbn [nlocal] in *; try discriminate.
  - rewrite Kc in *. match goal with U : usage q (f j) _, U' : usage p j _ |- _ => destruct (am_usage _ _ _ _ Am j c La U) as [k [Uk L]]; exists k; split; [rewrite (usage_fun p j _ _ W U' Uk); reflexivity | exact L] end.
  - exists 0%N. split; [reflexivity | lia].
Qed.
End Keys.

Lemma more_built demangle o o' p q b b' ks ks' void void' f i g3 c3 g3' c3' m m' : wf_prog p -> wf_prog q -> fair o -> fair o' -> one_void p -> fits q ->
  build demangle o p = Ret b -> build demangle o' q = Ret b' -> graph_of p ks void (b_g b) -> graph_of q ks' void' (b_g b') ->
  settled p (reaches p i) -> at_most p q f (reaches p i) -> i < length (pg_defined p) -> f i < length (pg_defined q) ->
  max_stack true (b_g b) = Ret (g3, c3) -> max_stack true (b_g b') = Ret (g3', c3') -> reported g3 i m -> reported g3' (f i) m' -> exact m' ->
  (num m <= num m')%N /\ exact m.
Proof.
  intros W W' Fo Fo' Ov Ft E E' G G' St Am Hi Hf X1 Y1 X2 Y2 Ex.
  assert (Vo : void_of p void) by exact (go_void _ _ _ _ G).
  assert (Ev : void' = void) by (apply (same_void p q); [exact Ov | exact (am_void _ _ _ _ Am) | exact Vo | exact (go_void _ _ _ _ G')]).
  subst void'.
  assert (RR : forall j, leads p void (KReal i) (KReal j) -> reaches p i j) by (intros j L; exists void; split; assumption).
  assert (Am' : at_most p q f (fun j => leads p void (KReal i) (KReal j))) by (destruct Am; constructor; eauto).
  assert (S1 : settled p (fun j => leads p void (KReal i) (KReal j))) by (intros j n L; exact (St j n (RR j L))).
  assert (Th : there f ks ks' i = f i) by (eapply more_start; eassumption).
  pose proof (graph_wf p ks void _ G) as Wf. pose proof (graph_wf q ks' void _ G') as Wf'.
  assert (Ci : i < node_count (b_g b)) by (unfold node_count; exact (key_idx p ks void _ G _ _ (go_real _ _ _ _ G _ Hi))).
  assert (Cf : there f ks ks' i < node_count (b_g b')) by (rewrite Th; unfold node_count; exact (key_idx q ks' void _ G' _ _ (go_real _ _ _ _ G' _ Hf))).
  apply (image_exact (b_g b) (b_g b') (there f ks ks') i) with g3 g3' c3 c3'; try assumption.
  - intros a c Ra C. eapply more_calls; eassumption.
  - intros a c Ra C. eapply more_usage; eassumption.
  - apply sum_below; [exact Wf' | exact (fits_sum q ks' void _ G' Ft)].
  - rewrite Th. exact Y2.
Qed.
Theorem more_exact demangle o o' p q f i g cs g' cs' m m' : wf_prog p -> wf_prog q -> fair o -> fair o' -> one_void p -> fits q ->
  settled p (reaches p i) -> at_most p q f (reaches p i) -> i < length (pg_defined p) -> f i < length (pg_defined q) ->
  report demangle o None p = Ret (g, cs) -> report demangle o' None q = Ret (g', cs') -> reported g i m -> reported g' (f i) m' -> exact m' ->
  (num m <= num m')%N /\ exact m.
Proof.
  intros W W' Fo Fo' Ov Ft St Am Hi Hf Rp Rp' M M' Ex. unfold report in Rp, Rp'. destruct (bind_inv _ _ _ Rp) as [b [E H]], (bind_inv _ _ _ Rp') as [b' [E' H']]. clear Rp Rp'.
  destruct (build_spec _ _ _ _ W Fo E) as [ks [void [G _]]], (build_spec _ _ _ _ W' Fo' E') as [ks' [void' [G' _]]].
  destruct (finish_plain demangle o p b g cs i m W Fo E H M) as [g3 [c3 [X1 X2]]], (finish_plain demangle o' q b' g' cs' (f i) m' W' Fo' E' H' M') as [g3' [c3' [Y1 Y2]]].
  eapply (more_built demangle o o' p q b b' ks ks' void void' f i); eassumption.
Qed.
(** The same below any start points. *)
Theorem more_starts demangle o o' start start' p q g cs g' cs' : wf_prog p -> wf_prog q -> fair o -> fair o' -> sizes_u64 p -> sizes_u64 q -> one_void p -> fits q ->
  report demangle o start p = Ret (g, cs) -> report demangle o' start' q = Ret (g', cs') ->
  exists ks void ks' void', pictures demangle p start ks void (gnodes g) (gedges g) /\ pictures demangle q start' ks' void' (gnodes g') (gedges g') /\
  forall f i k k' m m', settled p (reaches p i) -> at_most p q f (reaches p i) ->
  nth_error ks k = Some (KReal i) -> nth_error ks' k' = Some (KReal (f i)) -> reported g k m -> reported g' k' m' -> exact m' -> (num m <= num m')%N /\ exact m.
Proof.
  intros W W' Fo Fo' Sz Sz' Ov Ft Rp Rp'. unfold report in Rp, Rp'. destruct (bind_inv _ _ _ Rp) as [b [E H]], (bind_inv _ _ _ Rp') as [b' [E' H']]. clear Rp Rp'.
  destruct (finish_any demangle o p b start g cs W Fo Sz E H) as [ks [void [ks0 [Pi [G X]]]]], (finish_any demangle o' q b' start' g' cs' W' Fo' Sz' E' H') as [ks' [void' [ks0' [Pi' [G' X']]]]].
  exists ks, void, ks', void'. split; [exact Pi|]. split; [exact Pi'|]. intros f i k k' m m' St Am K K' M M' Ex.
  destruct (X k i m K M) as [Hi [g3 [c3 [X1 X2]]]], (X' k' (f i) m' K' M') as [Hf [g3' [c3' [Y1 Y2]]]].
  eapply (more_built demangle o o' p q b b' ks0 ks0' void void' f i); eassumption.
Qed.

(** ** More statements, larger sizes *)
Section Extended.
Variables (p q : prog).
Hypothesis (X : extended p q).
(** The functions have the same names and types. *)
Let q0 : prog := mkProg (pg_target q) (pg_defines q) (pg_declares q) (pg_sizes q) (pg_defined q) (pg_undefined q) (pg_tags q) (pg_text p).
Lemma xt_rewritten : rewritten p q0 (fun _ => False).
Proof. constructor; try (intros; contradiction); try apply X. reflexivity. Qed.
Lemma extended_most R : at_most p q (fun j => j) R.
Proof.
  assert (Np : forall j addr size a, ~ analysed p j addr size a) by (intros j addr size a [T _]; pose proof (xt_other _ _ X); congruence).
  assert (Nq : forall j addr size a, ~ analysed q j addr size a) by (intros j addr size a [T _]; pose proof (xt_other _ _ X); rewrite (xt_target _ _ X) in T; congruence).
  pose proof (rw_live p q0 _ xt_rewritten) as Lv. pose proof (rw_chosen p q0 _ xt_rewritten) as Ch.
  constructor.
  - exact (xt_target _ _ X).
  - intros j c _ U. inversion U as [k T L|T L|addr size a k A|addr size a k m A|addr size a k A|addr size a k m A|addr size a k A|addr size a k A|addr size a A|addr size a A]; subst; try (destruct (Nq _ _ _ _ A)).
    destruct L as [n [C I]]. destruct (xt_sizes _ _ X n c I) as [k [Ik Lk]]. exists k. split; [|exact Lk]. apply us_llvm; [left; exact (xt_other _ _ X)|]. exists n. split; [apply Ch; exact C | exact Ik].
  - intros j st _ B. exact (xt_bodies _ _ X j st B).
  - intros j k _ [addr [size [a [A _]]]]. destruct (Np _ _ _ _ A).
  - intros j _ [[addr [size [a [A _]]]] _]. destruct (Np _ _ _ _ A).
  - intros j n k _ _ L. apply (proj2 (Lv n k) L).
  - intros j st n k _ _ _ C. apply (proj2 (Ch k n) C).
  - intros j n _ _ N y L. exact (N y (proj1 (Lv n y) L)).
  - intros j st n _ _ _ N y C. exact (N y (proj1 (Ch y n) C)).
  - intros j s s' k _ _ _ T. exact (proj2 (rw_typed p q0 _ xt_rewritten k s) T).
  - intros j v s' r k _ _ _ T. exact (proj2 (rw_typed_def p q0 _ xt_rewritten k (fmt_sig r)) T).
  - intros U. exact (proj2 (rw_untyped p q0 _ xt_rewritten) U).
  - intros v. exact (rw_void p q0 _ xt_rewritten v).
Qed.
End Extended.
Lemma extended_exact demangle o o' p q i g cs g' cs' m m' : wf_prog p -> wf_prog q -> fair o -> fair o' -> one_void p -> fits q ->
  settled p (reaches p i) -> extended p q -> i < length (pg_defined p) ->
  report demangle o None p = Ret (g, cs) -> report demangle o' None q = Ret (g', cs') -> reported g i m -> reported g' i m' -> exact m' -> (num m <= num m')%N /\ exact m.
Proof.
  intros W W' Fo Fo' Ov Ft St X Hi. apply (more_exact demangle o o' p q (fun j => j) i); try assumption; [exact (extended_most p q X _) | rewrite (xt_defined _ _ X); exact Hi].
Qed.
