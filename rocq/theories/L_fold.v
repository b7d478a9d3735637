(** Related functions of two programs: exact maxima. *)
From Verif Require Import M_base M_stack M_graph M_analysis M_filter M_names M_thumb M_ty M_parse M_render M_build M_run
  S_names S_sig L_base L_ir2 L_driver3 L_filter2 S_graph S_mono S_build S_run S_below S_fold L_build1 L_build3 L_build4 L_build5 L_build6 L_build7 L_run L_charge L_analysis L_maxprops L_mono L_report L_debug6 L_below.

(** ** Call graphs *)
Section Related.
Local Open Scope N_scope.
Variables (g1 g2 : graph node) (T : nat -> nat -> Prop) (v v' : nat).
Hypothesis (Hwf1 : wf_graph g1) (Hwf2 : wf_graph g2) (Hv2 : (v' < node_count g2)%nat) (Hv : T v v').
Hypothesis (Hc : forall a a' b, T a a' -> calls g1 a b -> exists b', T b b' /\ calls g2 a' b').
Hypothesis (Hu : forall a a' c, T a a' -> known g2 a' c -> exists k, known g1 a k /\ k <= c).
(** Related to something that [v'] reaches. *)
Let Q (a a' : nat) : Prop := T a a' /\ reach g2 v' a'.
Lemma rel_call a a' b : Q a a' -> calls g1 a b -> exists b', Q b b' /\ calls g2 a' b'.
Proof. intros [A R] C. destruct (Hc a a' b A C) as [b' [B C']]. exists b'. split; [|exact C']. split; [exact B|]. apply (L_trav.star_trans _ _ a' _ R). apply star_step with b'; [exact C' | constructor]. Qed.
Lemma rel_reach a b : star (calls g1) a b -> forall a', Q a a' -> exists b', Q b b' /\ reach g2 a' b'.
Proof.
  induction 1 as [a|a w b C S IH]; intros a' A; [exists a'; split; [exact A | constructor]|].
  destruct (rel_call a a' w A C) as [w' [B C']]. destruct (IH w' B) as [b' [B' R]]. exists b'. split; [exact B'|]. apply star_step with w'; assumption.
Qed.
Lemma rel_chain a l : chain g1 a l -> forall a', Q a a' -> (a' < node_count g2)%nat -> exists l', chain g2 a' l' /\ Forall2 Q l l'.
Proof.
  induction 1 as [a Ha|a w l C Hl IH]; intros a' A La; [exists [a']; split; [constructor; exact La | constructor; [exact A | constructor]]|].
  destruct (rel_call a a' w A C) as [w' [B C']]. destruct (IH w' B (proj2 (Hwf2 _ _ C'))) as [l' [I1 I2]]. exists (a' :: l'). split; [apply chain_call with w'; assumption | constructor; assumption].
Qed.
Lemma rel_total l l' : Forall2 Q l l' -> (forall x y, Q x y -> known_usage g1 x <= known_usage g2 y) -> total (known_usage g1) l <= total (known_usage g2) l'.
Proof. intros A H. induction A as [|x y l l' B A IH]; cbn [total]; [lia|]. pose proof (H x y B). lia. Qed.
(** A circle through [a] is followed by circles through functions related to [a]. *)
Lemma rel_circle a w : calls g1 a w -> star (calls g1) w a ->
  forall n seen x, (node_count g2 <= n + length seen)%nat -> NoDup seen -> Q a x -> (x < node_count g2)%nat ->
  (forall y, In y seen -> (y < node_count g2)%nat /\ exists z, calls g2 y z /\ reach g2 z x) ->
  exists y, Q a y /\ exists z, calls g2 y z /\ reach g2 z y.
Proof.
  intros C R. induction n as [|n IH]; intros seen x Ln Nd A Lx Se.
  - destruct (in_dec Nat.eq_dec x seen) as [I|N]; [exists x; split; [exact A | exact (proj2 (Se x I))]|]. exfalso.
    assert (L : (length (x :: seen) <= length (seq 0 (node_count g2)))%nat) by (apply NoDup_incl_length; [constructor; assumption | intros y [<-|I]; apply in_seq; [lia | pose proof (proj1 (Se y I)); lia]]).
    rewrite seq_length in L. cbn [length] in L. lia.
  - destruct (in_dec Nat.eq_dec x seen) as [I|N]; [exists x; split; [exact A | exact (proj2 (Se x I))]|].
    destruct (rel_call a x w A C) as [w' [B C']]. destruct (rel_reach w a R w' B) as [x' [A' R']].
    assert (Lx' : (x' < node_count g2)%nat).
    { clear - R' Hwf2 C'. pose proof (proj2 (Hwf2 _ _ C')) as L. clear C'. induction R' as [u|u t y D S IHS]; [exact L | exact (IHS (proj2 (Hwf2 _ _ D)))]. }
    apply (IH (x :: seen) x'); [cbn [length]; lia | constructor; assumption | exact A' | exact Lx'|].
    intros y [<-|I]; [split; [exact Lx|]; exists w'; split; assumption|]. destruct (Se y I) as [Ly [z [Cz Rz]]]. split; [exact Ly|]. exists z. split; [exact Cz|].
    apply (L_trav.star_trans _ _ x _ Rz). apply star_step with w'; assumption.
Qed.
Theorem rel_exact g1' g2' c1 c2 m1 m2 : below_2_64 g2 v' -> max_stack true g1 = Ret (g1', c1) -> max_stack true g2 = Ret (g2', c2) ->
  reported g1' v m1 -> reported g2' v' m2 -> exact m2 -> num m1 <= num m2 /\ exact m1.
Proof.
  intros Hs2 Hr1 Hr2 Hm1 Hm2 He. destruct m2 as [n|n]; [|destruct He].
  destruct (exact_tight g2 g2' c2 v' n (known_usage g2) Hwf2 Hs2 Hr2 Hm2) as [Hub _]; [intros x k Hk; apply known_usage_known; exact Hk|].
  apply (exact_iff g2 g2' c2 v' _ Hwf2 Hr2 Hm2) in He as [E1 E2].
  assert (Q0 : Q v v') by (split; [exact Hv | constructor]).
  assert (K : forall a a', Q a a' -> exists c k, known g2 a' c /\ known g1 a k /\ k <= c).
  { intros a a' [A R]. destruct (E1 a' R) as [c Kc]. destruct (Hu a a' c A Kc) as [k [Kk L]]. exists c, k. split; [exact Kc|]. split; [exact Kk | exact L]. }
  assert (Kle : forall a a', Q a a' -> known_usage g1 a <= known_usage g2 a').
  { intros a a' A. destruct (K a a' A) as [c [k [Kc [Kk L]]]]. rewrite (known_usage_known _ _ _ Kc), (known_usage_known _ _ _ Kk). exact L. }
  assert (Tb : forall p, chain g1 v p -> total (known_usage g1) p <= n).
  { intros p Hp. destruct (rel_chain v p Hp v' Q0 Hv2) as [p' [Hp2 Rp]]. eapply N.le_trans; [apply (rel_total p p' Rp Kle) | apply Hub; exact Hp2]. }
  assert (Hn : n < two64) by (destruct (max_stack_best _ _ _ _ _ Hwf2 Hr2 Hm2) as [B1 _]; exact (below_charge g2 v' _ Hs2 (B1 Hs2))).
  assert (Hs1 : below_2_64 g1 v) by (intros p q Hp Hs Ho; eapply N.le_lt_trans; [apply sublist_total; exact Hs|]; eapply N.le_lt_trans; [exact (Tb p Hp) | exact Hn]).
  split.
  - destruct (max_stack_best _ _ _ _ _ Hwf1 Hr1 Hm1) as [A1 _]. destruct (A1 Hs1) as [[p [q [Hp [Hs [Ho <-]]]]] _]. cbn [num]. eapply N.le_trans; [apply sublist_total; exact Hs | exact (Tb p Hp)].
  - apply (exact_iff g1 g1' c1 v _ Hwf1 Hr1 Hm1). split; [intros a Ra; destruct (rel_reach v a Ra v' Q0) as [a' [A _]]; destruct (K a a' A) as [c [k [_ [Kk _]]]]; exists k; exact Kk|].
    intros a Ra [w [C Rw]]. destruct (rel_reach v a Ra v' Q0) as [a' [A _]].
    assert (La : (a' < node_count g2)%nat) by (destruct (rel_call a a' w A C) as [w' [_ C']]; exact (proj1 (Hwf2 _ _ C'))).
    destruct (rel_circle a w C Rw (node_count g2) [] a') as [y [Ay Cy]]; [cbn [length]; lia | constructor | exact A | exact La | intros y []|].
    pose proof (E2 y (proj2 Ay) Cy) as Z. destruct (Hu a y 0 (proj1 Ay) Z) as [k [Kk L]]. replace 0 with k by lia. exact Kk.
Qed.
End Related.

(** ** Programs *)
Section Keys.
Variables (p q : prog) (F : nat -> nat -> Prop) (void : option str).
Notation N0 := (fun _ : str => False).
Hypothesis (Fo : followed p q F).
Inductive krel : key -> key -> Prop :=
| kr_real j j' : F j j' -> krel (KReal j) (KReal j')
| kr_sym n : krel (KSym n) (KSym n)
| kr_code j j' : krel (KCode j) (KCode j')
| kr_sig s j j' : F j j' -> calls_sig p j s -> krel (KSig s) (KSig s)
| kr_ext s : krel (KExt s) (KExt s).
Lemma rel_candidates j j' s : F j j' -> calls_sig p j s -> calls_sig q j' s.
Proof.
  intros A [[k T] [s' [B M]]]. destruct (fo_sig _ _ _ Fo j j' s s' k A B M T) as [k' [_ T']]. split; [exists k'; exact T' | exists s'; split; [exact (fo_body _ _ _ Fo j j' _ A B) | exact M]].
Qed.
Lemma rel_pointees j j' s k : F j j' -> calls_sig p j s -> pointee p void s k -> exists k', F k k' /\ pointee q void s k'.
Proof.
  intros A [_ [s' [B M]]] [[v [Ev [Es [r T]]]]|[N T]].
  - subst s. destruct (fo_fmt _ _ _ Fo j j' v s' r k A B M T) as [k' [r' [A' T']]]. exists k'. split; [exact A'|]. left. exists v. split; [exact Ev|]. split; [reflexivity|]. exists r'. exact T'.
  - destruct (fo_sig _ _ _ Fo j j' s s' k A B M T) as [k' [A' T']]. exists k'. split; [exact A'|]. right. split; [exact N | exact T'].
Qed.
Lemma rel_edge k k' l : krel k k' -> edge p N0 void k l -> exists l', krel l l' /\ edge q N0 void k' l'.
Proof.
  intros Kr E. destruct E as [j n k B Ni Lv Mc|j n B Ni Lv Mc|j n k B C|j n B C|j n m k T B Lo C|j n m T B Lo C Kn|j k J|j Bl|j s Cs|s k Cd P|s Cd U]; inversion Kr as [x j' A|x|x x'|x j0 j' A Cs0|x]; subst.
  - destruct (str_eqb n memcmp) eqn:En.
    + apply str_eqb_eq in En. subst n. destruct (Mc eq_refl) as [C|[]]. destruct (fo_chosen _ _ _ Fo j j' _ memcmp k A B lu_memcmp C) as [k' [A' C']].
      exists (KReal k'). split; [constructor; exact A'|]. apply ed_direct with memcmp; [exact (fo_body _ _ _ Fo j j' _ A B) | exact Ni | exact (chosen_live _ _ _ C') | intros _; left; exact C'].
    + destruct (fo_live _ _ _ Fo j j' n k A B Lv) as [k' [A' L']]. exists (KReal k'). split; [constructor; exact A'|].
      apply ed_direct with n; [exact (fo_body _ _ _ Fo j j' _ A B) | exact Ni | exact L' | intros ->; rewrite str_eqb_refl in En; discriminate En].
  - exists (KSym n). split; [constructor|]. apply ed_extern; [exact (fo_body _ _ _ Fo j j' _ A B) | exact Ni | exact (fo_outside _ _ _ Fo j j' n A B Lv) | exact Mc].
  - destruct (fo_chosen _ _ _ Fo j j' _ n k A B (lu_cast n) C) as [k' [A' C']]. exists (KReal k'). split; [constructor; exact A'|]. apply ed_cast with n; [exact (fo_body _ _ _ Fo j j' _ A B) | exact C'].
  - exists (KSym n). split; [constructor|]. apply ed_cast_extern; [exact (fo_body _ _ _ Fo j j' _ A B) | exact (fo_unchosen _ _ _ Fo j j' _ n A B (lu_cast n) C)].
  - destruct (fo_chosen _ _ _ Fo j j' _ m k A B (lu_lowered n m Lo) C) as [k' [A' C']]. exists (KReal k'). split; [constructor; exact A'|].
    apply ed_mem with n m; [rewrite (fo_target _ _ _ Fo); exact T | exact (fo_body _ _ _ Fo j j' _ A B) | exact Lo | exact C'].
  - destruct Kn.
  - destruct (fo_jumps _ _ _ Fo j j' k A J) as [k' [A' J']]. exists (KReal k'). split; [constructor; exact A'|]. apply ed_code. exact J'.
  - exists (KCode j'). split; [constructor|]. apply ed_blind. exact (fo_blind _ _ _ Fo j j' A Bl).
  - exists (KSig s). split; [exact (kr_sig s j j' A Cs)|]. apply ed_pointer. exact (rel_candidates j j' s A Cs).
  - destruct (rel_pointees j0 j' s k A Cs0 P) as [k' [A' P']]. exists (KReal k'). split; [constructor; exact A'|]. apply ed_pointee; [exists j'; exact (rel_candidates j0 j' s A Cs0) | exact P'].
  - exists (KExt s). split; [constructor|]. apply ed_outside; [exists j'; exact (rel_candidates j0 j' s A Cs0) | exact (fo_untyped _ _ _ Fo U)].
Qed.
Variables (ks ks' : list key) (g g' : graph node).
Hypothesis (W : wf_prog p) (G : graph_of p ks void g) (G' : graph_of q ks' void g') (St : settled p (on_left F)).
Definition nrel (a a' : nat) : Prop := exists k k', nth_error ks a = Some k /\ nth_error ks' a' = Some k' /\ krel k k'.
Lemma nrel_calls a a' b : nrel a a' -> calls g a b -> exists b', nrel b b' /\ calls g' a' b'.
Proof.
  intros [k [k' [Ka [Ka' Kr]]]] C. destruct (go_wf _ _ _ _ G a b C) as [_ Lb]. destruct (nth_error ks b) as [l|] eqn:Eb; [|apply nth_error_None in Eb; lia].
  pose proof (go_may _ _ _ _ G a b k l C Ka Eb) as E. apply (edge_settled p void (on_left F)) in E; [|exact St | intros j ->; inversion Kr as [x j' A| | | |]; subst; exists j'; exact A].
  destruct (rel_edge k k' l Kr E) as [l' [Kr' E']]. destruct (go_must _ _ _ _ G' _ _ E') as [u [v [U [V C']]]].
  rewrite (key_inj q ks' void g' G' _ _ _ U Ka') in C'. exists v. split; [exists l, l'; split; [exact Eb|]; split; assumption | exact C'].
Qed.
Lemma nrel_usage a a' c : nrel a a' -> known g' a' c -> exists k, known g a k /\ (k <= c)%N.
Proof.
  intros [k [k' [Ka [Ta Kr]]]] Kc. destruct (show_at p ks void g G _ _ Ka) as [nd [N1 N2]], (show_at q ks' void g' G' _ _ Ta) as [nd' [N1' N2']].
  unfold known, local_of in *. rewrite N1' in Kc. rewrite N1. cbn [option_map] in *. injection Kc as Kc. destruct Kr as [j j' A|n|j j'|s j j' A Cs|s]; inversion N2; inversion N2'; subst; cbn [nlocal] in *; try discriminate.
  - rewrite Kc in *. match goal with U : usage q j' _, U' : usage p j _ |- _ => destruct (fo_usage _ _ _ Fo j j' c A U) as [k [Uk L]]; exists k; split; [rewrite (usage_fun p j _ _ W U' Uk); reflexivity | exact L] end.
  - exists 0%N. split; [reflexivity | lia].
Qed.
End Keys.

Lemma followed_built demangle o o' p q b b' ks ks' void void' F i i' g3 c3 g3' c3' m m' : wf_prog p -> wf_prog q -> fair o -> fair o' -> one_void p -> fits q ->
  build demangle o p = Ret b -> build demangle o' q = Ret b' -> graph_of p ks void (b_g b) -> graph_of q ks' void' (b_g b') ->
  settled p (on_left F) -> followed p q F -> F i i' -> i < length (pg_defined p) -> i' < length (pg_defined q) ->
  max_stack true (b_g b) = Ret (g3, c3) -> max_stack true (b_g b') = Ret (g3', c3') -> reported g3 i m -> reported g3' i' m' -> exact m' ->
  (num m <= num m')%N /\ exact m.
Proof.
  intros W W' Fr Fr' Ov Ft E E' G G' St Fo A Hi Hf X1 Y1 X2 Y2 Ex.
  assert (Vo : void_of p void) by exact (go_void _ _ _ _ G).
  assert (Ev : void' = void) by (apply (same_void p q); [exact Ov | exact (fo_void _ _ _ Fo) | exact Vo | exact (go_void _ _ _ _ G')]).
  subst void'. pose proof (graph_wf p ks void _ G) as Wf. pose proof (graph_wf q ks' void _ G') as Wf'.
  apply (rel_exact (b_g b) (b_g b') (nrel p F ks ks') i i') with g3 g3' c3 c3'; try assumption.
  - unfold node_count. exact (key_idx q ks' void _ G' _ _ (go_real _ _ _ _ G' _ Hf)).
  - exists (KReal i), (KReal i'). split; [exact (go_real _ _ _ _ G _ Hi)|]. split; [exact (go_real _ _ _ _ G' _ Hf) | constructor; exact A].
  - intros a a' c R C. eapply nrel_calls; eassumption.
  - intros a a' c R C. eapply nrel_usage; eassumption.
  - apply sum_below; [exact Wf' | exact (fits_sum q ks' void _ G' Ft)].
Qed.
Theorem followed_exact demangle o o' p q F i i' g cs g' cs' m m' : wf_prog p -> wf_prog q -> fair o -> fair o' -> one_void p -> fits q ->
  settled p (on_left F) -> followed p q F -> F i i' -> i < length (pg_defined p) -> i' < length (pg_defined q) ->
  report demangle o None p = Ret (g, cs) -> report demangle o' None q = Ret (g', cs') -> reported g i m -> reported g' i' m' -> exact m' ->
  (num m <= num m')%N /\ exact m.
Proof.
  intros W W' Fr Fr' Ov Ft St Fo A Hi Hf Rp Rp' M M' Ex. unfold report in Rp, Rp'. destruct (bind_inv _ _ _ Rp) as [b [E H]], (bind_inv _ _ _ Rp') as [b' [E' H']]. clear Rp Rp'.
  destruct (build_spec _ _ _ _ W Fr E) as [ks [void [G _]]], (build_spec _ _ _ _ W' Fr' E') as [ks' [void' [G' _]]].
  destruct (finish_plain demangle o p b g cs i m W Fr E H M) as [g3 [c3 [X1 X2]]], (finish_plain demangle o' q b' g' cs' i' m' W' Fr' E' H' M') as [g3' [c3' [Y1 Y2]]].
  eapply (followed_built demangle o o' p q b b' ks ks' void void' F i i'); eassumption.
Qed.
(** The same below any start points. *)
Theorem followed_starts demangle o o' start start' p q g cs g' cs' : wf_prog p -> wf_prog q -> fair o -> fair o' -> sizes_u64 p -> sizes_u64 q -> one_void p -> fits q ->
  report demangle o start p = Ret (g, cs) -> report demangle o' start' q = Ret (g', cs') ->
  exists ks void ks' void', pictures demangle p start ks void (gnodes g) (gedges g) /\ pictures demangle q start' ks' void' (gnodes g') (gedges g') /\
  forall F i i' k k' m m', settled p (on_left F) -> followed p q F -> F i i' ->
  nth_error ks k = Some (KReal i) -> nth_error ks' k' = Some (KReal i') -> reported g k m -> reported g' k' m' -> exact m' -> (num m <= num m')%N /\ exact m.
Proof.
  intros W W' Fr Fr' Sz Sz' Ov Ft Rp Rp'. unfold report in Rp, Rp'. destruct (bind_inv _ _ _ Rp) as [b [E H]], (bind_inv _ _ _ Rp') as [b' [E' H']]. clear Rp Rp'.
  destruct (finish_any demangle o p b start g cs W Fr Sz E H) as [ks [void [ks0 [Pi [G X]]]]], (finish_any demangle o' q b' start' g' cs' W' Fr' Sz' E' H') as [ks' [void' [ks0' [Pi' [G' X']]]]].
  exists ks, void, ks', void'. split; [exact Pi|]. split; [exact Pi'|]. intros F i i' k k' m m' St Fo A K K' M M' Ex.
  destruct (X k i m K M) as [Hi [g3 [c3 [X1 X2]]]], (X' k' i' m' K' M') as [Hf [g3' [c3' [Y1 Y2]]]].
  eapply (followed_built demangle o o' p q b b' ks0 ks0' void void' F i i'); eassumption.
Qed.
