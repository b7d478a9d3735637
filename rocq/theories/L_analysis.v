(** Functional correctness of the max stack pass. *)
From Verif Require Import M_base M_stack M_graph M_analysis S_graph L_base L_trav L_kosaraju L_topo L_charge.
Local Open Scope N_scope.

Definition good_max (g : graph node) (v : nat) (m : maxv) : Prop :=
  (below_2_64 g v -> charge g v (num m)) /\ (exact m <-> ~ uncertain g v).

Definition best_max (g : graph node) (v : nat) (m : maxv) : Prop := good_max g v m /\ (usages_u64 g -> wrapped g v (num m)).

(** Graphs that differ only in the computed maxima. *)
Definition same (g g' : graph node) : Prop :=
  gedges g' = gedges g /\
  map (fun nd => set_max nd None) (gnodes g') = map (fun nd => set_max nd None) (gnodes g).

Lemma same_refl g : same g g.
Proof. split; reflexivity. Qed.

Lemma same_trans a b c : same a b -> same b c -> same a c.
Proof. intros [H1 H2] [H3 H4]. split; congruence. Qed.

Lemma same_count g g' : same g g' -> node_count g' = node_count g.
Proof.
  intros [_ H]. unfold node_count. apply (f_equal (@length _)) in H. rewrite !map_length in H. exact H.
Qed.

Lemma same_out g g' v : same g g' -> out_nbrs g' v = out_nbrs g v.
Proof. intros [H _]. unfold out_nbrs. rewrite H. reflexivity. Qed.

Lemma same_node g g' i : same g g' ->
  option_map (fun nd => set_max nd None) (nth_error (gnodes g') i) =
  option_map (fun nd => set_max nd None) (nth_error (gnodes g) i).
Proof.
  intros [_ H]. apply (f_equal (fun l => nth_error l i)) in H. rewrite !nth_error_map in H. exact H.
Qed.

Lemma same_local_of g g' i : same g g' -> local_of g' i = local_of g i.
Proof.
  intros H. apply (same_node g g' i) in H. unfold local_of.
  destruct (nth_error (gnodes g') i) as [[]|], (nth_error (gnodes g) i) as [[]|]; simpl in *; try congruence.
  inversion H; reflexivity.
Qed.

Lemma local_of_lt (g : graph node) i : (i < node_count g)%nat -> exists l, local_of g i = Some l.
Proof.
  intros H. unfold local_of. destruct (nth_error (gnodes g) i) eqn:E; [eexists; reflexivity|].
  apply nth_error_None in E. unfold node_count in H. lia.
Qed.

Lemma get_local_of g i l : local_of g i = Some l -> get_local g i = Ret l.
Proof. unfold local_of, get_local. destruct (nth_error (gnodes g) i); simpl; congruence. Qed.

Lemma upd_nth_length {A} (l : list A) i f : length (upd_nth l i f) = length l.
Proof. revert i; induction l as [|x l IH]; intros [|i]; simpl; auto. Qed.

Lemma nth_upd_same {A} (l : list A) i f : nth_error (upd_nth l i f) i = option_map f (nth_error l i).
Proof. revert i; induction l as [|x l IH]; intros [|i]; simpl; auto. Qed.

Lemma nth_upd_other {A} (l : list A) i j f : i <> j -> nth_error (upd_nth l i f) j = nth_error l j.
Proof.
  revert i j; induction l as [|x l IH]; intros [|i] [|j] H; simpl; auto; try congruence.
Qed.

Lemma map_upd {A B} (h : A -> B) (l : list A) i f : (forall x, h (f x) = h x) -> map h (upd_nth l i f) = map h l.
Proof.
  intros H; revert i; induction l as [|x l IH]; intros [|i]; simpl; auto; [rewrite H | rewrite IH]; auto.
Qed.

Lemma set_node_max_same g i m : same g (set_node_max g i m).
Proof. split; [reflexivity|]. simpl. apply map_upd. intros [a b c d]; reflexivity. Qed.

Lemma set_node_max_reported g i m : (i < node_count g)%nat -> reported (set_node_max g i m) i m.
Proof.
  intros H. destruct (nth_error (gnodes g) i) eqn:E.
  - exists (set_max n (Some m)). simpl. rewrite nth_upd_same, E. split; reflexivity.
  - apply nth_error_None in E. unfold node_count in H. lia.
Qed.

Lemma set_node_max_other g i j m m' : i <> j -> reported g j m' -> reported (set_node_max g i m) j m'.
Proof.
  intros Hne [nd [H1 H2]]. exists nd. simpl. rewrite nth_upd_other by exact Hne. split; auto.
Qed.

Lemma reported_fun g v m m' : reported g v m -> reported g v m' -> m = m'.
Proof. intros [a [H1 H2]] [b [H3 H4]]. congruence. Qed.

Lemma reported_get g v m : reported g v m -> get_max g v = Ret m.
Proof. intros [a [H1 H2]]. unfold get_max. rewrite H1, H2. reflexivity. Qed.

(** ** Maxima *)
Lemma max2_num a b : num (max2 a b) = N.max (num a) (num b).
Proof. destruct a, b; reflexivity. Qed.
Lemma max2_exact a b : exact (max2 a b) <-> exact a /\ exact b.
Proof. destruct a, b; simpl; tauto. Qed.

Lemma max_of_spec ls m : max_of ls = Some m ->
  (exists x, In x ls /\ num x = num m) /\ (forall x, In x ls -> num x <= num m) /\
  (exact m <-> forall x, In x ls -> exact x).
Proof.
  destruct ls as [|a ls]; simpl; [discriminate|]. intros H; inversion H; clear H H1.
  revert a; induction ls as [|b ls IH]; intros a; simpl.
  - split; [exists a; auto|]. split.
    + intros x [<-|[]]; lia.
    + split; [intros H x [<-|[]]; exact H | intros H; apply H; left; reflexivity].
  - destruct (IH (max2 a b)) as [[x [Hx Hn]] [H2 H3]].
    split; [|split].
    + destruct Hx as [<-|Hx].
      * rewrite max2_num in Hn. destruct (N.max_spec (num a) (num b)) as [[_ Hm]|[_ Hm]].
        -- exists b. split; [right; left; reflexivity | congruence].
        -- exists a. split; [left; reflexivity | congruence].
      * exists x. split; [right; right; exact Hx | exact Hn].
    + intros y [<-|[<-|Hy]].
      * specialize (H2 _ (or_introl eq_refl)). rewrite max2_num in H2. lia.
      * specialize (H2 _ (or_introl eq_refl)). rewrite max2_num in H2. lia.
      * apply H2; right; exact Hy.
    + rewrite H3. split.
      * intros H y [<-|[<-|Hy]].
        -- apply (max2_exact a b), H; left; reflexivity.
        -- apply (max2_exact a b), H; left; reflexivity.
        -- apply H; right; exact Hy.
      * intros H y [<-|Hy]; [apply max2_exact; split; apply H; auto | apply H; auto].
Qed.

Lemma max_of_None ls : max_of ls = None <-> ls = [].
Proof. destruct ls; simpl; split; congruence. Qed.

Lemma u64_add_small a b : a + b < two64 -> u64_add a b = a + b.
Proof. intros H. unfold u64_add. apply N.mod_small. exact H. Qed.

Lemma add_max_num a b : num a + num b < two64 -> num (add_max a b) = num a + num b.
Proof. destruct a, b; simpl; apply u64_add_small. Qed.
Lemma add_max_mod a b : num (add_max a b) = (num a + num b) mod two64.
Proof. destruct a, b; reflexivity. Qed.
Lemma add_max_exact a b : exact (add_max a b) <-> exact a /\ exact b.
Proof. destruct a, b; simpl; tauto. Qed.
Lemma add_local_num a l : num a + num (local_into_max l) < two64 ->
  num (add_local a l) = num a + num (local_into_max l).
Proof. destruct a, l; simpl; intros H; try (apply u64_add_small; exact H); lia. Qed.
Lemma add_local_mod a l : num a < two64 -> num (add_local a l) = (num a + num (local_into_max l)) mod two64.
Proof. destruct a, l; cbn [add_local num local_into_max]; intros H; try reflexivity; rewrite N.add_0_r; symmetry; now apply N.mod_small. Qed.
Lemma add_local_exact a l : exact (add_local a l) <-> exact a /\ exact (local_into_max l).
Proof. destruct a, l; simpl; tauto. Qed.

Lemma below_reach g v w : reach g v w -> below_2_64 g v -> below_2_64 g w.
Proof.
  intros R B p q Hp Hs Ho. destruct (chain_extend g v w p R Hp) as [pre [Hpre _]]. apply (B (pre ++ p) q); [exact Hpre | apply sublist_app_l; exact Hs | exact Ho].
Qed.
Lemma sum_below g v : wf_graph g -> sum_known g < two64 -> below_2_64 g v.
Proof.
  intros Hwf Hsum p q Hp Hs Ho. eapply N.le_lt_trans; [|exact Hsum]. apply total_sub; [eapply opg_NoDup; exact Ho|].
  intros x Hx. apply in_seq. pose proof (chain_lt g Hwf v p Hp x (sublist_In _ _ _ Hs Hx)). lia.
Qed.
Lemma below_charge g v n : below_2_64 g v -> charge g v n -> n < two64.
Proof. intros B [[p [q [Hp [Hs [Ho <-]]]]] _]. exact (B p q Hp Hs Ho). Qed.
Lemma charge_below g v n : charge g v n -> n < two64 -> below_2_64 g v.
Proof. intros [_ U] L p q Hp Hs Ho. eapply N.le_lt_trans; [exact (U p q Hp Hs Ho) | exact L]. Qed.

Lemma usage_small g v : usages_u64 g -> known_usage g v < two64.
Proof. intros U. unfold known_usage. destruct (local_of g v) as [[n|]|] eqn:E; [exact (U v n E) | reflexivity..]. Qed.
Lemma wrapped_small g v n : usages_u64 g -> wrapped g v n -> n < two64.
Proof.
  intros U H. destruct H as [v top [[u [_ <-]] _] _|v top h sum _ _ _ _]; [now apply usage_small | apply N.mod_lt; vm_compute; discriminate].
Qed.
Lemma top_unique g v a b : group_top g v a -> group_top g v b -> a = b.
Proof. intros [[u [U1 <-]] L1] [[w [W1 <-]] L2]. specialize (L1 w W1). specialize (L2 u U1). lia. Qed.
Lemma wrapped_unique g v n : wrapped g v n -> forall k, wrapped g v k -> n = k.
Proof.
  induction 1 as [v top T N|v top h sum T H1 H2 IH H3]; intros k K; inversion K as [v' top' T' N'|v' top' h' sum' T' H1' H2' H3']; subst v'; subst.
  - exact (top_unique _ _ _ _ T T').
  - exfalso. exact (N _ H1').
  - exfalso. exact (N' _ H1).
  - rewrite (top_unique _ _ _ _ T T'). replace (sum h) with (sum' h'); [reflexivity|].
    pose proof (IH h' H1' _ (H2' h' H1')). pose proof (IH h H1 _ (H2' h H1)). specialize (H3 h' H1'). specialize (H3' h H1). lia.
Qed.

Lemma map_outcome_spec {A B} (f : A -> outcome B) (P : A -> B -> Prop) l :
  (forall x, In x l -> exists y, f x = Ret y /\ P x y) ->
  exists ys, map_outcome f l = Ret ys /\ Forall2 P l ys.
Proof.
  induction l as [|x l IH]; intros H; simpl.
  - exists []; split; constructor.
  - destruct (H x (or_introl eq_refl)) as [y [Hy HP]]. rewrite Hy. simpl.
    destruct IH as [ys [Hys HF]]; [intros z Hz; apply H; right; exact Hz|].
    rewrite Hys. simpl. exists (y :: ys); split; [reflexivity | constructor; auto].
Qed.

Lemma Forall2_In_l {A B} (P : A -> B -> Prop) l l' x :
  Forall2 P l l' -> In x l -> exists y, In y l' /\ P x y.
Proof.
  induction 1; intros Hx; [destruct Hx|]. destruct Hx as [<-|Hx].
  - exists y; split; [left; reflexivity | auto].
  - destruct (IHForall2 Hx) as [z [Hz HP]]. exists z; split; [right; exact Hz | exact HP].
Qed.
Lemma Forall2_In_r {A B} (P : A -> B -> Prop) l l' y :
  Forall2 P l l' -> In y l' -> exists x, In x l /\ P x y.
Proof.
  induction 1; intros Hx; [destruct Hx|]. destruct Hx as [<-|Hx].
  - exists x; split; [left; reflexivity | auto].
  - destruct (IHForall2 Hx) as [z [Hz HP]]. exists z; split; [right; exact Hz | exact HP].
Qed.

Section Pass.
Variable g : graph node.
Hypothesis Hwf : wf_graph g.

Definition is_group (C : list nat) : Prop :=
  C <> [] /\ (forall x, In x C -> (x < node_count g)%nat) /\
  (forall x y, In x C -> (In y C <-> mutual g x y)).

(** [m] is the right maximum of a group, given the right maxima of the functions it calls. *)
Lemma group_good C v Lm nbs ms :
  is_group C -> In v C ->
  (exists x, In x C /\ known_usage g x = num Lm) ->
  (forall x, In x C -> known_usage g x <= num Lm) ->
  (exact Lm <-> (forall x, In x C -> ~ unknown g x) /\
                (forall x n, In x C -> recursive g x -> known g x n -> n = 0)) ->
  (forall w, In w nbs <-> leaves g C w) ->
  Forall2 (good_max g) nbs ms ->
  match max_of ms with
  | None => good_max g v Lm
  | Some mx =>
      forall m, (num mx + num Lm < two64 -> num m = num mx + num Lm) -> (exact m <-> exact mx /\ exact Lm) -> good_max g v m
  end.
Proof.
  intros [_ [Hlt HC]] Hv HL1 HL2 HLe Hnbs HF.
  assert (Huc : forall m, (exact m <-> exact Lm /\ forall x, In x ms -> exact x) ->
                (exact m <-> ~ uncertain g v)).
  { intros m Hm. rewrite Hm, HLe. rewrite (group_uncertain g C v Hv HC). split.
    - intros [[H1 H2] H3] [[x [Hx Hu]]|[[x [n [Hx [Hr [Hk Hn]]]]]|[w [Hw Hu]]]].
      + apply (H1 x); auto.
      + apply Hn. eapply H2; eauto.
      + apply Hnbs in Hw. destruct (Forall2_In_l _ _ _ w HF Hw) as [k [Hk [_ Hk2]]].
        apply Hk2; auto.
    - intros H. split; [split|].
      + intros x Hx Hu. apply H. left; eauto.
      + intros x n Hx Hr Hk. destruct (N.eq_dec n 0) as [->|Hn]; [reflexivity|].
        exfalso. apply H. right; left. exists x, n; auto.
      + intros k Hk. destruct (Forall2_In_r _ _ _ k HF Hk) as [w [Hw [_ Hk2]]].
        apply Hk2. intros Hu. apply H. right; right. exists w; split; [apply Hnbs; exact Hw | exact Hu]. }
  destruct (max_of ms) as [mx|] eqn:Hmax.
  - apply max_of_spec in Hmax as [[k [Hk Hkn]] [Hle Hex]].
    destruct (Forall2_In_r _ _ _ k HF Hk) as [w [Hw [Hcw _]]].
    assert (Hlv : below_2_64 g v -> forall w', leaves g C w' -> below_2_64 g w').
    { intros Hb w' Hw'. apply (below_reach g v); [|exact Hb]. destruct Hw' as [x [Hx [Hcx _]]]. eapply star_trans; [|apply star_one; exact Hcx].
      apply (HC v x Hv). exact Hx. }
    assert (Hch : below_2_64 g v -> charge g v (num Lm + num mx)).
    { intros Hb. specialize (Hlv Hb). apply (group_charge g C v Hv Hlt HC (num Lm)); auto. right. split.
      - exists w, (num mx). split; [apply Hnbs; exact Hw|].
        split; [rewrite <- Hkn; apply Hcw, Hlv, Hnbs; exact Hw|]. split; [reflexivity|].
        intros w' m' Hw' Hc'. pose proof (Hlv w' Hw') as Hb'. apply Hnbs in Hw'. destruct (Forall2_In_l _ _ _ w' HF Hw') as [k' [Hk' [Hc'' _]]].
        specialize (Hc'' Hb'). rewrite (charge_unique _ _ _ _ Hc' Hc''). apply Hle; exact Hk'.
      - intros w' Hw'. pose proof (Hlv w' Hw') as Hb'. apply Hnbs in Hw'. destruct (Forall2_In_l _ _ _ w' HF Hw') as [k' [Hk' [Hc'' _]]].
        exists (num k'). apply Hc''; exact Hb'. }
    intros m Hm Hme. split; [|apply Huc; rewrite Hme, Hex; tauto].
    intros Hb. specialize (Hch Hb). rewrite Hm, N.add_comm; [exact Hch|].
    pose proof (below_charge g v _ Hb Hch). lia.
  - apply max_of_None in Hmax. subst ms. inversion HF; subst.
    split.
    + intros _. apply (group_charge g C v Hv Hlt HC (num Lm)); auto. left. split; [|reflexivity].
      intros w Hw. apply Hnbs in Hw. destruct Hw.
    + apply Huc. split; [intros H; split; [exact H | intros x []] | tauto].
Qed.

Lemma group_wrapped C v Lm nbs ms :
  is_group C -> In v C ->
  (exists x, In x C /\ known_usage g x = num Lm) ->
  (forall x, In x C -> known_usage g x <= num Lm) ->
  (forall w, In w nbs <-> leaves g C w) ->
  Forall2 (fun w m => wrapped g w (num m)) nbs ms -> usages_u64 g ->
  match max_of ms with
  | None => wrapped g v (num Lm)
  | Some mx => forall m, (num mx < two64 -> num m = (num mx + num Lm) mod two64) -> wrapped g v (num m)
  end.
Proof.
  intros [_ [Hlt HC]] Hv [x [Hx1 Hx2]] HL2 Hnbs HF U.
  assert (T : group_top g v (num Lm)).
  { split; [exists x; split; [apply (HC v x Hv); exact Hx1 | exact Hx2]|]. intros u Hu. apply HL2. apply (HC v u Hv). exact Hu. }
  assert (Lv : forall w, leaves_group g v w <-> leaves g C w).
  { intros w. split.
    - intros [N [y [My Cy]]]. exists y. split; [apply (HC v y Hv); exact My|]. split; [exact Cy|]. intros I. apply N. apply (HC v w Hv). exact I.
    - intros [y [Iy [Cy N]]]. split; [intros M; apply N; apply (HC v w Hv); exact M|]. exists y. split; [apply (HC v y Hv); exact Iy | exact Cy]. }
  destruct (max_of ms) as [mx|] eqn:Hmax.
  - intros m Hm. apply max_of_spec in Hmax as [[k [Hk Hkn]] [Hle _]].
    destruct (Forall2_In_r _ _ _ k HF Hk) as [h [Hh Wh]].
    set (sum := fun w => match find (fun p => Nat.eqb (fst p) w) (combine nbs ms) with Some p => num (snd p) | None => 0 end).
    assert (Sum : forall w, leaves_group g v w -> wrapped g w (sum w)).
    { intros w Lw. apply Lv, Hnbs in Lw. unfold sum. clear - HF Lw. induction HF as [|a b l l' Hab HF IH]; [destruct Lw|]. cbn [combine find fst snd].
      destruct (Nat.eqb_spec a w) as [->|D]; [exact Hab|]. destruct Lw as [E|Lw]; [contradiction | exact (IH Lw)]. }
    assert (Eh : sum h = num mx) by (rewrite <- Hkn; apply (wrapped_unique g h); [apply Sum, Lv, Hnbs; exact Hh | exact Wh]).
    rewrite Hm; [|rewrite <- Hkn; exact (wrapped_small g h _ U Wh)]. rewrite N.add_comm, <- Eh. apply (wrapped_call g v (num Lm) h sum T); [apply Lv, Hnbs; exact Hh | exact Sum|].
    intros w Lw. rewrite Eh. pose proof (Sum w Lw) as Sw. apply Lv, Hnbs in Lw. destruct (Forall2_In_l _ _ _ w HF Lw) as [k' [Hk' Wk']].
    rewrite (wrapped_unique g w _ Sw _ Wk'). apply Hle. exact Hk'.
  - apply max_of_None in Hmax. subst ms. inversion HF; subst. apply wrapped_last; [exact T|]. intros h Lh. apply Lv, Hnbs in Lh. destruct Lh.
Qed.
Lemma Forall2_weak {A B} (P Q : A -> B -> Prop) l l' : (forall a b, P a b -> Q a b) -> Forall2 P l l' -> Forall2 Q l l'.
Proof. intros H F. induction F; constructor; auto. Qed.
Lemma group_best C v Lm nbs ms :
  is_group C -> In v C ->
  (exists x, In x C /\ known_usage g x = num Lm) ->
  (forall x, In x C -> known_usage g x <= num Lm) ->
  (exact Lm <-> (forall x, In x C -> ~ unknown g x) /\
                (forall x n, In x C -> recursive g x -> known g x n -> n = 0)) ->
  (forall w, In w nbs <-> leaves g C w) ->
  Forall2 (best_max g) nbs ms ->
  match max_of ms with
  | None => best_max g v Lm
  | Some mx =>
      forall m, (num mx + num Lm < two64 -> num m = num mx + num Lm) -> (num mx < two64 -> num m = (num mx + num Lm) mod two64) ->
                (exact m <-> exact mx /\ exact Lm) -> best_max g v m
  end.
Proof.
  intros HG Hv H1 H2 H3 Hn HF.
  pose proof (group_good C v Lm nbs ms HG Hv H1 H2 H3 Hn (Forall2_weak _ _ _ _ (fun a b H => proj1 H) HF)) as G.
  assert (Wr : usages_u64 g -> match max_of ms with None => wrapped g v (num Lm) | Some mx => forall m, (num mx < two64 -> num m = (num mx + num Lm) mod two64) -> wrapped g v (num m) end).
  { intros U. apply (group_wrapped C v Lm nbs ms HG Hv H1 H2 Hn); [|exact U]. apply (Forall2_weak (best_max g)); [intros a b H; exact (proj2 H U) | exact HF]. }
  destruct (max_of ms) as [mx|].
  - intros m E1 E2 E3. split; [exact (G m E1 E3) | intros U; exact (Wr U m E2)].
  - split; assumption.
Qed.

(** Invariant of both loops: what is done is right. *)
Definition Inv (gk : graph node) (done : list nat) : Prop :=
  same g gk /\ forall v, In v done -> exists m, reported gk v m /\ best_max g v m.

Lemma group_recursive C first : is_group C -> NoDup C -> hd_error C = Some first ->
  if is_a_cycle g C first then forall x, In x C -> recursive g x
  else C = [first] /\ ~ recursive g first.
Proof.
  intros [Hne [Hlt HC]] Hnd Hhd. destruct C as [|c C]; [discriminate|]. inversion Hhd; subst. clear Hhd.
  unfold is_a_cycle. destruct C as [|c2 C].
  - simpl. destruct (mem_spec first (out_nbrs g first)) as [Hm|Hm]; simpl.
    + intros x [<-|[]]. exists first. split; [apply out_nbrs_In; exact Hm | constructor].
    + split; [reflexivity|]. intros [w [Hc Hr]]. apply Hm.
      assert (Hin : In w [first]).
      { apply (HC first w (or_introl eq_refl)). split; [apply star_one; exact Hc | exact Hr]. }
      destruct Hin as [<-|[]]. apply out_nbrs_In; exact Hc.
  - simpl orb. change (Nat.ltb 1 (length (first :: c2 :: C))) with true. simpl orb. cbv iota.
    assert (Hother : forall x, In x (first :: c2 :: C) -> exists y, In y (first :: c2 :: C) /\ y <> x).
    { intros x Hx. inversion Hnd; subst.
      destruct (Nat.eq_dec first x) as [->|Hx1].
      - exists c2. split; [right; left; reflexivity|]. intros ->. apply H1; left; reflexivity.
      - exists first. split; [left; reflexivity | exact Hx1]. }
    intros x Hx. destruct (Hother x Hx) as [y [Hy Hyx]].
    apply (HC x y Hx) in Hy as [Hr1 Hr2]. inversion Hr1; subst; [congruence|].
    exists v. split; [exact H | eapply star_trans; eauto].
Qed.

Lemma unknown_or_known v : (v < node_count g)%nat -> unknown g v \/ exists n, known g v n.
Proof.
  intros H. destruct (local_of_lt g v H) as [[n|] Hl]; [right; exists n; exact Hl | left; exact Hl].
Qed.

Lemma num_local v l : local_of g v = Some l -> num (local_into_max l) = known_usage g v.
Proof. intros H. unfold known_usage. rewrite H. destruct l; reflexivity. Qed.

Lemma exact_local v l : local_of g v = Some l -> (exact (local_into_max l) <-> ~ unknown g v).
Proof.
  intros H. unfold unknown. rewrite H. destruct l; simpl; split; intros; try tauto; congruence.
Qed.

Lemma process_single_correct gk done v :
  Inv gk done -> (v < node_count g)%nat -> ~ recursive g v ->
  (forall w, calls g v w -> In w done) ->
  (forall y, mutual g v y -> y = v) ->
  exists gk', process_single gk v = Ret gk' /\ Inv gk' (v :: done).
Proof.
  intros [Hs HI] Hv Hnr Hcall Hmut. unfold process_single.
  rewrite (same_out g gk v Hs).
  destruct (map_outcome_spec (get_max gk) (best_max g) (out_nbrs g v)) as [ms [Hms HF]].
  { intros w Hw. apply out_nbrs_In in Hw. destruct (HI w (Hcall w Hw)) as [m [H1 H2]].
    exists m. split; [apply reported_get; exact H1 | exact H2]. }
  rewrite Hms. cbn [bind].
  destruct (local_of_lt g v Hv) as [l Hl].
  rewrite (get_local_of gk v l) by (rewrite (same_local_of g gk v Hs); exact Hl). cbn [bind].
  eexists. split; [reflexivity|].
  pose proof (group_best [v] v (local_into_max l) (out_nbrs g v) ms) as HG.
  assert (Hgood : best_max g v (match max_of ms with Some mx => add_local mx l | None => local_into_max l end)).
  { destruct (max_of ms) as [mx|].
    - apply HG; auto.
      + split; [discriminate|]. split.
        * intros x [<-|[]]; exact Hv.
        * intros x y [<-|[]]. split; [intros [<-|[]]; apply mutual_refl | intros H; left; symmetry; apply Hmut; exact H].
      + left; reflexivity.
      + exists v. split; [left; reflexivity | symmetry; apply num_local; exact Hl].
      + intros x [<-|[]]. rewrite (num_local v l Hl). lia.
      + rewrite (exact_local v l Hl). split.
        * intros H. split; [intros x [<-|[]]; exact H | intros x n [<-|[]] Hr; contradiction].
        * intros [H _]. apply H; left; reflexivity.
      + intros w. rewrite out_nbrs_In. split.
        * intros Hw. exists v. split; [left; reflexivity | split; [exact Hw|]].
          intros [<-|[]]. apply Hnr. exists v; split; [exact Hw | constructor].
        * intros [x [[<-|[]] [Hc _]]]. exact Hc.
      + apply add_local_num.
      + apply add_local_mod.
      + apply add_local_exact.
    - apply HG; auto.
      + split; [discriminate|]. split.
        * intros x [<-|[]]; exact Hv.
        * intros x y [<-|[]]. split; [intros [<-|[]]; apply mutual_refl | intros H; left; symmetry; apply Hmut; exact H].
      + left; reflexivity.
      + exists v. split; [left; reflexivity | symmetry; apply num_local; exact Hl].
      + intros x [<-|[]]. rewrite (num_local v l Hl). lia.
      + rewrite (exact_local v l Hl). split.
        * intros H. split; [intros x [<-|[]]; exact H | intros x n [<-|[]] Hr; contradiction].
        * intros [H _]. apply H; left; reflexivity.
      + intros w. rewrite out_nbrs_In. split.
        * intros Hw. exists v. split; [left; reflexivity | split; [exact Hw|]].
          intros [<-|[]]. apply Hnr. exists v; split; [exact Hw | constructor].
        * intros [x [[<-|[]] [Hc _]]]. exact Hc. }
  split.
  - eapply same_trans; [exact Hs | apply set_node_max_same].
  - intros u Hu. destruct (Nat.eq_dec v u) as [<-|Hne].
    + eexists. split; [apply set_node_max_reported; rewrite (same_count g gk Hs); exact Hv | exact Hgood].
    + destruct Hu as [Hu|Hu]; [congruence|]. destruct (HI u Hu) as [m [H1 H2]].
      exists m. split; [apply set_node_max_other; auto | exact H2].
Qed.

Lemma fold_set_max C m : forall gk done, Inv gk done ->
  (forall x, In x C -> (x < node_count g)%nat /\ best_max g x m) ->
  Inv (fold_left (fun g i => set_node_max g i m) C gk) (C ++ done).
Proof.
  induction C as [|x C IH]; intros gk done HI HC; simpl; [exact HI|].
  assert (HI1 : Inv (set_node_max gk x m) (x :: done)).
  { destruct HI as [Hs HI]. destruct (HC x (or_introl eq_refl)) as [Hx Hgx]. split.
    - eapply same_trans; [exact Hs | apply set_node_max_same].
    - intros u Hu. destruct (Nat.eq_dec x u) as [<-|Hne].
      + exists m. split; [apply set_node_max_reported; rewrite (same_count g gk Hs); exact Hx | exact Hgx].
      + destruct Hu as [Hu|Hu]; [congruence|]. destruct (HI u Hu) as [k [H1 H2]].
        exists k. split; [apply set_node_max_other; auto | exact H2]. }
  destruct (IH _ _ HI1) as [H1 H2].
  { intros y Hy; apply HC; right; exact Hy. }
  split; [exact H1|].
  intros u Hu. apply H2. simpl in Hu. destruct Hu as [<-|Hu].
  - apply in_or_app; right; left; reflexivity.
  - apply in_app_or in Hu as [Hu|Hu]; apply in_or_app; [left | right; right]; exact Hu.
Qed.

Lemma process_cycle_correct gk done C :
  Inv gk done -> is_group C -> (forall x, In x C -> recursive g x) ->
  (forall w, leaves g C w -> In w done) ->
  exists gk', process_cycle gk C = Ret gk' /\ Inv gk' (C ++ done).
Proof.
  intros HI HG Hrec Hcall. pose proof HI as [Hs HI']. pose proof HG as [Hne [Hlt HC]]. unfold process_cycle.
  destruct (map_outcome_spec (get_local gk) (fun x l => local_of g x = Some l) C) as [ls [Hls HFl]].
  { intros x Hx. destruct (local_of_lt g x (Hlt x Hx)) as [l Hl]. exists l. split; [|exact Hl].
    apply get_local_of. rewrite (same_local_of g gk x Hs). exact Hl. }
  rewrite Hls. cbn [bind].
  destruct (max_of (map local_into_max ls)) as [sl0|] eqn:Hsl0.
  2: { exfalso. apply max_of_None in Hsl0. destruct ls; [|discriminate]. inversion HFl; subst. congruence. }
  apply max_of_spec in Hsl0 as [[k [Hk Hkn]] [Hle Hex]].
  set (sl := match sl0 with MExact n => if N.eqb n 0 then sl0 else MLower n | MLower _ => sl0 end).
  assert (Hsln : num sl = num sl0).
  { unfold sl. destruct sl0 as [n|n]; [destruct (N.eqb n 0)|]; reflexivity. }
  assert (Hsle : exact sl <-> exact sl0 /\ num sl0 = 0).
  { unfold sl. destruct sl0 as [n|n]; simpl; [|tauto].
    destruct (N.eqb_spec n 0); simpl; tauto. }
  set (nbs := filter (fun neighbor => negb (mem neighbor C)) (flat_map (out_nbrs gk) C)).
  assert (Hnbs : forall w, In w nbs <-> leaves g C w).
  { intros w. unfold nbs, leaves. rewrite filter_In, negb_true_iff, mem_false, in_flat_map. split.
    - intros [[x [Hx Hw]] Hn]. rewrite (same_out g gk x Hs) in Hw. apply out_nbrs_In in Hw. exists x; auto.
    - intros [x [Hx [Hw Hn]]]. split; [|exact Hn]. exists x. split; [exact Hx|].
      rewrite (same_out g gk x Hs). apply out_nbrs_In; exact Hw. }
  destruct (map_outcome_spec (get_max gk) (best_max g) nbs) as [ms [Hms HF]].
  { intros w Hw. apply Hnbs in Hw. destruct (HI' w (Hcall w Hw)) as [m [H1 H2]].
    exists m. split; [apply reported_get; exact H1 | exact H2]. }
  rewrite Hms. cbn [bind]. eexists. split; [reflexivity|].
  apply fold_set_max; [exact HI|]. intros v Hv. split; [apply Hlt; exact Hv|].
  pose proof (group_best C v sl nbs ms HG Hv) as HGG.
  assert (A1 : exists x, In x C /\ known_usage g x = num sl).
  { apply in_map_iff in Hk as [l [Hl1 Hl2]]. destruct (Forall2_In_r _ _ _ l HFl Hl2) as [x [Hx Hxl]].
    exists x. split; [exact Hx|]. rewrite Hsln, <- Hkn, <- Hl1. symmetry. apply num_local; exact Hxl. }
  assert (A2 : forall x, In x C -> known_usage g x <= num sl).
  { intros x Hx. destruct (Forall2_In_l _ _ _ x HFl Hx) as [l [Hl Hxl]].
    rewrite Hsln, <- (num_local x l Hxl). apply Hle. apply in_map; exact Hl. }
  assert (A3 : exact sl <-> (forall x, In x C -> ~ unknown g x) /\
                (forall x n, In x C -> recursive g x -> known g x n -> n = 0)).
  { rewrite Hsle. split.
    - intros [H1 H2]. split.
      + intros x Hx. destruct (Forall2_In_l _ _ _ x HFl Hx) as [l [Hl Hxl]].
        apply (exact_local x l Hxl). apply Hex; [exact H1|]. apply in_map; exact Hl.
      + intros x n Hx _ Hkn'. specialize (A2 x Hx). apply known_usage_known in Hkn'. lia.
    - intros [H1 H2]. split.
      + apply Hex. intros y Hy. apply in_map_iff in Hy as [l [<- Hl]].
        destruct (Forall2_In_r _ _ _ l HFl Hl) as [x [Hx Hxl]]. apply (exact_local x l Hxl). apply H1; exact Hx.
      + destruct A1 as [x [Hx Hxn]]. rewrite <- Hsln, <- Hxn.
        destruct (unknown_or_known x (Hlt x Hx)) as [Hu|[n Hn]]; [exfalso; eapply H1; eauto|].
        rewrite (known_usage_known g x n Hn). eapply H2; eauto. }
  specialize (HGG A1 A2 A3 Hnbs HF).
  destruct (max_of ms) as [mx|]; [|exact HGG].
  apply HGG; [apply add_max_num | intros _; apply add_max_mod | apply add_max_exact].
Qed.

Definition group_is_cycle (c : list nat) : bool :=
  match c with [] => false | f :: _ => is_a_cycle g c f end.

Lemma process_sccs_correct : forall rest pre gk cyc,
  scc_list g (pre ++ rest) -> Inv gk (concat pre) ->
  exists g', process_sccs gk rest cyc = Ret (g', rev cyc ++ filter group_is_cycle rest) /\
    Inv g' (concat (pre ++ rest)).
Proof.
  induction rest as [|c rest IH]; intros pre gk cyc HS HI.
  - simpl. exists gk. rewrite !app_nil_r. split; [reflexivity | exact HI].
  - assert (HG : is_group c).
    { destruct HS as [S1 S2 S3 S4 S5]. assert (Hin : In c (pre ++ c :: rest)) by (apply in_or_app; right; left; reflexivity).
      split; [apply S3; exact Hin|]. split.
      - intros x Hx. apply S2. apply in_concat. exists c; auto.
      - intros x y Hx. apply S4; auto. }
    assert (Hndc : NoDup c).
    { destruct HS as [S1 _ _ _ _]. rewrite concat_app in S1. simpl in S1.
      revert S1. generalize (concat pre). intros l. induction l as [|a l IHl]; simpl; intros H.
      - eapply NoDup_app_l; eauto.
      - inversion H; auto. }
    pose proof HG as [Hne [Hlt HC]].
    destruct c as [|first c']; [congruence|].
    set (c := first :: c') in *.
    cbn [process_sccs]. fold c. unfold c at 1.
    assert (Hcy : is_a_cycle gk c first = is_a_cycle g c first).
    { unfold is_a_cycle. rewrite (same_out g gk first (proj1 HI)). reflexivity. }
    pose proof (group_recursive c first HG Hndc eq_refl) as Hrec.
    assert (Hleav : forall w, leaves g c w -> In w (concat pre)).
    { intros w [x [Hx [Hc Hn]]]. destruct HS as [_ _ _ _ S5].
      destruct (S5 pre c rest x w eq_refl Hx) as [H|H]; [apply star_one; exact Hc | contradiction | exact H]. }
    change (match c with [] => Panic "index out of bounds: scc[0]"
             | f :: _ => if is_a_cycle gk c f
                then let* gx := process_cycle gk c in process_sccs gx rest (c :: cyc)
                else let* gx := process_single gk f in process_sccs gx rest cyc end)
      with (if is_a_cycle gk c first
                then let* gx := process_cycle gk c in process_sccs gx rest (c :: cyc)
                else let* gx := process_single gk first in process_sccs gx rest cyc).
    assert (Hf : filter group_is_cycle (c :: rest) =
                 if is_a_cycle g c first then c :: filter group_is_cycle rest else filter group_is_cycle rest).
    { reflexivity. }
    rewrite Hf, Hcy. clear Hf Hcy.
    assert (HS' : scc_list g ((pre ++ [c]) ++ rest)) by (rewrite <- app_assoc; exact HS).
    destruct (is_a_cycle g c first).
    + destruct (process_cycle_correct gk (concat pre) c HI HG Hrec Hleav) as [gk' [-> HI']].
      cbn [bind]. destruct (IH (pre ++ [c]) gk' (c :: cyc) HS') as [g' [-> HI'']].
      { split; [apply HI'|]. intros v Hv. apply HI'. rewrite concat_app in Hv. simpl in Hv.
        rewrite app_nil_r in Hv. apply in_app_or in Hv as [Hv|Hv]; apply in_or_app; auto. }
      exists g'. rewrite <- app_assoc in HI''. split; [|exact HI''].
      simpl. rewrite <- app_assoc. reflexivity.
    + destruct Hrec as [Hc1 Hnr].
      destruct (process_single_correct gk (concat pre) first HI) as [gk' [-> HI']]; auto.
      { apply Hlt. left; reflexivity. }
      { intros w Hw. apply Hleav. exists first. split; [left; reflexivity|]. split; [exact Hw|].
        rewrite Hc1. intros [<-|[]]. apply Hnr. exists first. split; [exact Hw | constructor]. }
      { intros y Hy. apply (HC first y (or_introl eq_refl)) in Hy. rewrite Hc1 in Hy. destruct Hy as [<-|[]]; reflexivity. }
      cbn [bind]. destruct (IH (pre ++ [c]) gk' cyc HS') as [g' [-> HI'']].
      { split; [apply HI'|]. intros v Hv. apply HI'. rewrite concat_app in Hv.
        assert (Hcc : concat [c] = [first]) by (rewrite Hc1; reflexivity). rewrite Hcc in Hv. apply in_app_or in Hv as [Hv|[<-|[]]]; [right; exact Hv | left; reflexivity]. }
      exists g'. rewrite <- app_assoc in HI''. split; [reflexivity | exact HI''].
Qed.

Lemma acyclic_mutual v y : acyclic g -> mutual g v y -> y = v.
Proof.
  intros Hac [H1 H2]. inversion H1; subst; [reflexivity|]. exfalso. apply (Hac v).
  exists v0. split; [exact H | eapply star_trans; eauto].
Qed.

Lemma process_topo_correct : acyclic g -> forall rest pre gk,
  topo g (rev rest ++ pre) -> (forall x, In x (rev rest ++ pre) -> (x < node_count g)%nat) -> Inv gk pre ->
  exists g', process_topo gk rest = Ret g' /\ Inv g' (rev rest ++ pre).
Proof.
  intros Hac. induction rest as [|v rest IH]; intros pre gk Ht Hlt HI.
  - simpl in *. exists gk; split; [reflexivity | exact HI].
  - simpl in Ht, Hlt. rewrite <- app_assoc in Ht, Hlt. simpl in Ht, Hlt.
    simpl process_topo.
    destruct (process_single_correct gk pre v HI) as [gk' [-> HI']].
    + apply Hlt. apply in_or_app; right; left; reflexivity.
    + apply Hac.
    + intros w Hw. clear - Ht Hw. induction (rev rest) as [|a l IHl]; simpl in Ht.
      * apply Ht; exact Hw.
      * apply IHl, Ht.
    + intros y. apply acyclic_mutual; exact Hac.
    + cbn [bind]. destruct (IH (v :: pre) gk' Ht Hlt HI') as [g' [H1 H2]].
      exists g'. split; [exact H1|]. simpl. rewrite <- app_assoc. exact H2.
Qed.

Lemma Inv_start : Inv g [].
Proof. split; [apply same_refl | intros v []]. Qed.

Theorem cyclic_pass_best :
  exists g' ls, kosaraju_scc g = Some ls /\ scc_list g ls /\
    cyclic_pass g = Ret (g', filter group_is_cycle ls) /\ same g g' /\
    forall v, (v < node_count g)%nat -> exists m, reported g' v m /\ best_max g v m.
Proof.
  destruct (kosaraju_correct g Hwf) as [ls [Hls HS]].
  destruct (process_sccs_correct ls [] g [] HS Inv_start) as [g' [H1 [H2 H3]]].
  exists g', ls. split; [exact Hls|]. split; [exact HS|]. unfold cyclic_pass. rewrite Hls.
  split; [exact H1|]. split; [exact H2|].
  intros v Hv. apply H3. apply (sl_all g ls HS). exact Hv.
Qed.

Theorem acyclic_pass_best :
  acyclic g -> (exists l, topo g l /\ NoDup l /\ forall x, (x < node_count g)%nat -> In x l) ->
  exists g', acyclic_pass g = Ret (g', []) /\ same g g' /\
    forall v, (v < node_count g)%nat -> exists m, reported g' v m /\ best_max g v m.
Proof.
  intros Hac Hl. destruct (topo_reversed_correct g Hwf Hl) as [order [Ho [Ht [Hnd Hall]]]].
  destruct (process_topo_correct Hac (rev order) [] g) as [g' [H1 [H2 H3]]].
  - rewrite rev_involutive, app_nil_r. exact Ht.
  - rewrite rev_involutive, app_nil_r. intros x Hx; apply Hall; exact Hx.
  - apply Inv_start.
  - exists g'. unfold acyclic_pass. rewrite Ho, H1. split; [reflexivity|]. split; [exact H2|].
    intros v Hv. apply H3. rewrite rev_involutive, app_nil_r. apply Hall; exact Hv.
Qed.

Theorem max_stack_sure :
  exists g' cs, max_stack true g = Ret (g', cs) /\ same g g' /\
    forall v, (v < node_count g)%nat -> exists m, reported g' v m /\ best_max g v m.
Proof.
  unfold max_stack. simpl.
  destruct (is_cyclic_correct g Hwf) as [[-> _]|[-> [Hac Hl]]].
  - destruct cyclic_pass_best as [g' [ls [_ [_ [H1 [H2 H3]]]]]]. exists g', (filter group_is_cycle ls). auto.
  - destruct (acyclic_pass_best Hac Hl) as [g' [H1 [H2 H3]]]. exists g', []. auto.
Qed.

Theorem max_stack_correct :
  exists g' cs, max_stack true g = Ret (g', cs) /\ same g g' /\
    forall v, (v < node_count g)%nat -> exists m, reported g' v m /\ good_max g v m.
Proof.
  destruct max_stack_sure as [g' [cs [H1 [H2 H3]]]]. exists g', cs. split; [exact H1|]. split; [exact H2|].
  intros v L. destruct (H3 v L) as [m [M1 [M2 _]]]. exists m. split; assumption.
Qed.

End Pass.
