(** The pass over the function pointer types, and the whole construction. *)
From Coq Require Import Permutation.
From Verif Require Import M_base M_stack M_graph M_analysis M_filter M_names M_thumb M_ty M_parse M_build S_names S_build L_base L_names L_ir2 L_build1 L_build2 L_build3 L_build4.

(** * [one_true_void] *)
Lemma somes_In {A} (l : list (option A)) x : In x (somes l) <-> In (Some x) l.
Proof.
  induction l as [|[y|] l IH]; cbn [somes In]; [tauto | |]; rewrite IH.
  - split; (intros [H | H]; [left; congruence | right; exact H]).
  - split; [intros H; right; exact H | intros [H | H]; [discriminate H | exact H]].
Qed.
Lemma maybe_void_spec s r : maybe_void s = Some r <-> s = fmt_sig (TAlias r).
Proof.
  unfold maybe_void. destruct (fmt_receiver s) as [t|] eqn:E.
  - apply fmt_receiver_spec in E. subst s. split.
    + destruct t; try discriminate. intros H. injection H as ->. reflexivity.
    + intros H. unfold fmt_sig in H. injection H as ->. reflexivity.
  - split; [discriminate|]. intros ->. rewrite (proj2 (fmt_receiver_spec _ (TAlias r)) eq_refl) in E. discriminate E.
Qed.
Lemma maybe_void_In sigs r : In r (somes (map maybe_void sigs)) <-> In (fmt_sig (TAlias r)) sigs.
Proof.
  rewrite somes_In, in_map_iff. split.
  - intros [s [E H]]. apply maybe_void_spec in E. subst s. exact H.
  - intros H. exists (fmt_sig (TAlias r)). split; [apply maybe_void_spec; reflexivity | exact H].
Qed.
Lemma maybe_void_NoDup sigs : NoDup sigs -> NoDup (somes (map maybe_void sigs)).
Proof.
  induction 1 as [|s l H ND IH]; cbn [map somes]; [constructor|]. destruct (maybe_void s) as [r|] eqn:E; [|exact IH]. constructor; [|exact IH].
  rewrite maybe_void_In. apply maybe_void_spec in E. subst s. exact H.
Qed.
Lemma one_true_void_spec p sigs : NoDup sigs -> (forall s, In s sigs <-> candidate_sig p s) ->
  match one_true_void sigs with Some v => true_void p v | None => forall v, ~ true_void p v end.
Proof.
  intros ND H. unfold one_true_void. pose proof (maybe_void_NoDup _ ND) as NV.
  assert (V : forall r, In r (somes (map maybe_void sigs)) <-> void_candidate p r) by (intros r; rewrite maybe_void_In; apply H).
  set (all := somes (map maybe_void sigs)) in *. destruct (smem (lit "fmt::Void") all) eqn:E1.
  - apply smem_In in E1. apply V in E1. split; [exact E1 | left; reflexivity].
  - apply smem_false in E1. rewrite V in E1.
    assert (P : forall x, starts_with (lit "core::fmt::Void") x = true <-> exists r, x = lit "core::fmt::Void" ++ r) by (intros x; apply starts_with_app).
    destruct (filter (starts_with (lit "core::fmt::Void")) all) as [|v vs] eqn:E2.
    + assert (NP : forall r, ~ void_candidate p (lit "core::fmt::Void" ++ r)).
      { intros r K. apply V in K. assert (X : In (lit "core::fmt::Void" ++ r) (filter (starts_with (lit "core::fmt::Void")) all)).
        { apply filter_In. split; [exact K|]. apply P. exists r. reflexivity. }
        rewrite E2 in X. exact X. }
      assert (Q : (forall v, true_void p v -> forall w, void_candidate p w -> w = v)).
      { intros v [Kc [-> | [_ [[r ->] | [_ K]]]]]; [exfalso; exact (E1 Kc) | exfalso; exact (NP r Kc) | exact K]. }
      destruct all as [|v [|w all']].
      * intros v [K _]. apply V in K. exact K.
      * split; [apply V; left; reflexivity|]. right. split; [exact E1|]. right. split; [exact NP|]. intros w K. apply V in K. destruct K as [<- | []]. reflexivity.
      * intros u K. pose proof (Q u K v (proj1 (V v) (or_introl eq_refl))) as X. pose proof (Q u K w (proj1 (V w) (or_intror (or_introl eq_refl)))) as Y.
        inversion NV as [|? ? N _]; subst. apply N. left. reflexivity.
    + assert (X : In v (filter (starts_with (lit "core::fmt::Void")) all)) by (rewrite E2; left; reflexivity). apply filter_In in X. destruct X as [X1 X2].
      split; [apply V; exact X1|]. right. split; [exact E1|]. left. apply P. exact X2.
Qed.
Lemma special_spec void s : special_fmt void s = true <-> exists v, void = Some v /\ s = fmt_sig (TAlias v).
Proof.
  unfold special_fmt. destruct void as [v|]; [|split; [discriminate | intros [v [H _]]; discriminate H]]. destruct (fmt_receiver s) as [r|] eqn:E.
  - apply fmt_receiver_spec in E. subst s. assert (Q : ty_eqb r (TAlias v) = true <-> r = TAlias v) by apply (ty_eqb_eq r (TAlias v)). rewrite Q. split.
    + intros ->. exists v. split; reflexivity.
    + intros [v' [H K]]. injection H as <-. unfold fmt_sig in K. injection K as ->. reflexivity.
  - split; [discriminate|]. intros [v' [H ->]]. rewrite (proj2 (fmt_receiver_spec _ (TAlias v')) eq_refl) in E. discriminate E.
Qed.
Lemma label_spec void s : sig_label void s (show_sig (canonical_sig void s) ++ lit "*").
Proof.
  unfold sig_label, canonical_sig. destruct (special_fmt void s) eqn:E; cbn [andb].
  - apply special_spec in E. destruct E as [v [-> ->]]. destruct (str_eqb_spec v (lit "fmt::Void")) as [-> | N]; cbn [negb].
    + right. split; [|reflexivity]. intros v K N. injection K as <-. exfalso. exact (N eq_refl).
    + left. exists v. repeat split. exact N.
  - right. split; [|reflexivity]. intros v K _ K'. assert (X : special_fmt void s = true) by (apply special_spec; exists v; split; assumption). congruence.
Qed.

(** * Before the pass *)
Definition base (k : key) : Prop := match k with KSig _ | KExt _ => False | _ => True end.
Definition nocast_p (p : prog) : Prop := forall i f, ~ body p i (BitcastCall f).
Lemma edge_base p known v1 v2 k l : edge p known v1 k l -> base k -> base l -> edge p known v2 k l.
Proof.
  intros H Bk Bl. destruct H; [eapply ed_direct | eapply ed_extern | eapply ed_cast | eapply ed_cast_extern | eapply ed_mem | eapply ed_mem_extern
    | eapply ed_code | eapply ed_blind | destruct Bl | destruct Bk | destruct Bk ]; eassumption.
Qed.
Record BASE (p : prog) (g : graph node) (ks : list key) : Prop := {
  ba_show : forall void, Forall2 (node_of p void) ks (gnodes g);
  ba_real : forall i, i < length (pg_defined p) -> nth_error ks i = Some (KReal i);
  ba_keys : NoDup ks;
  ba_in : forall k, In k ks <-> is_node p k /\ base k;
  ba_wf : forall u v, In (u, v) (gedges g) -> u < length ks /\ v < length ks;
  ba_must : forall void k l, edge p (fun _ => False) void k l -> base k -> base l -> exists u v, nth_error ks u = Some k /\ nth_error ks v = Some l /\ In (u, v) (gedges g);
  ba_may : forall void u v, In (u, v) (gedges g) -> exists k l, nth_error ks u = Some k /\ nth_error ks v = Some l /\ edge p (created p) void k l;
  ba_nodup : nocast_p p -> NoDup (gedges g)
}.

Section Before.
Variables (demangle : str -> str) (p : prog) (nd0 : nodes) (evs : list event) (e : edgest) (ks0 : list key).
Hypothesis (W : wf_prog p) (R : RN demangle p (pg_defined p) nd0) (H0 : INV p nd0 evs e ks0).
Hypothesis (Hb : forall i st, In (i, st) evs <-> body p i st).
Hypothesis (Hd : forall c, In c (e_defined e) <-> exists n d i, In (n, d) (pg_defines p) /\ live p n i /\ chosen p i c).

Lemma created_iff n : createdE p evs n <-> created p n.
Proof.
  unfold createdE, created. split; (intros [[i [A B]] | [i [A B]]]; [left | right]); exists i; (split; [apply Hb; exact A | exact B]).
Qed.
Lemma irE_edge (k1 k2 : str -> Prop) void k l : (forall n, k1 n -> k2 n) -> irE p evs k1 k l -> edge p k2 void k l.
Proof.
  intros M H. destruct H as [i f j H A B C | i f H A B C | i f j H A | i f H A | i f n j T H A B | i f n T H A B C]; apply Hb in H.
  - apply (ed_direct _ _ _ i f j H A B). intros E. destruct (C E) as [K | K]; [left; exact K | right; exact (M _ K)].
  - apply (ed_extern _ _ _ i f H A B). intros E. exact (M _ (C E)).
  - exact (ed_cast _ _ _ i f j H A).
  - exact (ed_cast_extern _ _ _ i f H A).
  - exact (ed_mem _ _ _ i f n j T H A B).
  - exact (ed_mem_extern _ _ _ i f n T H A B (M _ C)).
Qed.
Lemma edge_irE known void k l : edge p known void k l -> base k -> base l -> irE p evs known k l \/ (exists i j, jumps p i j /\ k = KReal i /\ l = KReal j) \/ (exists i, blind p i /\ k = KReal i /\ l = KCode i).
Proof.
  intros H Bk Bl. destruct H as [i f j H A B C | i f H A B C | i f j H A | i f H A | i f n j T H A B | i f n T H A B C | i j H | i H | i s H | s j H | s H].
  - left. apply Hb in H. exact (ie_direct _ _ _ i f j H A B C).
  - left. apply Hb in H. exact (ie_extern _ _ _ i f H A B C).
  - left. apply Hb in H. exact (ie_cast _ _ _ i f j H A).
  - left. apply Hb in H. exact (ie_cast_extern _ _ _ i f H A).
  - left. apply Hb in H. exact (ie_mem _ _ _ i f n j T H A B).
  - left. apply Hb in H. exact (ie_mem_extern _ _ _ i f n T H A B C).
  - right. left. exists i, j. split; [exact H | split; reflexivity].
  - right. right. exists i. split; [exact H | split; reflexivity].
  - destruct Bl.
  - destruct Bk.
  - destruct Bk.
Qed.

Lemma base_plain : (is_thumb (pg_target p) = false \/ pg_text p = None) -> BASE p (e_g e) ks0.
Proof.
  intros T. assert (NA : forall i a s x, ~ analysed p i a s x).
  { intros i a s x [A [st [tx [z [c [B _]]]]]]. destruct T as [T | T]; congruence. }
  assert (NJ : forall i j, ~ jumps p i j) by (intros i j [a [s [x [A _]]]]; exact (NA _ _ _ _ A)).
  assert (NB : forall i, ~ blind p i) by (intros i [[a [s [x [A _]]]] _]; exact (NA _ _ _ _ A)).
  destruct H0 as [N E O]. constructor.
  - intros void. apply (Forall2_imp (show0 p)); [|exact (nd_show _ _ _ _ N)]. intros k nd. unfold show0. destruct k; try tauto.
    + intros [c [C ->]]. unfold new_node. apply no_real; [exact C|]. destruct (sget (pg_sizes p) c) as [k|] eqn:Es.
      * apply us_llvm; [exact T | exact (llvm_size_some p W _ _ _ C Es)].
      * apply us_none; [exact T | exact (llvm_size_none p _ _ C Es)].
    + intros ->. apply no_sym.
  - exact (nd_real _ _ _ _ N).
  - exact (nd_keys _ _ _ _ N).
  - intros k. rewrite (nd_in _ _ _ _ N). split.
    + intros [[i [K ->]] | [n [K ->]]]; (split; [|exact I]); [apply in_real; exact K | apply in_sym; apply created_iff; exact K].
    + intros [K B]. destruct K as [i K | n K | i K | s K | s K]; [left; exists i; split; [exact K | reflexivity] | right; exists n; split; [apply created_iff; exact K | reflexivity] | exfalso; exact (NB i K) | destruct B | destruct B].
  - exact (es_wf _ _ _ _ E).
  - intros void k l K Bk Bl. destruct (edge_irE _ _ _ _ K Bk Bl) as [K' | [[i [j [K' _]]] | [i [K' _]]]]; [exact (es_must _ _ _ _ E k l K') | exfalso; exact (NJ _ _ K') | exfalso; exact (NB _ K')].
  - intros void u v K. destruct (es_may _ _ _ _ E u v K) as [k [l [K1 [K2 K3]]]]. exists k, l. split; [exact K1 | split; [exact K2|]].
    apply (irE_edge (createdE p evs)); [intros n; apply created_iff | exact K3].
  - intros NC. apply (es_nodup _ _ _ _ E). intros i f K. apply (NC i f). apply Hb. exact K.
Qed.
Lemma base_machine x ks : is_thumb (pg_target p) = true -> MACH p evs (length (pg_defined p)) x ks -> BASE p (fst x) ks.
Proof.
  intros T H. constructor.
  - intros void. apply (Forall2_imp (showM p (length (pg_defined p)))); [|exact (mc_show _ _ _ _ _ H)]. intros k nd. unfold showM. destruct k; try tauto.
    + intros [c [l [C [-> K]]]]. rewrite (proj2 (Nat.ltb_lt _ _) (live_lt p _ _ (chosen_live p _ _ C))) in K. apply no_real; assumption.
    + intros ->. apply no_sym.
    + intros ->. apply no_code.
  - exact (mc_real _ _ _ _ _ H).
  - exact (mc_keys _ _ _ _ _ H).
  - intros k. rewrite (mc_in _ _ _ _ _ H). split.
    + intros [[i [K ->]] | [[n [K ->]] | [i [_ [K ->]]]]]; (split; [|exact I]); [apply in_real; exact K | apply in_sym; apply created_iff; exact K | apply in_code; exact K].
    + intros [K B]. destruct K as [i K | n K | i K | s K | s K]; [left; exists i; split; [exact K | reflexivity] | right; left; exists n; split; [apply created_iff; exact K | reflexivity] | | destruct B | destruct B].
      right. right. exists i. repeat split; try apply K. destruct K as [[a [s [y [[_ [st [tx [z [c [_ [K _]]]]]]] _]]]] _]. apply nth_error_Some. rewrite K. discriminate.
  - exact (mc_wf _ _ _ _ _ H).
  - assert (AL : forall i a s y, analysed p i a s y -> i < length (pg_defined p)).
    { intros i a s y [_ [st [tx [z [c [_ [K _]]]]]]]. apply nth_error_Some. rewrite K. discriminate. }
    intros void k l K Bk Bl. apply (mc_must _ _ _ _ _ H). destruct (edge_irE _ _ _ _ K Bk Bl) as [K' | [[i [j [K' [-> ->]]]] | [i [K' [-> ->]]]]]; [left; exact K' | right | right].
    + apply ce_jump; [|exact K']. destruct K' as [a [s [y [A _]]]]. exact (AL _ _ _ _ A).
    + apply ce_blind; [|exact K']. destruct K' as [[a [s [y [A _]]]] _]. exact (AL _ _ _ _ A).
  - intros void u v K. destruct (mc_may _ _ _ _ _ H u v K) as [k [l [K1 [K2 K3]]]]. exists k, l. split; [exact K1 | split; [exact K2|]].
    destruct K3 as [K3 | [i j _ K3 | i _ K3]]; [|exact (ed_code _ _ _ i j K3) | exact (ed_blind _ _ _ i K3)].
    apply (irE_edge (createdE p evs)); [intros n; apply created_iff | exact K3].
  - intros NC. apply (mc_nodup _ _ _ _ _ H). intros i f K. apply (NC i f). apply Hb. exact K.
Qed.
Lemma machine_base g : machine_edges p nd0 e = Ret g -> exists ex, BASE p g (ks0 ++ ex).
Proof.
  unfold machine_edges. intros E. destruct (is_thumb (pg_target p)) eqn:T.
  - destruct (pg_text p) as [[stext text]|] eqn:X.
    + destruct (bind_inv _ _ _ E) as [[g' seen] [E1 E2]]. injection E2 as <-.
      destruct (code_steps demangle p nd0 evs e ks0 W R H0 Hb Hd stext text T X (pg_defined p) [] _ _ ks0 eq_refl (MACH0 p nd0 evs e ks0 H0) E1) as [ex H].
      exists ex. exact (base_machine _ _ T H).
    + injection E as <-. exists []. rewrite app_nil_r. apply base_plain. right. exact X.
  - injection E as <-. exists []. rewrite app_nil_r. apply base_plain. left. exact T.
Qed.

(** What the pass reads. *)
Record SIGS (m : list (fnsig * icall)) (fmts : list nat) (unt : bool) : Prop := {
  sg_keys : NoDup (map fst m);
  sg_cand : forall s, In s (map fst m) <-> candidate_sig p s;
  sg_ind : forall s ind, In (s, ind) m -> (ic_called ind = true <-> called_sig p s) /\ (forall i, In i (ic_callers ind) <-> calls_sig p i s) /\ NoDup (ic_callers ind) /\
             (forall j, In j (ic_callees ind) <-> typed p j s) /\ NoDup (ic_callees ind);
  sg_fmts : forall j, In j fmts <-> exists r, typed_by_def p j (fmt_sig r);
  sg_fmts_nodup : NoDup fmts;
  sg_untyped : unt = true <-> untyped p
}.
Lemma sigs_ok : SIGS (e_indirects e) (n_fmts nd0) (n_untyped nd0).
Proof.
  pose proof (iv_other _ _ _ _ _ H0) as O. constructor.
  - rewrite (ot_keys _ _ _ _ O). exact (rn_keys _ _ _ _ R).
  - intros s. rewrite (ot_keys _ _ _ _ O), (rn_cand _ _ _ _ R), upto_all. reflexivity.
  - intros s ind K. destruct (ot_ind _ _ _ _ O s ind K) as [[old [K1 K2]] [A [B C]]]. destruct (rn_ind _ _ _ _ R s old K1) as [_ [_ [ND T]]]. rewrite upto_all in T.
    assert (Cd : candidate_sig p s).
    { rewrite <- (upto_all p). apply (rn_cand _ _ _ _ R). apply (in_map fst) in K1. exact K1. }
    assert (Q : forall i, calledE evs i s <-> calls_sig p i s).
    { intros i. unfold calledE, calls_sig. split.
      - intros [s' [X Y]]. split; [exact Cd|]. exists s'. split; [apply Hb; exact X | apply sig_loose_iff; exact Y].
      - intros [_ [s' [X Y]]]. exists s'. split; [apply Hb; exact X | apply sig_loose_iff; exact Y]. }
    rewrite K2. split; [|split; [|split; [exact C | split; [exact T | exact ND]]]].
    + rewrite A. unfold called_sig. split; intros [i X]; exists i; apply Q; exact X.
    + intros i. rewrite B. apply Q.
  - intros j. rewrite (rn_fmts _ _ _ _ R), upto_all. reflexivity.
  - exact (rn_fmts_nodup _ _ _ _ R).
  - rewrite (rn_untyped _ _ _ _ R), upto_all. reflexivity.
Qed.
End Before.

(** * The pass *)
Lemma fold_in_edges (g : graph node) call l : fold_left (fun g caller => add_edge g caller call) l g = mkG (gnodes g) (gedges g ++ map (fun c => (c, call)) l).
Proof.
  revert g. induction l as [|c l IH]; intros g; cbn [fold_left map]; [rewrite app_nil_r; destruct g; reflexivity|]. rewrite IH. cbn [add_edge gnodes gedges]. rewrite <- app_assoc. reflexivity.
Qed.
Lemma fold_out_edges (g : graph node) call l : fold_left (fun g callee => add_edge g call callee) l g = mkG (gnodes g) (gedges g ++ map (fun c => (call, c)) l).
Proof.
  revert g. induction l as [|c l IH]; intros g; cbn [fold_left map]; [rewrite app_nil_r; destruct g; reflexivity|]. rewrite IH. cbn [add_edge gnodes gedges]. rewrite <- app_assoc. reflexivity.
Qed.
Lemma add_indirect_eq o unt fmts void g s ind : ic_called ind = true -> add_indirect o unt fmts void g (s, ind) =
  mkG (gnodes g ++ mkNode (show_sig (canonical_sig void s) ++ lit "*") (LExact 0) None true :: (if unt then [mkNode (lit "?") LUnknown None false] else []))
      (gedges g ++ map (fun c => (c, length (gnodes g))) (o_callers o s (ic_callers ind)) ++
       (if unt then [(length (gnodes g), S (length (gnodes g)))] else []) ++
       map (fun c => (length (gnodes g), c)) (o_callees o s (if special_fmt void s then fmts else ic_callees ind))).
Proof.
  intros C. unfold add_indirect. rewrite C. cbn [negb add_node]. rewrite fold_in_edges. destruct unt.
  - cbn [add_node gnodes gedges add_edge]. rewrite fold_out_edges. unfold add_edge. cbn [gnodes gedges]. rewrite app_length, Nat.add_comm, <- !app_assoc. reflexivity.
  - rewrite fold_out_edges. cbn [gnodes gedges]. rewrite <- !app_assoc. reflexivity.
Qed.

Lemma NoDup_app_intro {A} (a b : list A) : NoDup a -> NoDup b -> (forall x, In x a -> In x b -> False) -> NoDup (a ++ b).
Proof.
  induction a as [|x a IH]; intros Ha Hb D; [exact Hb|]. inversion Ha as [|? ? H1 H2]; subst. cbn [app]. constructor.
  - rewrite in_app_iff. intros [K | K]; [exact (H1 K) | exact (D x (or_introl eq_refl) K)].
  - apply IH; [exact H2 | exact Hb|]. intros y Hy. exact (D y (or_intror Hy)).
Qed.

Section Indirect.
Variables (p : prog) (o : orders) (m : list (fnsig * icall)) (fmts : list nat) (unt : bool).
Hypothesis (Fo : fair o) (S : SIGS p m fmts unt).
Let void := one_true_void (map fst (o_sigs o m)).
Definition inQ (q : list fnsig) (k : key) : Prop := match k with KSig s | KExt s => In s q | _ => True end.
Record PTR (q : list fnsig) (g : graph node) (ks : list key) : Prop := {
  pt_show : Forall2 (node_of p void) ks (gnodes g);
  pt_real : forall i, i < length (pg_defined p) -> nth_error ks i = Some (KReal i);
  pt_keys : NoDup ks;
  pt_in : forall k, In k ks <-> is_node p k /\ inQ q k;
  pt_wf : forall u v, In (u, v) (gedges g) -> u < length ks /\ v < length ks;
  pt_must : forall k l, edge p (fun _ => False) void k l -> inQ q k -> inQ q l -> exists u v, nth_error ks u = Some k /\ nth_error ks v = Some l /\ In (u, v) (gedges g);
  pt_may : forall u v, In (u, v) (gedges g) -> exists k l, nth_error ks u = Some k /\ nth_error ks v = Some l /\ edge p (created p) void k l;
  pt_nodup : nocast_p p -> NoDup (gedges g)
}.
Lemma PTR0 g ks : BASE p g ks -> PTR [] g ks.
Proof.
  intros H. assert (Q : forall k, inQ [] k <-> base k) by (intros []; cbn; tauto). constructor.
  - exact (ba_show _ _ _ H void).
  - exact (ba_real _ _ _ H).
  - exact (ba_keys _ _ _ H).
  - intros k. rewrite (ba_in _ _ _ H), Q. reflexivity.
  - exact (ba_wf _ _ _ H).
  - intros k l K Qk Ql. apply (ba_must _ _ _ H void k l K); apply Q; assumption.
  - exact (ba_may _ _ _ H void).
  - exact (ba_nodup _ _ _ H).
Qed.

Lemma typed_lt j s : typed p j s -> j < length (pg_defined p).
Proof. intros H. rewrite <- (upto_all p) in H at 1. exact (chosen_typed_lt p _ _ _ H). Qed.
Lemma calls_lt i s : calls_sig p i s -> i < length (pg_defined p).
Proof. intros [_ [s' [[n [d [_ [L _]]]] _]]]. exact (live_lt p _ _ L). Qed.
Lemma pointee_lt s j : pointee p void s j -> j < length (pg_defined p).
Proof. intros [[v [_ [_ [r K]]]] | [_ K]]; [apply (typed_lt j (fmt_sig r)); left; exact K | exact (typed_lt _ _ K)]. Qed.
Lemma callees_pointee s ind j : In (s, ind) m -> (In j (if special_fmt void s then fmts else ic_callees ind) <-> pointee p void s j).
Proof.
  intros K. destruct (sg_ind _ _ _ _ S s ind K) as [_ [_ [_ [T _]]]]. unfold pointee. destruct (special_fmt void s) eqn:E.
  - apply special_spec in E. destruct E as [v [E1 E2]]. rewrite (sg_fmts _ _ _ _ S). split.
    + intros X. left. exists v. repeat split; assumption.
    + intros [[v' [_ [_ X]]] | [X _]]; [exact X | exfalso; exact (X v E1 E2)].
  - rewrite T. assert (N : forall v, void = Some v -> s <> fmt_sig (TAlias v)).
    { intros v E1 E2. assert (X : special_fmt void s = true) by (apply special_spec; exists v; split; assumption). congruence. }
    split; [intros X; right; split; assumption|]. intros [[v [E1 [E2 _]]] | [_ X]]; [exfalso; exact (N v E1 E2) | exact X].
Qed.

Lemma ptr_step q s ind g ks : In (s, ind) m -> ~ In s q -> PTR q g ks ->
  PTR (q ++ [s]) (add_indirect o unt fmts void g (s, ind)) (ks ++ if ic_called ind then KSig s :: (if unt then [KExt s] else []) else []).
Proof.
  intros Hm Hq H. destruct (sg_ind _ _ _ _ S s ind Hm) as [Cal [Crs [CrN [Ces CeN]]]].
  assert (Qi : forall k, inQ (q ++ [s]) k <-> inQ q k \/ k = KSig s \/ k = KExt s).
  { intros k. destruct k as [i|n|i|s'|s']; cbn [inQ]; try tauto; rewrite in_app_iff; cbn [In]; (split; [intros [K | [K | []]]; [left; exact K | right; subst; tauto] |]);
      intros [K | [K | K]]; try (left; exact K); try discriminate K; injection K as ->; right; left; reflexivity. }
  destruct (ic_called ind) eqn:Ec.
  2:{ (* never called *)
    unfold add_indirect. rewrite Ec. cbn [negb]. assert (NC : ~ called_sig p s) by (intros K; apply Cal in K; discriminate K).
    rewrite app_nil_r. constructor.
    - exact (pt_show _ _ _ H).
    - exact (pt_real _ _ _ H).
    - exact (pt_keys _ _ _ H).
    - intros k. rewrite (pt_in _ _ _ H), Qi. split; [tauto|]. intros [K [Q | [-> | ->]]]; [split; assumption | |]; exfalso; inversion K; contradiction.
    - exact (pt_wf _ _ _ H).
    - intros k l K Qk Ql. apply (pt_must _ _ _ H k l K).
      + apply Qi in Qk. destruct Qk as [Qk | [-> | ->]]; [exact Qk | |]; exfalso; inversion K; contradiction.
      + apply Qi in Ql. destruct Ql as [Ql | [-> | ->]]; [exact Ql | |]; exfalso; inversion K; subst; [|contradiction].
        apply NC. eexists. eassumption.
    - exact (pt_may _ _ _ H).
    - exact (pt_nodup _ _ _ H). }
  rewrite (add_indirect_eq _ _ _ _ _ _ _ Ec). pose proof (proj1 Cal eq_refl) as CS.
  assert (Len : length (gnodes g) = length ks) by (symmetry; exact (Forall2_len _ _ _ (pt_show _ _ _ H))). rewrite Len.
  set (L := length ks) in *. set (ext := if unt then [KExt s] else []).
  assert (Uiff : unt = true <-> untyped p) by exact (sg_untyped _ _ _ _ S).
  assert (NS : ~ In (KSig s) ks /\ ~ In (KExt s) ks).
  { split; intros K; apply (pt_in _ _ _ H) in K; destruct K as [_ K]; exact (Hq K). }
  assert (InX : forall k, In k (KSig s :: ext) <-> is_node p k /\ (k = KSig s \/ k = KExt s)).
  { intros k. unfold ext. cbn [In]. split.
    - intros [<- | K]; [split; [apply in_sig; exact CS | left; reflexivity]|]. destruct unt; [|destruct K]. destruct K as [<- | []].
      split; [apply in_ext; [exact CS | apply Uiff; reflexivity] | right; reflexivity].
    - intros [K [-> | ->]]; [left; reflexivity|]. right. inversion K as [| | | |s' _ U]; subst. apply Uiff in U. rewrite U. left. reflexivity. }
  assert (Cr : forall i, In i (o_callers o s (ic_callers ind)) <-> calls_sig p i s).
  { intros i. rewrite <- Crs. pose proof (fair_callers _ Fo s (ic_callers ind)) as P. split; apply Permutation_in; [exact P | symmetry; exact P]. }
  assert (Ce : forall j, In j (o_callees o s (if special_fmt void s then fmts else ic_callees ind)) <-> pointee p void s j).
  { intros j. rewrite <- (callees_pointee s ind j Hm). pose proof (fair_callees _ Fo s (if special_fmt void s then fmts else ic_callees ind)) as P.
    split; apply Permutation_in; [exact P | symmetry; exact P]. }
  assert (nthS : nth_error (ks ++ KSig s :: ext) L = Some (KSig s)) by (unfold L; rewrite nth_error_app2, Nat.sub_diag by lia; reflexivity).
  assert (nthX : unt = true -> nth_error (ks ++ KSig s :: ext) (Datatypes.S L) = Some (KExt s)).
  { intros U. unfold L, ext. rewrite nth_error_app2 by lia. replace (Datatypes.S (length ks) - length ks) with 1 by lia. rewrite U. reflexivity. }
  assert (nthR : forall i, i < length (pg_defined p) -> nth_error (ks ++ KSig s :: ext) i = Some (KReal i)) by (intros i Hi; apply nth_app_l; exact (pt_real _ _ _ H i Hi)).
  assert (RL : forall i, i < length (pg_defined p) -> i < L) by (intros i Hi; unfold L; apply nth_error_Some; rewrite (pt_real _ _ _ H i Hi); discriminate).
  set (newE := map (fun c => (c, L)) (o_callers o s (ic_callers ind)) ++ (if unt then [(L, Datatypes.S L)] else []) ++
               map (fun c => (L, c)) (o_callees o s (if special_fmt void s then fmts else ic_callees ind))).
  assert (NE : forall u v, In (u, v) newE <-> (v = L /\ calls_sig p u s) \/ (unt = true /\ u = L /\ v = Datatypes.S L) \/ (u = L /\ pointee p void s v)).
  { intros u v. unfold newE. rewrite !in_app_iff, !in_map_iff. split.
    - intros [[c [K1 K2]] | [K | [c [K1 K2]]]].
      + injection K1 as <- <-. left. split; [reflexivity | apply Cr; exact K2].
      + right. left. destruct unt; [|destruct K]. destruct K as [K | []]. injection K as <- <-. repeat split.
      + injection K1 as <- <-. right. right. split; [reflexivity | apply Ce; exact K2].
    - intros [[-> K] | [[-> [-> ->]] | [-> K]]].
      + left. exists u. split; [reflexivity | apply Cr; exact K].
      + right. left. left. reflexivity.
      + right. right. exists v. split; [reflexivity | apply Ce; exact K]. }
  fold ext. constructor; cbn [gnodes gedges].
  - apply Forall2_app; [exact (pt_show _ _ _ H)|]. constructor; [apply no_sig; apply label_spec|]. unfold ext. destruct unt; constructor; [apply no_ext | constructor].
  - exact nthR.
  - apply NoDup_app_intro; [exact (pt_keys _ _ _ H) | |].
    + unfold ext. destruct unt; repeat constructor; cbn; intuition discriminate.
    + intros k K1 K2. apply InX in K2. destruct K2 as [_ [-> | ->]]; [exact (proj1 NS K1) | exact (proj2 NS K1)].
  - intros k. rewrite in_app_iff, InX, (pt_in _ _ _ H), Qi. tauto.
  - intros u v. rewrite in_app_iff, app_length. fold L. cbn [length]. intros [K | K]; [apply (pt_wf _ _ _ H) in K; fold L in K; lia|].
    apply NE in K. destruct K as [[-> K] | [[U [-> ->]] | [-> K]]].
    + pose proof (RL _ (calls_lt _ _ K)). lia.
    + unfold ext. rewrite U. cbn [length]. lia.
    + pose proof (RL _ (pointee_lt _ _ K)). lia.
  - intros k l K Qk Ql. apply Qi in Qk. apply Qi in Ql.
    assert (Old : inQ q k -> inQ q l -> exists u v, nth_error (ks ++ KSig s :: ext) u = Some k /\ nth_error (ks ++ KSig s :: ext) v = Some l /\ In (u, v) (gedges g ++ newE)).
    { intros X Y. destruct (pt_must _ _ _ H k l K X Y) as [u [v [Z1 [Z2 Z3]]]]. exists u, v. split; [apply nth_app_l; exact Z1 | split; [apply nth_app_l; exact Z2|]].
      apply in_or_app. left. exact Z3. }
    assert (New : forall u v, nth_error (ks ++ KSig s :: ext) u = Some k -> nth_error (ks ++ KSig s :: ext) v = Some l -> In (u, v) newE ->
       exists u v, nth_error (ks ++ KSig s :: ext) u = Some k /\ nth_error (ks ++ KSig s :: ext) v = Some l /\ In (u, v) (gedges g ++ newE)).
    { intros u v X Y Z. exists u, v. split; [exact X | split; [exact Y | apply in_or_app; right; exact Z]]. }
    destruct Qk as [Qk | [-> | ->]].
    + destruct Ql as [Ql | [-> | ->]]; [exact (Old Qk Ql) | |].
      * inversion K as [| | | | | | | |i s' C| |]; subst. apply (New i L); [apply nthR; exact (calls_lt _ _ C) | exact nthS | apply NE; left; split; [reflexivity | exact C]].
      * inversion K; subst. cbn [inQ] in Qk. contradiction.
    + inversion K as [| | | | | | | | |s' j C P|s' C U]; subst.
      * apply (New L j); [exact nthS | apply nthR; exact (pointee_lt _ _ P) | apply NE; right; right; split; [reflexivity | exact P]].
      * pose proof (proj2 Uiff U) as U'. apply (New L (Datatypes.S L)); [exact nthS | exact (nthX U') | apply NE; right; left; repeat split; exact U'].
    + inversion K.
  - intros u v K. apply in_app_or in K. destruct K as [K | K].
    + destruct (pt_may _ _ _ H u v K) as [k [l [X [Y Z]]]]. exists k, l. split; [apply nth_app_l; exact X | split; [apply nth_app_l; exact Y | exact Z]].
    + apply NE in K. destruct K as [[-> K] | [[U [-> ->]] | [-> K]]].
      * exists (KReal u), (KSig s). split; [apply nthR; exact (calls_lt _ _ K) | split; [exact nthS | apply ed_pointer; exact K]].
      * exists (KSig s), (KExt s). split; [exact nthS | split; [exact (nthX U) | apply ed_outside; [exact CS | apply Uiff; exact U]]].
      * exists (KSig s), (KReal v). split; [exact nthS | split; [apply nthR; exact (pointee_lt _ _ K) | apply ed_pointee; [exact CS | exact K]]].
  - intros NC. apply NoDup_app_intro; [exact (pt_nodup _ _ _ H NC) | |].
    + unfold newE. apply NoDup_app_intro; [|apply NoDup_app_intro|].
      * apply FinFun.Injective_map_NoDup; [intros a b X; injection X as X; exact X|]. apply (Permutation_NoDup (Permutation_sym (fair_callers _ Fo s (ic_callers ind)))). exact CrN.
      * destruct unt; repeat constructor. cbn. tauto.
      * apply FinFun.Injective_map_NoDup; [intros a b X; injection X as X; exact X|]. apply (Permutation_NoDup (Permutation_sym (fair_callees _ Fo s _))).
        destruct (special_fmt void s); [exact (sg_fmts_nodup _ _ _ _ S) | exact CeN].
      * intros [a b] X Y. apply in_map_iff in Y. destruct Y as [c [Y1 Y2]]. injection Y1 as <- <-. apply Ce in Y2. apply pointee_lt in Y2. apply RL in Y2.
        destruct unt; [|destruct X]. destruct X as [X | []]. injection X as X. lia.
      * intros [a b] X Y. apply in_map_iff in X. destruct X as [c [X1 X2]]. injection X1 as <- <-. apply Cr in X2. apply calls_lt in X2. apply RL in X2.
        apply in_app_or in Y. destruct Y as [Y | Y]; [destruct unt; [|destruct Y]; destruct Y as [Y | []]; injection Y as Y; lia|].
        apply in_map_iff in Y. destruct Y as [d [Y _]]. injection Y as Y. lia.
    + intros [u v] X Y. apply (pt_wf _ _ _ H) in X. fold L in X. apply NE in Y. destruct Y as [[-> _] | [[_ [-> _]] | [-> _]]]; lia.
Qed.

Lemma ptr_steps l2 : forall l1 g ks, o_sigs o m = l1 ++ l2 -> PTR (map fst l1) g ks ->
  exists ex, PTR (map fst (o_sigs o m)) (fold_left (add_indirect o unt fmts void) l2 g) (ks ++ ex).
Proof.
  induction l2 as [|[s ind] l2 IH]; intros l1 g ks E H; cbn [fold_left].
  - rewrite E, app_nil_r. exists []. rewrite app_nil_r. exact H.
  - assert (P : Permutation (o_sigs o m) m) by exact (fair_sigs _ Fo m).
    assert (Hm : In (s, ind) m) by (apply (Permutation_in _ P); rewrite E; apply in_elt).
    assert (Hq : ~ In s (map fst l1)).
    { assert (ND : NoDup (map fst (o_sigs o m))) by (apply (Permutation_NoDup (Permutation_map fst (Permutation_sym P))); exact (sg_keys _ _ _ _ S)).
      rewrite E, map_app in ND. apply nodup_app in ND. destruct ND as [_ [_ D]]. intros K. apply (D s K). left. reflexivity. }
    pose proof (ptr_step _ _ _ _ _ Hm Hq H) as H'. set (ex := if ic_called ind then _ else _) in H'.
    destruct (IH (l1 ++ [(s, ind)]) (add_indirect o unt fmts void g (s, ind)) (ks ++ ex)) as [ex' H'']; [rewrite <- app_assoc; exact E | rewrite map_app; exact H'|].
    exists (ex ++ ex'). rewrite app_assoc. exact H''.
Qed.
Lemma ptr_graph g ks : PTR (map fst (o_sigs o m)) g ks -> graph_of p ks void g.
Proof.
  intros H.
  assert (P : Permutation (o_sigs o m) m) by exact (fair_sigs _ Fo m).
  assert (Cd : forall s, In s (map fst (o_sigs o m)) <-> candidate_sig p s).
  { intros s. rewrite <- (sg_cand _ _ _ _ S). pose proof (Permutation_map fst P) as P'. split; apply Permutation_in; [exact P' | symmetry; exact P']. }
  assert (IC : forall k, is_node p k -> inQ (map fst (o_sigs o m)) k).
  { intros k K. destruct K as [i K | n K | i K | s [i [K _]] | s [i [K _]] _]; cbn [inQ]; try exact I; apply Cd; exact K. }
  assert (EC : forall kn k l, edge p kn void k l -> inQ (map fst (o_sigs o m)) k /\ inQ (map fst (o_sigs o m)) l).
  { intros kn k l K. destruct K; cbn [inQ]; (split; try exact I); apply Cd; match goal with K : calls_sig _ _ _ |- _ => exact (proj1 K) | K : called_sig _ _ |- _ => destruct K as [? [K' _]]; exact K' end. }
  constructor.
  - exact (pt_keys _ _ _ H).
  - intros k. rewrite (pt_in _ _ _ H). split; [tauto|]. intros K. split; [exact K | exact (IC k K)].
  - exact (pt_real _ _ _ H).
  - exact (pt_show _ _ _ H).
  - apply one_true_void_spec; [|exact Cd]. apply (Permutation_NoDup (Permutation_map fst (Permutation_sym P))). exact (sg_keys _ _ _ _ S).
  - exact (pt_wf _ _ _ H).
  - intros k l K. destruct (EC _ _ _ K) as [A C]. exact (pt_must _ _ _ H k l K A C).
  - intros u v k l K Ku Kv. destruct (pt_may _ _ _ H u v K) as [k' [l' [X [Y Z]]]]. rewrite Ku in X. injection X as <-. rewrite Kv in Y. injection Y as <-. exact Z.
Qed.
Lemma indirect_graph g ks : BASE p g ks -> exists ex, graph_of p (ks ++ ex) void (indirect_edges o unt fmts m g) /\ (nocast_p p -> NoDup (gedges (indirect_edges o unt fmts m g))).
Proof.
  intros B. destruct (ptr_steps (o_sigs o m) [] g ks eq_refl (PTR0 _ _ B)) as [ex H]. exists ex. split; [exact (ptr_graph _ _ H) | exact (pt_nodup _ _ _ H)].
Qed.
End Indirect.

(** * The whole construction *)
Theorem build_spec demangle o p b : wf_prog p -> fair o -> build demangle o p = Ret b ->
  exists ks void, graph_of p ks void (b_g b) /\ (nocast_p p -> NoDup (gedges (b_g b))) /\
    (forall c i, chosen p i c -> sget (b_indices b) c = Some i) /\
    (forall n u, sget (b_indices b) n = Some u <-> (exists j, chosen p j n /\ nth_error ks u = Some (KReal j)) \/ nth_error ks u = Some (KSym n)) /\
    (b_info b = true <-> exists i c, chosen p i c /\ sized p c).
Proof.
  intros W Fo E. unfold build in E. apply bind_inv in E. destruct E as [? [_ E]]. destruct (bind_inv _ _ _ E) as [n [E1 E']]. destruct (bind_inv _ _ _ E') as [e [E2 E'']]. destruct (bind_inv _ _ _ E'') as [g [E3 E4]].
  injection E4 as <-. cbn [b_g b_indices b_info]. clear E E' E''. pose proof (real_nodes_spec _ _ _ W E1) as R.
  destruct (ir_edges_spec demangle p n W R e E2) as [evs [ks0 [H0 [Hb Hd]]]].
  destruct (machine_base demangle p n evs e ks0 W R H0 Hb Hd g E3) as [ex1 B].
  destruct (indirect_graph p o (e_indirects e) (n_fmts n) (n_untyped n) Fo (sigs_ok demangle p n evs e ks0 R H0 Hb) g (ks0 ++ ex1) B) as [ex2 [G ND]].
  exists ((ks0 ++ ex1) ++ ex2), (one_true_void (map fst (o_sigs o (e_indirects e)))). split; [exact G|]. split; [exact ND|]. split; [|split].
  - intros c i C. exact (idx p n evs e ks0 H0 c i C).
  - pose proof (iv_nodes _ _ _ _ _ H0) as N. intros m u. rewrite (nd_idx _ _ _ _ N).
    assert (Pre : forall u' k, In k ks0 -> nth_error ((ks0 ++ ex1) ++ ex2) u' = Some k -> nth_error ks0 u' = Some k).
    { intros u' k K1 K2. apply In_nth_error in K1. destruct K1 as [w K1]. pose proof (nth_app_l _ ex2 _ _ (nth_app_l _ ex1 _ _ K1)) as K3.
      assert (Lw : w < length ((ks0 ++ ex1) ++ ex2)) by (apply nth_error_Some; rewrite K3; discriminate).
      rewrite <- (proj1 (NoDup_nth_error _) (go_keys _ _ _ _ G) w u' Lw); [exact K1 | congruence]. }
    split.
    + intros [[j [C K]] | K]; [left; exists j; split; [exact C|] | right]; apply nth_app_l; apply nth_app_l; exact K.
    + intros [[j [C K]] | K].
      * left. exists j. split; [exact C|]. apply Pre; [|exact K]. apply (nd_in _ _ _ _ N). left. exists j. split; [exact (live_lt p _ _ (chosen_live p _ _ C)) | reflexivity].
      * right. apply Pre; [|exact K]. apply (nd_in _ _ _ _ N). right. exists m. split; [|reflexivity]. apply (created_iff p evs Hb).
        apply nth_error_In in K. apply (go_nodes _ _ _ _ G) in K. inversion K. assumption.
  - rewrite (rn_info _ _ _ _ R), upto_all. reflexivity.
Qed.
