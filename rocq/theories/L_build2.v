(** What [real_nodes] computes. *)
From Verif Require Import M_base M_stack M_graph M_analysis M_filter M_names M_thumb M_ty M_parse M_build S_names S_build L_base L_names L_ir2 L_build1.

Lemma chosen_at p l i n : chosen (upto p l) i n <-> at_ (upto p l) i (fun ns => choose p ns n).
Proof. reflexivity. Qed.
Lemma live_at p l f i : live (upto p l) f i <-> at_ (upto p l) i (In f).
Proof. reflexivity. Qed.

Lemma fold_sput_get {A} (v : A) ns m f : sget (fold_left (fun m n => sput m n v) ns m) f = if smem f ns then Some v else sget m f.
Proof.
  revert m. induction ns as [|n ns IH]; intros m; [reflexivity|]. cbn [fold_left]. rewrite IH, sget_sput.
  destruct (smem f ns) eqn:E.
  - assert (H : smem f (n :: ns) = true) by (apply smem_In; right; apply smem_In; exact E). rewrite H. reflexivity.
  - destruct (str_eqb_spec n f) as [-> | N].
    + assert (H : smem f (f :: ns) = true) by (apply smem_In; left; reflexivity). rewrite H. reflexivity.
    + assert (H : smem f (n :: ns) = false) by (apply smem_false; apply smem_false in E; intros [-> | X]; [apply N; reflexivity | exact (E X)]).
      rewrite H. reflexivity.
Qed.

Lemma def_of_spec p ns s : NoDup (map fst (pg_defines p)) ->
  ((exists d, def_of (pg_defines p) ns = Some d /\ s = d_sig d) <-> Qdef p s ns).
Proof.
  intros W. unfold def_of, Qdef. split.
  - intros [d [E ->]]. apply first_some_spec in E. destruct E as [n [F E]]. exists n, d. split; [|split; [apply sget_In; assumption | reflexivity]].
    revert F. apply first_iff. intros y. unfold has_def. destruct (sget (pg_defines p) y) as [d'|] eqn:Ey.
    + split; [|discriminate]. intros _. exists d'. apply sget_In; assumption.
    + apply sget_None in Ey. split; [congruence|]. intros H. contradiction.
  - intros [n [d [F [E ->]]]]. exists d. split; [|reflexivity]. apply first_some_spec. exists n. split; [|apply sget_In; assumption].
    revert F. apply first_iff. intros y. unfold has_def. destruct (sget (pg_defines p) y) as [d'|] eqn:Ey.
    + split; [discriminate|]. intros _. exists d'. apply sget_In; assumption.
    + apply sget_None in Ey. split; [intros H; contradiction | congruence].
Qed.
Lemma def_of_None p ns : def_of (pg_defines p) ns = None <-> forall m, In m ns -> ~ has_def p m.
Proof. unfold def_of. rewrite first_some_None. split; intros H x Hx; apply sget_None; exact (H x Hx). Qed.
Lemma decl_get p y : NoDup (map fst (pg_declares p)) -> forall s,
  (match sget (pg_declares p) y with Some s => s | None => None end = Some s <-> In (y, Some s) (pg_declares p)).
Proof.
  intros W s. destruct (sget (pg_declares p) y) as [o|] eqn:E.
  - apply sget_In in E; [|exact W]. split; [intros ->; exact E|]. intros H. apply sget_In in E; [|exact W]. apply sget_In in H; [|exact W]. congruence.
  - split; [discriminate|]. intros H. apply sget_None in E. exfalso. apply E. exists (Some s). exact H.
Qed.
Lemma decl_has p y : NoDup (map fst (pg_declares p)) ->
  (match sget (pg_declares p) y with Some s => s | None => None end <> None <-> has_decl p y).
Proof.
  intros W. pose proof (decl_get p y W) as G. destruct (match sget (pg_declares p) y with Some s => s | None => None end) as [s|].
  - split; [|discriminate]. intros _. exists s. apply G. reflexivity.
  - split; [congruence|]. intros [s H]. apply G in H. discriminate H.
Qed.
Lemma decl_of_spec p ns s : NoDup (map fst (pg_declares p)) ->
  (decl_of (pg_declares p) ns = Some s <-> exists n, first (has_decl p) ns n /\ In (n, Some s) (pg_declares p)).
Proof.
  intros W. unfold decl_of. rewrite first_some_spec. split; intros [n [F E]]; exists n; (split; [|apply (decl_get p n W); exact E]);
    revert F; apply first_iff; intros y; [|symmetry]; apply decl_has; exact W.
Qed.
Lemma decl_of_None p ns : NoDup (map fst (pg_declares p)) -> (decl_of (pg_declares p) ns = None <-> forall m, In m ns -> ~ has_decl p m).
Proof.
  intros W. unfold decl_of. rewrite first_some_None. split; intros H x Hx.
  - intros K. apply (decl_has p x W) in K. exact (K (H x Hx)).
  - destruct (match sget (pg_declares p) x with Some s => s | None => None end) as [s|] eqn:E; [|reflexivity].
    exfalso. apply (H x Hx). apply (decl_has p x W). rewrite E. discriminate.
Qed.

Lemma note_names_app demangle a b m : note_names demangle m (a ++ b) = let* m' := note_names demangle m a in note_names demangle m' b.
Proof. revert m. induction a as [|x a IH]; intros m; cbn [note_names app bind]; [reflexivity|]. destruct (note_name demangle m x); cbn [bind]; [apply IH | | |]; reflexivity. Qed.

Definition Qtyped (p : prog) (s : fnsig) (ns : list str) : Prop := Qdef p s ns \/ Qdecl p s ns.
Lemma typed_at p i s : typed p i s <-> at_ p i (Qtyped p s).
Proof.
  unfold typed. rewrite typed_by_def_at, typed_by_decl_at. unfold at_, Qtyped. split.
  - intros [[ns H] | [ns H]]; exists ns; tauto.
  - intros [ns [H [K | K]]]; [left | right]; exists ns; tauto.
Qed.

(** The facts about the nodes of a list [l] of symbols. *)
Record RN (demangle : str -> str) (p : prog) (l : list (N * symbol)) (s : nodes) : Prop := {
  rn_edges : gedges (n_g s) = [];
  rn_len : length (gnodes (n_g s)) = length l;
  rn_node : forall i nd, nth_error (gnodes (n_g s)) i = Some nd -> exists c, chosen (upto p l) i c /\ nd = new_node c (sget (pg_sizes p) c) false;
  rn_indices : forall c i, sget (n_indices s) c = Some i <-> chosen (upto p l) i c;
  rn_ikeys : NoDup (map fst (n_indices s));
  rn_aliases : forall f c, sget (n_aliases s) f = Some c <-> exists i, live (upto p l) f i /\ chosen (upto p l) i c;
  rn_addr : forall a c, bget (n_addr2name s) a = Some c <-> exists i, at_address (upto p l) i a /\ chosen (upto p l) i c;
  rn_keys : NoDup (map fst (n_indirects s));
  rn_ind : forall sg ind, In (sg, ind) (n_indirects s) -> ic_called ind = false /\ ic_callers ind = [] /\ NoDup (ic_callees ind) /\
             forall j, In j (ic_callees ind) <-> typed (upto p l) j sg;
  rn_cand : forall sg, In sg (map fst (n_indirects s)) <-> candidate_sig (upto p l) sg;
  rn_fmts : forall j, In j (n_fmts s) <-> exists r, typed_by_def (upto p l) j (fmt_sig r);
  rn_fmts_nodup : NoDup (n_fmts s);
  rn_untyped : n_untyped s = true <-> untyped (upto p l);
  rn_info : n_info s = true <-> exists i c, chosen (upto p l) i c /\ sized p c;
  rn_ambiguous : note_names demangle [] (map nname (gnodes (n_g s))) = Ret (n_ambiguous s)
}.

Lemma at_nil p i Q : ~ at_ (upto p []) i Q.
Proof. intros H. apply at_lt in H. cbn in H. lia. Qed.
Lemma RN_nil demangle p : RN demangle p [] nodes0.
Proof.
  constructor; cbn [nodes0 n_g n_indices n_aliases n_addr2name n_ambiguous n_indirects n_fmts n_info n_untyped gedges gnodes empty_graph sget bget map In].
  - reflexivity.
  - reflexivity.
  - intros i nd H. destruct i; discriminate H.
  - intros c i. split; [discriminate|]. intros H. exfalso. exact (at_nil _ _ _ H).
  - constructor.
  - intros f c. split; [discriminate|]. intros [i [H _]]. exfalso. exact (at_nil _ _ _ H).
  - intros a c. split; [discriminate|]. intros [i [_ H]]. exfalso. exact (at_nil _ _ _ H).
  - constructor.
  - intros sg ind [].
  - intros sg. split; [intros []|]. intros [j H]. apply typed_at in H. exact (at_nil _ _ _ H).
  - intros j. split; [intros []|]. intros [r H]. apply typed_by_def_at in H. exact (at_nil _ _ _ H).
  - constructor.
  - split; [discriminate|]. intros [i H]. apply untyped_at in H. exfalso. exact (at_nil _ _ _ H).
  - split; [discriminate|]. intros [i [c [H _]]]. exfalso. exact (at_nil _ _ _ H).
  - reflexivity.
Qed.

Lemma typed_snoc p l x j s : typed (upto p (l ++ [x])) j s <-> typed (upto p l) j s \/ (j = length l /\ Qtyped p s (real_names x)).
Proof. rewrite !typed_at. apply at_snoc. Qed.
Lemma tdef_snoc p l x j s : typed_by_def (upto p (l ++ [x])) j s <-> typed_by_def (upto p l) j s \/ (j = length l /\ Qdef p s (real_names x)).
Proof. rewrite !typed_by_def_at. apply at_snoc. Qed.
Lemma untyped_snoc p l x : untyped (upto p (l ++ [x])) <-> untyped (upto p l) \/ Quntyped p (real_names x).
Proof.
  unfold untyped. split.
  - intros [i H]. apply untyped_at in H. apply at_snoc in H. destruct H as [H | [_ H]]; [left; exists i; apply untyped_at; exact H | right; exact H].
  - intros [[i H] | H]; [exists i; apply untyped_at; apply at_snoc; left; apply untyped_at in H; exact H|].
    exists (length l). apply untyped_at. apply at_snoc. right. split; [reflexivity | exact H].
Qed.
Lemma addr_snoc p l x j a : at_address (upto p (l ++ [x])) j a <-> at_address (upto p l) j a \/ (j = length l /\ a = fst x).
Proof.
  unfold at_address. cbn [pg_defined upto]. split.
  - intros [sym H]. apply nth_snoc in H. destruct H as [H | [-> <-]]; [left; exists sym; exact H | right; split; reflexivity].
  - intros [[sym H] | [-> ->]]; [exists sym; apply nth_snoc; left; exact H|]. exists (snd x). apply nth_snoc. right. split; [reflexivity | destruct x; reflexivity].
Qed.
Lemma chosen_typed_lt p l j s : typed (upto p l) j s -> j < length l.
Proof. intros H. apply typed_at in H. exact (at_lt _ _ _ _ H). Qed.
Lemma Qdef_unique p ns a b : NoDup (map fst (pg_defines p)) -> Qdef p a ns -> Qdef p b ns -> a = b.
Proof. intros W H1 H2. apply (def_of_spec p ns a W) in H1. destruct H1 as [d [E ->]]. apply (def_of_spec p ns b W) in H2. destruct H2 as [d' [E' ->]]. congruence. Qed.

Section Step.
Variables (demangle : str -> str) (p : prog) (l : list (N * symbol)) (x : N * symbol) (s s' : nodes).
Hypothesis (W : wf_prog p) (Hok : names_ok (l ++ [x])) (Hadr : NoDup (map fst (l ++ [x]))).
Hypothesis (R : RN demangle p l s) (E : add_real demangle p s x = Ret s').

Let ns := real_names x.
(** What the three branches of [add_real] have in common. *)
Lemma step_common : exists c amb, choose p ns c /\ note_name demangle (n_ambiguous s) c = Ret amb /\
  n_g s' = mkG (gnodes (n_g s) ++ [new_node c (sget (pg_sizes p) c) false]) (gedges (n_g s)) /\
  n_indices s' = sput (n_indices s) c (length l) /\
  n_aliases s' = fold_left (fun m n => sput m n c) ns (n_aliases s) /\
  n_addr2name s' = bput (n_addr2name s) (fst x) c /\
  n_ambiguous s' = amb /\
  n_info s' = match sget (pg_sizes p) c with Some _ => true | None => n_info s end /\
  match def_of (pg_defines p) ns with
  | Some d => n_indirects s' = add_candidate (n_indirects s) (d_sig d) (length l) /\ n_untyped s' = n_untyped s /\
              n_fmts s' = match fmt_receiver (d_sig d) with Some _ => ninsert (n_fmts s) (length l) | None => n_fmts s end
  | None => n_fmts s' = n_fmts s /\
      match decl_of (pg_declares p) ns with
      | Some sg => n_indirects s' = add_candidate (n_indirects s) sg (length l) /\ n_untyped s' = n_untyped s
      | None => n_indirects s' = n_indirects s /\ n_untyped s' = if is_outlined_function c then n_untyped s else true
      end
  end.
Proof.
  unfold add_real in E. rewrite untagged_eq in E. fold ns in E. destruct (bind_inv _ _ _ E) as [c [Ec E1]]. destruct (bind_inv _ _ _ E1) as [amb [Ea E2]].
  exists c, amb. split; [exact (canonical_choose _ _ _ Ec)|]. split; [exact Ea|]. cbn [add_node] in E2. rewrite <- (rn_len _ _ _ _ R).
  destruct (def_of (pg_defines p) ns) as [d|]; [|destruct (decl_of (pg_declares p) ns) as [sg|]]; injection E2 as <-; repeat split.
Qed.

Lemma fresh_live f i : In f ns -> ~ live (upto p l) f i.
Proof.
  intros Hf H. assert (K : i = length l).
  { apply (at_inj p (l ++ [x]) i (length l) f (In f) (In f) Hok (fun _ h => h) (fun _ h => h)).
    - apply at_snoc. left. exact H.
    - apply at_snoc. right. split; [reflexivity | exact Hf]. }
  apply at_lt in H. lia.
Qed.
Lemma fresh_chosen c i : In c ns -> ~ chosen (upto p l) i c.
Proof. intros Hc [ns' [H1 H2]]. apply (fresh_live c i Hc). exists ns'. split; [exact H1 | exact (choose_In _ _ _ H2)]. Qed.
Lemma chosen_snoc i c : chosen (upto p (l ++ [x])) i c <-> chosen (upto p l) i c \/ (i = length l /\ choose p ns c).
Proof. rewrite !chosen_at. apply at_snoc. Qed.
Lemma live_snoc f i : live (upto p (l ++ [x])) f i <-> live (upto p l) f i \/ (i = length l /\ In f ns).
Proof. rewrite !live_at. apply at_snoc. Qed.

Lemma step_indirects sg0 : Qtyped p sg0 ns -> (forall sg, Qtyped p sg ns -> sg = sg0) ->
  n_indirects s' = add_candidate (n_indirects s) sg0 (length l) ->
  NoDup (map fst (n_indirects s')) /\
  (forall sg ind, In (sg, ind) (n_indirects s') -> ic_called ind = false /\ ic_callers ind = [] /\ NoDup (ic_callees ind) /\
     forall j, In j (ic_callees ind) <-> typed (upto p (l ++ [x])) j sg) /\
  (forall sg, In sg (map fst (n_indirects s')) <-> candidate_sig (upto p (l ++ [x])) sg).
Proof.
  intros H0 U ->. pose proof (rn_keys _ _ _ _ R) as K. split; [exact (add_candidate_nodup _ _ _ K)|]. split.
  - intros sg ind H. apply (add_candidate_In _ _ _ K) in H. destruct H as [[N H] | [-> [[old [H ->]] | [H ->]]]].
    + destruct (rn_ind _ _ _ _ R _ _ H) as [A [B [C D]]]. repeat split; try assumption; rewrite typed_snoc, D.
      * tauto.
      * intros [T | [_ T]]; [exact T|]. exfalso. exact (N (U _ T)).
    + destruct (rn_ind _ _ _ _ R _ _ H) as [A [B [C D]]]. cbn [ic_called ic_callers ic_callees]. repeat split; try assumption.
      * apply ninsert_NoDup. exact C.
      * rewrite ninsert_In, typed_snoc, D. tauto.
      * rewrite ninsert_In, typed_snoc, D. tauto.
    + cbn [ic_called ic_callers ic_callees]. repeat split.
      * constructor; [exact (fun h => h) | constructor].
      * intros [<- | []]. apply typed_snoc. right. split; [reflexivity | exact H0].
      * rewrite typed_snoc. intros [T | [-> _]]; [|left; reflexivity]. exfalso. apply H. apply (rn_cand _ _ _ _ R). exists j. exact T.
  - intros sg. rewrite add_candidate_keys, (rn_cand _ _ _ _ R). unfold candidate_sig. split.
    + intros [[j H] | ->]; [exists j; apply typed_snoc; left; exact H|]. exists (length l). apply typed_snoc. right. split; [reflexivity | exact H0].
    + intros [j H]. apply typed_snoc in H. destruct H as [H | [_ H]]; [left; exists j; exact H | right; exact (U _ H)].
Qed.
Lemma step_indirects_none : (forall sg, ~ Qtyped p sg ns) -> n_indirects s' = n_indirects s ->
  NoDup (map fst (n_indirects s')) /\
  (forall sg ind, In (sg, ind) (n_indirects s') -> ic_called ind = false /\ ic_callers ind = [] /\ NoDup (ic_callees ind) /\
     forall j, In j (ic_callees ind) <-> typed (upto p (l ++ [x])) j sg) /\
  (forall sg, In sg (map fst (n_indirects s')) <-> candidate_sig (upto p (l ++ [x])) sg).
Proof.
  intros N ->. split; [exact (rn_keys _ _ _ _ R)|]. split.
  - intros sg ind H. destruct (rn_ind _ _ _ _ R _ _ H) as [A [B [C D]]]. repeat split; try assumption; rewrite typed_snoc, D; [tauto|].
    intros [T | [_ T]]; [exact T | exfalso; exact (N _ T)].
  - intros sg. rewrite (rn_cand _ _ _ _ R). unfold candidate_sig. split; intros [j H]; exists j; rewrite typed_snoc in *; [tauto|].
    destruct H as [H | [_ H]]; [exact H | exfalso; exact (N _ H)].
Qed.

Lemma RN_step : RN demangle p (l ++ [x]) s'.
Proof.
  destruct step_common as [c [amb [Hc [Ea [Eg [Ei [El [Ed [Em [Ef Er]]]]]]]]]].
  assert (Hin : In c ns) by exact (choose_In _ _ _ Hc).
  assert (A : (NoDup (map fst (n_indirects s')) /\
    (forall sg ind, In (sg, ind) (n_indirects s') -> ic_called ind = false /\ ic_callers ind = [] /\ NoDup (ic_callees ind) /\
       forall j, In j (ic_callees ind) <-> typed (upto p (l ++ [x])) j sg) /\
    (forall sg, In sg (map fst (n_indirects s')) <-> candidate_sig (upto p (l ++ [x])) sg)) /\
    (forall j, In j (n_fmts s') <-> exists r, typed_by_def (upto p (l ++ [x])) j (fmt_sig r)) /\ NoDup (n_fmts s') /\
    (n_untyped s' = true <-> untyped (upto p (l ++ [x])))).
  { pose proof (wf_defines _ W) as Wd. pose proof (wf_declares _ W) as Wl. destruct (def_of (pg_defines p) ns) as [d|] eqn:Edef.
    - destruct Er as [En [Eu Efm]].
      assert (Q : Qdef p (d_sig d) ns) by (apply (def_of_spec p ns _ Wd); exists d; split; [exact Edef | reflexivity]).
      assert (ND : forall sg, ~ Qdecl p sg ns).
      { intros sg [n [H _]]. apply def_of_None in H. congruence. }
      split; [|split; [|split]].
      + apply (step_indirects (d_sig d) (or_introl Q)); [|exact En]. intros sg [H | H]; [exact (Qdef_unique p ns _ _ Wd H Q) | exfalso; exact (ND _ H)].
      + intros j. rewrite Efm. destruct (fmt_receiver (d_sig d)) as [r|] eqn:Er.
        * apply fmt_receiver_spec in Er. rewrite ninsert_In, (rn_fmts _ _ _ _ R). split.
          -- intros [[r' H] | ->]; [exists r'; apply tdef_snoc; left; exact H|]. exists r. apply tdef_snoc. right. split; [reflexivity | rewrite <- Er; exact Q].
          -- intros [r' H]. apply tdef_snoc in H. destruct H as [H | [H _]]; [left; exists r'; exact H | right; exact H].
        * rewrite (rn_fmts _ _ _ _ R). split; intros [r' H]; exists r'; rewrite tdef_snoc in *; [left; exact H|].
          destruct H as [H | [_ H]]; [exact H|]. exfalso. pose proof (Qdef_unique p ns _ _ Wd Q H) as Y.
          apply fmt_receiver_spec in Y. congruence.
      + rewrite Efm. destruct (fmt_receiver (d_sig d)); [apply ninsert_NoDup|]; exact (rn_fmts_nodup _ _ _ _ R).
      + rewrite Eu, untyped_snoc, (rn_untyped _ _ _ _ R). split; [tauto|]. intros [H | [n [_ [H _]]]]; [exact H|].
        destruct Q as [m [d' [F [I' _]]]]. apply first_In in F. destruct F as [F1 F2]. destruct (H m F1) as [K _]. contradiction.
    - destruct Er as [Efm Er]. assert (ND : forall sg, ~ Qdef p sg ns).
      { intros sg H. apply (def_of_spec p ns _ Wd) in H. destruct H as [d [H _]]. congruence. }
      pose proof (proj1 (def_of_None p ns) Edef) as Edef'. clear Edef. rename Edef' into Edef.
      assert (F1 : forall j, In j (n_fmts s') <-> exists r, typed_by_def (upto p (l ++ [x])) j (fmt_sig r)).
      { intros j. rewrite Efm, (rn_fmts _ _ _ _ R). split; intros [r' H]; exists r'; rewrite tdef_snoc in *; [left; exact H|].
        destruct H as [H | [_ H]]; [exact H|]. exfalso. exact (ND _ H). }
      destruct (decl_of (pg_declares p) ns) as [sg|] eqn:Edec.
      + destruct Er as [En Eu]. assert (Q : forall sg', Qdecl p sg' ns <-> sg' = sg).
        { intros sg'. split.
          - intros [n [_ [F I']]]. assert (X : decl_of (pg_declares p) ns = Some sg') by (apply (decl_of_spec p ns _ Wl); exists n; split; assumption). congruence.
          - intros ->. apply (decl_of_spec p ns _ Wl) in Edec. destruct Edec as [n H]. exists n. split; [exact Edef | exact H]. }
        split; [|split; [exact F1|split]].
        * apply (step_indirects sg); [right; apply Q; reflexivity | | exact En]. intros sg' [H | H]; [exfalso; exact (ND _ H) | apply Q; exact H].
        * rewrite Efm. exact (rn_fmts_nodup _ _ _ _ R).
        * rewrite Eu, untyped_snoc, (rn_untyped _ _ _ _ R). split; [tauto|]. intros [H | [n [_ [H _]]]]; [exact H|].
          apply (decl_of_spec p ns _ Wl) in Edec. destruct Edec as [m [F _]]. apply first_In in F. destruct F as [F0 F2]. destruct (H m F0) as [_ K]. contradiction.
      + destruct Er as [En Eu]. pose proof (proj1 (decl_of_None p ns Wl) Edec) as Edec'. clear Edec. rename Edec' into Edec. split; [|split; [exact F1|split]].
        * apply step_indirects_none; [|exact En]. intros sg [H | H]; [exact (ND _ H)|]. destruct H as [n [_ [F _]]]. apply first_In in F. destruct F as [F0 F2].
          exact (Edec n F0 F2).
        * rewrite Efm. exact (rn_fmts_nodup _ _ _ _ R).
        * rewrite Eu, untyped_snoc. destruct (is_outlined_function c) eqn:Eo.
          -- apply outlined_spec in Eo. rewrite (rn_untyped _ _ _ _ R). split; [tauto|]. intros [H | [n [H1 [_ H2]]]]; [exact H|].
             rewrite (choose_unique _ _ _ _ H1 Hc) in H2. contradiction.
          -- split; [|reflexivity]. intros _. right. exists c. split; [exact Hc|]. split; [intros m Hm; split; [exact (Edef m Hm) | exact (Edec m Hm)]|].
             intros H. apply outlined_spec in H. congruence. }
  destruct A as [[A1 [A2 A3]] [A4 [A5 A6]]]. constructor.
  - rewrite Eg. exact (rn_edges _ _ _ _ R).
  - rewrite Eg. cbn [gnodes]. rewrite !app_length, (rn_len _ _ _ _ R). reflexivity.
  - intros i nd. rewrite Eg. cbn [gnodes]. rewrite nth_snoc, (rn_len _ _ _ _ R). intros [H | [-> ->]].
    + destruct (rn_node _ _ _ _ R i nd H) as [c' [H1 H2]]. exists c'. split; [apply chosen_snoc; left; exact H1 | exact H2].
    + exists c. split; [apply chosen_snoc; right; split; [reflexivity | exact Hc] | reflexivity].
  - intros c' i. rewrite Ei, sget_sput, chosen_snoc. destruct (str_eqb_spec c c') as [<- | N].
    + split; [intros Y; injection Y as <-; right; split; [reflexivity | exact Hc]|]. intros [H | [-> _]]; [exfalso; exact (fresh_chosen c i Hin H) | reflexivity].
    + rewrite (rn_indices _ _ _ _ R). split; [tauto|]. intros [H | [_ H]]; [exact H | exfalso; apply N; exact (choose_unique _ _ _ _ Hc H)].
  - rewrite Ei. apply sput_nodup. exact (rn_ikeys _ _ _ _ R).
  - intros f c'. rewrite El, fold_sput_get. destruct (smem f ns) eqn:Ef'.
    + apply smem_In in Ef'. split.
      * intros Y. injection Y as <-. exists (length l). split; [apply live_snoc; right; split; [reflexivity | exact Ef'] | apply chosen_snoc; right; split; [reflexivity | exact Hc]].
      * intros [i [H1 H2]]. apply live_snoc in H1. destruct H1 as [H1 | [-> _]]; [exfalso; exact (fresh_live f i Ef' H1)|].
        apply chosen_snoc in H2. destruct H2 as [H2 | [_ H2]]; [exfalso; apply at_lt in H2; lia | rewrite (choose_unique _ _ _ _ Hc H2); reflexivity].
    + apply smem_false in Ef'. rewrite (rn_aliases _ _ _ _ R). split; intros [i [H1 H2]]; exists i; rewrite live_snoc, chosen_snoc in *; [tauto|].
      destruct H1 as [H1 | [_ H1]]; [|contradiction]. split; [exact H1|]. destruct H2 as [H2 | [-> _]]; [exact H2 | apply at_lt in H1; lia].
  - intros a c'. rewrite Ed, bget_bput. destruct (N.eqb_spec (fst x) a) as [<- | N].
    + split.
      * intros Y. injection Y as <-. exists (length l). split; [apply addr_snoc; right; split; reflexivity | apply chosen_snoc; right; split; [reflexivity | exact Hc]].
      * intros [i [H1 H2]]. apply addr_snoc in H1. destruct H1 as [[sym H1] | [-> _]].
        -- exfalso. cbn [pg_defined upto] in H1. apply nth_error_In in H1. apply (in_map fst) in H1. rewrite map_app in Hadr. apply nodup_app in Hadr.
           destruct Hadr as [_ [_ D]]. exact (D _ H1 (or_introl eq_refl)).
        -- apply chosen_snoc in H2. destruct H2 as [H2 | [_ H2]]; [exfalso; apply at_lt in H2; lia | rewrite (choose_unique _ _ _ _ Hc H2); reflexivity].
    + rewrite (rn_addr _ _ _ _ R). split; intros [i [H1 H2]]; exists i; rewrite addr_snoc, chosen_snoc in *; [tauto|].
      destruct H1 as [H1 | [_ H1]]; [|congruence]. split; [exact H1|]. destruct H2 as [H2 | [-> _]]; [exact H2|].
      exfalso. destruct H1 as [sym H1]. assert (L : length l < length l) by (apply nth_error_Some; cbn [pg_defined upto] in H1; rewrite H1; discriminate). lia.
  - exact A1.
  - exact A2.
  - exact A3.
  - exact A4.
  - exact A5.
  - exact A6.
  - rewrite Ef. destruct (sget (pg_sizes p) c) as [k|] eqn:Ek.
    + split; [|reflexivity]. intros _. exists (length l), c. split; [apply chosen_snoc; right; split; [reflexivity | exact Hc]|].
      exists k. apply (sget_In _ _ _ (wf_sizes _ W)). exact Ek.
    + rewrite (rn_info _ _ _ _ R). split; intros [i [c' [H1 H2]]]; exists i, c'; rewrite chosen_snoc in *; [tauto|]. split; [|exact H2].
      destruct H1 as [H1 | [_ H1]]; [exact H1|]. exfalso. rewrite <- (choose_unique _ _ _ _ Hc H1) in H2. apply sget_None in Ek. exact (Ek H2).
  - rewrite Eg, Em. cbn [gnodes]. rewrite map_app. cbn [map new_node nname].
    rewrite note_names_app, (rn_ambiguous _ _ _ _ R). cbn [bind note_names]. rewrite Ea. reflexivity.
Qed.
End Step.

Theorem real_nodes_spec demangle p s : wf_prog p -> real_nodes demangle p = Ret s -> RN demangle p (pg_defined p) s.
Proof.
  intros W. unfold real_nodes. 
  assert (G : forall l s, names_ok l -> NoDup (map fst l) -> ofold (add_real demangle p) l nodes0 = Ret s -> RN demangle p l s).
  { intros l. induction l as [|x l IH] using rev_ind; intros s0 Hn Ha E.
    - injection E as <-. apply RN_nil.
    - rewrite ofold_app in E. destruct (bind_inv _ _ _ E) as [s1 [E1 E2]]. cbn [ofold] in E2. destruct (bind_inv _ _ _ E2) as [s2 [E3 E4]].
      injection E4 as <-. apply (RN_step demangle p l x s1 s2 W Hn Ha); [|exact E3]. apply IH; [exact (names_ok_prefix _ _ Hn)| |exact E1].
      rewrite map_app in Ha. apply (nodup_app _ _ Ha). }
  apply G; [exact (wf_names _ W) | exact (wf_addrs _ W)].
Qed.
