(** Reports of programs that differ in what does not count. *)
From Coq Require Import Permutation.
From Verif Require Import M_base M_stack M_graph M_analysis M_filter M_names M_thumb M_ty M_parse M_render M_build M_run M_log L_base L_names L_build1 S_build S_noise L_log.

Lemma linked_in ss x n : In x ss -> In n (sy_names (snd x)) -> linked ss n = true.
Proof. intros I J. apply existsb_exists. exists x. split; [exact I|]. apply existsb_exists. exists n. split; [exact J | apply str_eqb_refl]. Qed.
Lemma sget_substance (k : str -> bool) (ds : list (str * define)) n : k n = true ->
  sget (map (fun x => (fst x, substance (snd x))) (filter (fun x => k (fst x)) ds)) n = option_map substance (sget ds n).
Proof.
  intros K. induction ds as [|[m d] ds IH]; [reflexivity|]. cbn [filter fst sget]. destruct (str_eqb_spec m n) as [->|N].
  - rewrite K. cbn [map fst snd sget]. rewrite str_eqb_refl. reflexivity.
  - destruct (k m); [|exact IH]. cbn [map fst snd sget]. destruct (str_eqb_spec m n); [contradiction | exact IH].
Qed.
Lemma lfold_ext {S X} (f g : S -> X -> lg S) l : (forall s x, In x l -> f s x = g s x) -> forall s, lfold f l s = lfold g l s.
Proof.
  induction l as [|x l IH]; intros H s; [reflexivity|]. cbn [lfold]. rewrite (H s x (or_introl eq_refl)). unfold lbind. destruct (g s x) as [t [a| | |]]; cbn [fst snd]; try reflexivity.
  rewrite IH; [reflexivity|]. intros s' y I. apply H. right. exact I.
Qed.
Lemma lbind_lret {A B} (x : A) (f : A -> lg B) : lbind (lret x) f = f x.
Proof. unfold lbind, lret. cbn [fst snd app]. destruct (f x); reflexivity. Qed.
Lemma lfold_filter {S X} (f : S -> X -> lg S) (k : X -> bool) l : (forall s x, In x l -> k x = false -> f s x = lret s) -> forall s, lfold f l s = lfold f (filter k l) s.
Proof.
  induction l as [|x l IH]; intros H s; [reflexivity|]. cbn [lfold filter]. assert (H' : forall s y, In y l -> k y = false -> f s y = lret s) by (intros s' y I; apply H; right; exact I).
  destruct (k x) eqn:K; [cbn [lfold]; unfold lbind; destruct (f s x) as [t [a| | |]]; cbn [fst snd]; try reflexivity; rewrite (IH H'); reflexivity|].
  rewrite (H s x (or_introl eq_refl) K), lbind_lret. exact (IH H' s).
Qed.
Lemma lfold_map {S X Y} (f : S -> Y -> lg S) (h : X -> Y) l : forall s, lfold f (map h l) s = lfold (fun s x => f s (h x)) l s.
Proof. induction l as [|x l IH]; intros s; [reflexivity|]. cbn [lfold map]. unfold lbind. destruct (f s (h x)) as [t [a| | |]]; cbn [fst snd]; try reflexivity. rewrite IH. reflexivity. Qed.

Section Noise.
Variables (demangle : str -> str) (o : orders) (p q : prog).
Hypothesis (Wp : forall n d, In (n, d) (pg_defines p) -> n = d_name d) (Wq : forall n d, In (n, d) (pg_defines q) -> n = d_name d) (Ss : same_substance eq p q).
Notation L := (linked (pg_defined p)).

Lemma def_sub n : L n = true -> option_map substance (sget (pg_defines q) n) = option_map substance (sget (pg_defines p) n).
Proof. intros K. rewrite <- !(sget_substance L _ _ K). f_equal. symmetry. exact (ss_defines _ _ _ Ss). Qed.
Lemma def_of_sub ns : (forall n, In n ns -> L n = true) -> option_map d_sig (def_of (pg_defines q) ns) = option_map d_sig (def_of (pg_defines p) ns).
Proof.
  unfold def_of, first_some. induction ns as [|n ns IH]; intros K; [reflexivity|]. cbn [map somes]. pose proof (def_sub n (K n (or_introl eq_refl))) as E.
  destruct (sget (pg_defines q) n) as [d|], (sget (pg_defines p) n) as [d'|]; try discriminate E; cbn [somes].
  - injection E as _ E _. cbn [option_map]. f_equal. exact E.
  - apply IH. intros m I. apply K. right. exact I.
Qed.
Lemma decl_of_sub ns : (forall n, In n ns -> L n = true) -> decl_of (pg_declares q) ns = decl_of (pg_declares p) ns.
Proof.
  intros K. unfold decl_of. f_equal. apply map_ext_in. intros n I. rewrite (ss_declares _ _ _ Ss n (K n I)). reflexivity.
Qed.
Lemma untagged_in s n : In n (untagged s) -> In n (sy_names s).
Proof. intros I. apply filter_In in I. exact (proj1 I). Qed.
Lemma add_real_sub s x : In x (pg_defined p) -> add_real_log demangle q s x = add_real_log demangle p s x.
Proof.
  intros I. assert (K : forall n, In n (untagged (snd x)) -> L n = true) by (intros n J; exact (linked_in _ _ _ I (untagged_in _ _ J))).
  unfold add_real_log. rewrite (ss_sizes _ _ _ Ss), (ss_target _ _ _ Ss), (decl_of_sub _ K). pose proof (def_of_sub _ K) as E.
  destruct (def_of (pg_defines q) (untagged (snd x))) as [d|], (def_of (pg_defines p) (untagged (snd x))) as [d'|]; try discriminate E; [|reflexivity]. injection E as ->. reflexivity.
Qed.
Lemma real_nodes_sub : real_nodes_log demangle q = real_nodes_log demangle p.
Proof. unfold real_nodes_log. rewrite (ss_defined _ _ _ Ss). apply lfold_ext. intros s x I. apply add_real_sub. exact I. Qed.

Lemma aliases_linked n : real_nodes demangle p = Ret n -> forall f c, sget (n_aliases n) f = Some c -> L f = true.
Proof.
  unfold real_nodes. assert (G : forall l s, (forall x, In x l -> In x (pg_defined p)) -> (forall f c, sget (n_aliases s) f = Some c -> L f = true) ->
    ofold (add_real demangle p) l s = Ret n -> forall f c, sget (n_aliases n) f = Some c -> L f = true).
  { induction l as [|x l IH]; intros s Hl Hs E; [cbn [ofold] in E; injection E as <-; exact Hs|]. cbn [ofold] in E. destruct (add_real demangle p s x) as [s'| | |] eqn:A; try discriminate E. cbn [bind] in E.
    apply (IH s'); [intros y I; apply Hl; right; exact I | | exact E].
    assert (Ea : exists c, n_aliases s' = fold_left (fun m n => sput m n c) (untagged (snd x)) (n_aliases s)).
    { unfold add_real in A. cbv zeta in A. destruct (canonical (pg_sizes p) (untagged (snd x))) as [c| | |]; try discriminate A. cbn [bind] in A. exists c.
      destruct (note_name _ _ _) as [am| | |]; try discriminate A. cbn [bind add_node] in A. destruct (def_of _ _); [injection A as <-; reflexivity|]. destruct (decl_of _ _); injection A as <-; reflexivity. }
    destruct Ea as [c ->]. assert (H : forall ns m, (forall n, In n ns -> L n = true) -> (forall f c, sget m f = Some c -> L f = true) -> forall f c', sget (fold_left (fun m n => sput m n c) ns m) f = Some c' -> L f = true).
    { induction ns as [|k ns IHn]; intros m Hn Hm f c' F; [exact (Hm f c' F)|]. cbn [fold_left] in F. apply (IHn (sput m k c)) with c'; [intros a I; apply Hn; right; exact I | | exact F].
      intros f' c'' F'. rewrite sget_sput in F'. destruct (str_eqb_spec k f') as [<-|_]; [apply Hn; left; reflexivity | exact (Hm _ _ F')]. }
    apply H; [|exact Hs]. intros k J. exact (linked_in _ _ _ (Hl x (or_introl eq_refl)) (untagged_in _ _ J)). }
  apply G; [intros x I; exact I | intros f c F; discriminate F].
Qed.
Lemma stmt_sub al c i x st : exec_stmt_log q al c i x st = exec_stmt_log p al c i x st.
Proof. unfold exec_stmt_log, exec_stmt. rewrite (ss_target _ _ _ Ss), (ss_undefined _ _ _ Ss). reflexivity. Qed.
Lemma noise_skip r al c i x st : counts st = false -> exec_stmt_log r al c i x st = lret x.
Proof. destruct x as [s k], st; intros E; try discriminate E; reflexivity. Qed.
Lemma define_sub al x d d' : substance d = substance d' -> exec_define_log q al x d = exec_define_log p al x d'.
Proof.
  intros E. injection E as En _ Es. destruct x as [s k]. unfold exec_define_log. rewrite En. destruct (sget al (d_name d')) as [c|]; [|reflexivity]. cbv zeta.
  destruct (sget _ c) as [i|]; [|reflexivity]. rewrite (lfold_filter _ counts (d_stmts d)) by (intros s' st _ K; apply noise_skip; exact K). rewrite (lfold_filter _ counts (d_stmts d')) by (intros s' st _ K; apply noise_skip; exact K).
  rewrite Es. apply lfold_ext. intros s' st _. apply stmt_sub.
Qed.
Lemma defs_sub al : forall l l', map (fun x => (fst x, substance (snd x))) l = map (fun x : str * define => (fst x, substance (snd x))) l' ->
  forall x, lfold (fun s y => exec_define_log q al s (snd y)) l' x = lfold (fun s y => exec_define_log p al s (snd y)) l x.
Proof.
  induction l as [|[n d] l IH]; intros [|[n' d'] l'] E x; try discriminate E; [reflexivity|]. cbn [map fst snd] in E. injection E as _ E1 E2 E3 E. cbn [lfold fst snd].
  rewrite (define_sub al x d' d) by (unfold substance; congruence). unfold lbind. destruct (exec_define_log p al x d) as [t [a| | |]]; cbn [fst snd]; try reflexivity. rewrite (IH l' E). reflexivity.
Qed.
Lemma skipped (r : prog) al : (forall n d, In (n, d) (pg_defines r) -> n = d_name d) -> (forall f c, sget al f = Some c -> L f = true) -> forall x,
  lfold (exec_define_log r al) (map snd (pg_defines r)) x = lfold (fun s y => exec_define_log r al s (snd y)) (filter (fun y => L (fst y)) (pg_defines r)) x.
Proof.
  intros Wr Ha x. rewrite lfold_map. apply lfold_filter. intros [s k] [n d] I K. cbn [fst snd] in *. unfold exec_define_log. rewrite <- (Wr n d I).
  destruct (sget al n) as [c|] eqn:E; [rewrite (Ha n c E) in K; discriminate K | reflexivity].
Qed.
Lemma ir_sub n : real_nodes demangle p = Ret n -> ir_edges_log q n = ir_edges_log p n.
Proof.
  intros R. pose proof (aliases_linked n R) as Ha. unfold ir_edges_log. rewrite (skipped p _ Wp Ha), (skipped q _ Wq Ha). rewrite (defs_sub _ _ _ (ss_defines _ _ _ Ss)). reflexivity.
Qed.
Lemma machine_sub n e : machine_edges_log q n e = machine_edges_log p n e.
Proof.
  destruct Ss as [T _ D U G X _ _]. unfold machine_edges_log. rewrite T, X, D. destruct (is_thumb _); [|reflexivity]. destruct (pg_text p) as [[a t]|]; [|reflexivity].
  erewrite lfold_ext; [reflexivity|]. intros s x _. unfold exec_code_log. rewrite T, G. reflexivity.
Qed.
Lemma early_sub : early_log demangle q = early_log demangle p.
Proof.
  unfold early_log. destruct (default_methods_total demangle (map fst (pg_defines p))) as [a ->], (default_methods_total demangle (map fst (pg_defines q))) as [b ->].
  change (quiet (Ret a)) with (lret a). change (quiet (Ret b)) with (lret b). rewrite !lbind_lret, real_nodes_sub.
  pose proof (real_erase demangle p) as R. destruct (real_nodes_log demangle p) as [t r]. cbn [snd] in R. unfold lbind. cbn [fst snd]. destruct r as [n| | |]; try reflexivity. rewrite (ir_sub n (eq_sym R)). reflexivity.
Qed.
Lemma build_sub : build_log demangle o q = build_log demangle o p.
Proof.
  unfold build_log. destruct (default_methods_total demangle (map fst (pg_defines p))) as [a ->], (default_methods_total demangle (map fst (pg_defines q))) as [b ->].
  change (quiet (Ret a)) with (lret a). change (quiet (Ret b)) with (lret b). rewrite !lbind_lret, real_nodes_sub.
  pose proof (real_erase demangle p) as R. destruct (real_nodes_log demangle p) as [t r]. cbn [snd] in R. unfold lbind at 1 5. cbn [fst snd]. destruct r as [n| | |]; try reflexivity. rewrite (ir_sub n (eq_sym R)).
  destruct (ir_edges_log p n) as [t' [e| | |]]; try reflexivity. unfold lbind at 1 4. cbn [fst snd]. rewrite machine_sub. reflexivity.
Qed.
Theorem report_sub start : report_log demangle o start q = report_log demangle o start p.
Proof. unfold report_log. rewrite build_sub. reflexivity. Qed.
End Noise.
