(** Debug and release builds: the report. *)
From Coq Require Import Sorted.
From Verif Require Import M_base M_stack M_graph M_analysis M_filter M_names M_thumb M_ty M_parse M_render M_build M_run M_debug S_graph S_filter S_build S_run S_debug
  L_base L_filter2 L_build1 L_build5 L_build6 L_run L_debug1 L_debug2 L_debug3.

(** * The assertion of main.rs 495 *)
Lemma add_real_addrs demangle p s x s' : add_real demangle p s x = Ret s' -> exists c, n_addr2name s' = bput (n_addr2name s) (fst x) c.
Proof.
  unfold add_real. intros H. apply bind_inv in H. destruct H as [c [_ H]]. apply bind_inv in H. destruct H as [amb [_ H]]. exists c.
  destruct (add_node _ _) as [g idx]. destruct (def_of _ _); [injection H as <-; reflexivity|]. destruct (decl_of _ _); injection H as <-; reflexivity.
Qed.
Lemma add_real_d_ok demangle p s x : bget (n_addr2name s) (fst x) = None -> add_real_d demangle p s x = add_real demangle p s x.
Proof.
  intros E. unfold add_real_d. rewrite E. destruct (canonical (pg_sizes p) (untagged (snd x))) eqn:C; cbn [bind]; [reflexivity|..]; unfold add_real; rewrite C; reflexivity.
Qed.
Lemma real_fold demangle p l : forall s, NoDup (map fst l) -> (forall a, In a (map fst l) -> bget (n_addr2name s) a = None) ->
  ofold (add_real_d demangle p) l s = ofold (add_real demangle p) l s.
Proof.
  induction l as [|x l IH]; intros s ND F; cbn [ofold]; [reflexivity|]. cbn [map] in ND. inversion ND as [|? ? Nx ND']; subst.
  rewrite add_real_d_ok by (apply F; now left). destruct (add_real demangle p s x) as [s'| | |] eqn:E; cbn [bind]; try reflexivity.
  destruct (add_real_addrs _ _ _ _ _ E) as [c Ea]. apply IH; [exact ND'|]. intros a I. rewrite Ea, bget_bput.
  destruct (N.eqb_spec (fst x) a) as [<-|D]; [contradiction | apply F; now right].
Qed.
Lemma real_nodes_d_ok demangle p : NoDup (map fst (pg_defined p)) -> real_nodes_d demangle p = real_nodes demangle p.
Proof. intros ND. unfold real_nodes_d, real_nodes. apply real_fold; [exact ND | reflexivity]. Qed.

(** * The graph *)
Lemma so_build demangle o p : NoDup (map fst (pg_defined p)) -> proper_tags (pg_tags p) -> build_d demangle o p <~ build demangle o p.
Proof.
  intros ND T. unfold build_d, build. rewrite (real_nodes_d_ok _ _ ND). do 3 (apply so_bind_same; intros ? _). apply so_bind; [now apply so_machine|]. intros g _. apply so_refl.
Qed.
Lemma build_d_iff demangle o p b : NoDup (map fst (pg_defined p)) -> proper_tags (pg_tags p) -> text_fits p ->
  build_d demangle o p = Ret b <-> build demangle o p = Ret b /\ no_crossing p.
Proof.
  intros ND T Tx. unfold build_d, build. rewrite (real_nodes_d_ok _ _ ND). apply bind_and. intros dm _. apply bind_and. intros n _. apply bind_and. intros e _. split.
  - intros H. apply bind_Ret in H. destruct H as [g [H1 H2]]. apply machine_iff in H1; [|exact T | exact Tx]. destruct H1 as [H1 Nc]. rewrite H1. split; [exact H2 | exact Nc].
  - intros [H Nc]. apply bind_Ret in H. destruct H as [g [H1 H2]]. rewrite (proj2 (machine_iff p n e g T Tx) (conj H1 Nc)). exact H2.
Qed.
Lemma keeps_build demangle o p : NoDup (map fst (pg_defined p)) -> proper_tags (pg_tags p) -> low_text p -> keeps (build_d demangle o p) (build demangle o p).
Proof. intros ND T Low b E. apply (build_d_iff demangle o p b ND T (low_fits p Low)). split; [exact E | exact (low_crossing p T Low)]. Qed.

(** * The report *)
Section Report.
Variables (demangle : str -> str) (o : orders) (p : prog) (b : built) (start : option str) (g : graph node).
Hypothesis (W : wf_prog p) (Fo : fair o) (E : build demangle o p = Ret b) (Ef : filter_start demangle (b_indices b) start (b_g b) = Ret g).
Lemma filtered_ready : wf_graph g /\ fresh g /\ (fits p -> (sum_known g < two64)%N).
Proof.
  destruct (build_spec demangle o p b W Fo E) as [ks [void [G [_ [_ [Hi _]]]]]]. pose proof (graph_wf p ks void _ G) as Wg.
  assert (No : fresh (b_g b)).
  { intros nd I. apply In_nth_error in I. destruct I as [k I]. destruct (key_at _ _ _ _ G _ _ I) as [x [_ X]]. inversion X; reflexivity. }
  destruct (filtered demangle o p b W E start ks void g G Hi Ef) as [[-> _] | [s [i0 [ids [_ [_ R]]]]]].
  - split; [exact Wg|]. split; [exact No|]. exact (fits_sum p ks void _ G).
  - split; [exact (rs_wf _ _ _ _ R)|]. split.
    + intros nd I. apply In_nth_error in I. destruct I as [k I].
      destruct (nth_error ids k) as [v|] eqn:Ev; [rewrite (rs_nodes _ _ _ _ R k v Ev) in I; apply No; exact (nth_error_In _ _ I)|]. apply nth_error_None in Ev. rewrite (rs_count _ _ _ _ R) in Ev.
      assert (k < node_count g) by (apply nth_error_Some; rewrite I; discriminate). lia.
    + intros Fi. pose proof (fits_sum p ks void _ G Fi). pose proof (rs_sum (b_g b) g i0 ids R). lia.
Qed.
End Report.
Lemma so_report demangle o start p : wf_prog p -> fair o -> proper_tags (pg_tags p) -> report_d demangle o start p <~ report demangle o start p.
Proof.
  intros W Fo T. unfold report_d, report. apply so_bind; [apply so_build; [exact (wf_addrs p W) | exact T]|]. intros b E. unfold finish_d, finish.
  apply so_bind_same. intros g Ef. destruct (filtered_ready demangle o p b start g W Fo E Ef) as [Wg [Fr _]].
  apply so_bind; [now apply so_max_stack|]. intros [g' cs] _. apply so_refl.
Qed.
Lemma keeps_report demangle o start p : wf_prog p -> fair o -> proper_tags (pg_tags p) -> low_text p -> fits p -> keeps (report_d demangle o start p) (report demangle o start p).
Proof.
  intros W Fo T Low Fi. unfold report_d, report. apply keeps_bind; [apply keeps_build; [exact (wf_addrs p W) | exact T | exact Low]|]. intros b E. unfold finish_d, finish.
  apply keeps_same. intros g Ef. destruct (filtered_ready demangle o p b start g W Fo E Ef) as [Wg [Fr Su]].
  rewrite (max_stack_ok g Wg (fun v _ => L_analysis.sum_below g v Wg (Su Fi)) (b_info b) Fr). apply keeps_refl.
Qed.
Lemma so_output demangle o start f p : wf_prog p -> fair o -> proper_tags (pg_tags p) -> output_d demangle o start f p <~ output demangle o start f p.
Proof. intros W Fo T. unfold output_d, output. apply so_bind; [now apply so_report|]. intros [g cs] _. apply so_refl. Qed.
Lemma same_output demangle o start f p t : wf_prog p -> fair o -> proper_tags (pg_tags p) -> low_text p -> fits p ->
  output_d demangle o start f p = Ret t <-> output demangle o start f p = Ret t.
Proof.
  intros W Fo T Low Fi. split.
  - intros H. destruct (so_output demangle o start f p W Fo T) as [E|[m [E _]]]; congruence.
  - apply keeps_bind; [now apply keeps_report|]. intros [g cs] _. apply keeps_refl.
Qed.
