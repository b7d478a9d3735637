(** When debug and release builds agree. *)
From Verif Require Import M_base M_stack M_graph M_analysis M_filter M_names M_thumb M_ty M_parse M_render M_build M_run M_debug L_driver3 L_filter2 S_graph S_filter S_build S_run S_debug
  L_base L_trav L_kosaraju L_topo L_charge L_analysis L_maxprops L_build1 L_build5 L_build6 L_build8 L_u64 L_run L_report L_run2 L_debug1 L_debug2 L_debug3 L_debug4 L_debug5 L_debug6 X_build X_machine.

Lemma shortened_max demangle m g g' : shorten demangle m g = Ret g' -> map nmax (gnodes g') = map nmax (gnodes g).
Proof.
  unfold shorten. intros R1. apply bind_Ret in R1. destruct R1 as [nds' [R3 R4]]. injection R4 as <-. pose proof (shorten_nodes_max _ _ _ _ R3) as Sh. cbn [gnodes]. clear R3.
  induction Sh as [|a c l l' [S1 _] S IH]; [reflexivity | cbn; rewrite S1, IH; reflexivity].
Qed.
Lemma reported_map g v m : reported g v m <-> nth_error (map nmax (gnodes g)) v = Some (Some m).
Proof.
  rewrite nth_error_map. split.
  - intros [nd [A B]]. rewrite A. cbn. now rewrite B.
  - destruct (nth_error (gnodes g) v) as [nd|] eqn:A; [|discriminate]. cbn. intros B. injection B as B. exists nd. split; [exact A | exact B].
Qed.
Lemma report_d_iff demangle o start p g cs : wf_prog p -> fair o -> proper_tags (pg_tags p) -> sizes_u64 p -> text_fits p ->
  report_d demangle o start p = Ret (g, cs) <-> report demangle o start p = Ret (g, cs) /\ no_crossing p /\ forall v m, reported g v m -> below_2_64 g v.
Proof.
  intros W Fo T Sz Tx. unfold report_d, report.
  assert (F : forall b, build demangle o p = Ret b -> finish_d demangle start b = Ret (g, cs) <-> finish demangle start b = Ret (g, cs) /\ forall v m, reported g v m -> below_2_64 g v).
  { intros b E. unfold finish_d, finish. apply bind_and. intros g2 Hf. destruct (filtered_ready demangle o p b start g2 W Fo E Hf) as [Wg [Fr _]].
    pose proof (filtered_u64 demangle o start p b g2 W Fo Sz E Hf) as U.
    assert (Al : forall x, max_stack (b_info b) g2 = Ret x -> bind (shorten demangle (b_ambiguous b) (fst x)) (fun g => Ret (g, snd x)) = Ret (g, cs) -> alike g2 g).
    { intros [g3 cs3] M S. apply (finish_alike demangle start b g2 g cs Wg Hf). unfold finish. rewrite Hf. cbn [bind]. rewrite M. exact S. }
    destruct (b_info b) eqn:Bi.
    - split.
      + intros H. apply bind_Ret in H. destruct H as [[g3 cs3] [H1 H2]]. apply (max_stack_d_iff g2 Wg U) in H1; [|exact Fr]. destruct H1 as [H1 Be]. rewrite H1. split; [exact H2|].
        specialize (Al _ H1 H2). intros v m R. apply (alike_below _ _ _ Al). apply Be. rewrite (alike_count _ _ Al). eapply reported_lt. exact R.
      + intros [H Be]. apply bind_Ret in H. destruct H as [[g3 cs3] [H1 H2]]. specialize (Al _ H1 H2).
        assert (H3 : max_stack_d true g2 = Ret (g3, cs3)); [|rewrite H3; exact H2]. apply (max_stack_d_iff g2 Wg U); [exact Fr|]. split; [exact H1|]. intros v Hv.
        apply (alike_below _ _ _ Al). destruct (all_reported g2 Wg) as [g4 [cs4 [X1 [_ [_ X]]]]]. rewrite H1 in X1. injection X1 as <- <-. destruct (X v Hv) as [m Rm]. apply (Be v m).
        apply bind_Ret in H2. destruct H2 as [g5 [S1 S2]]. injection S2 as -> _. apply reported_map. rewrite (shortened_max _ _ _ _ S1). now apply reported_map.
    - cbn [max_stack_d max_stack negb bind]. split; [|intros [H _]; exact H]. intros H. split; [exact H|]. intros v m R. exfalso.
      apply bind_Ret in H. destruct H as [g5 [S1 S2]]. injection S2 as -> _. apply reported_map in R. rewrite (shortened_max _ _ _ _ S1) in R. apply reported_map in R. destruct R as [nd [A B]].
      rewrite (Fr nd (nth_error_In _ _ A)) in B. discriminate B. }
  split.
  - intros H. apply bind_Ret in H. destruct H as [b [H1 H2]]. apply build_d_iff in H1; [|exact (wf_addrs p W) | exact T | exact Tx]. destruct H1 as [E Nc]. apply (F b E) in H2. destruct H2 as [H2 Be].
    rewrite E. split; [exact H2|]. split; [exact Nc | exact Be].
  - intros [H [Nc Be]]. apply bind_Ret in H. destruct H as [b [E H2]]. rewrite (proj2 (build_d_iff demangle o p b (wf_addrs p W) T Tx) (conj E Nc)). cbn [bind]. apply (F b E). split; [exact H2 | exact Be].
Qed.
Lemma output_d_iff demangle o start f p t : wf_prog p -> fair o -> proper_tags (pg_tags p) -> sizes_u64 p -> text_fits p ->
  output_d demangle o start f p = Ret t <-> output demangle o start f p = Ret t /\ no_crossing p /\
    forall g cs, report demangle o start p = Ret (g, cs) -> forall v m, reported g v m -> below_2_64 g v.
Proof.
  intros W Fo T Sz Tx. unfold output_d, output. split.
  - intros H. apply bind_Ret in H. destruct H as [[g cs] [H1 H2]]. apply report_d_iff in H1; [|assumption ..]. destruct H1 as [R [Nc Be]]. rewrite R. split; [exact H2|]. split; [exact Nc|].
    intros g' cs' R'. injection R' as <- <-. exact Be.
  - intros [H [Nc Be]]. apply bind_Ret in H. destruct H as [[g cs] [R H2]]. assert (D : report_d demangle o start p = Ret (g, cs)) by (apply report_d_iff; [assumption ..|]; split; [exact R | split; [exact Nc | exact (Be g cs R)]]).
    rewrite D. exact H2.
Qed.

(** * Code in the upper half of the address space, and code on both sides of the middle *)
Definition up : N := 2147483648.
Definition up_p : prog := mkProg Thumbv7m [] [] []
  [(up, mkSym [lit "f"] 4); (up + 4, mkSym [lit "g"] 2)]%N [] [(up, TThumb)]
  (Some (up, map ascii_of_N [0; 224; 0; 191; 112; 71]%N)).
Lemma up_wf : wf_prog up_p. Proof. apply wf_progb_sound. vm_compute. reflexivity. Qed.
Lemma up_tags : proper_tags (pg_tags up_p).
Proof. constructor; [repeat constructor|]. intros a x [E|[]]. injection E as <- <-. reflexivity. Qed.
Lemma up_sizes : sizes_u64 up_p.
Proof. intros n k []. Qed.
Lemma up_fits : text_fits up_p.
Proof. intros stext text E. injection E as <- <-. vm_compute. split; [reflexivity | discriminate]. Qed.
Lemma up_reports : exists g cs, report_d idd o_id None up_p = Ret (g, cs) /\ gedges g = [(0, 1)].
Proof. do 2 eexists. split; [vm_compute; reflexivity | reflexivity]. Qed.
Lemma up_ok : wf_prog up_p /\ fair o_id /\ proper_tags (pg_tags up_p) /\ sizes_u64 up_p /\ text_fits up_p /\ ~ low_text up_p /\ no_crossing up_p /\
  exists g cs, report_d idd o_id None up_p = Ret (g, cs) /\ gedges g = [(0, 1)].
Proof.
  split; [exact up_wf|]. split; [exact o_id_fair|]. split; [exact up_tags|]. split; [exact up_sizes|]. split; [exact up_fits|]. split.
  - intros L. specialize (L _ _ eq_refl). vm_compute in L. exact (L eq_refl).
  - destruct up_reports as [g [cs [R Ed]]]. split; [|exists g, cs; exact (conj R Ed)].
    apply (report_d_iff idd o_id None up_p g cs up_wf o_id_fair up_tags up_sizes up_fits) in R. exact (proj1 (proj2 R)).
Qed.
Lemma high_text : text_fits high_p.
Proof. intros stext text E. injection E as <- <-. vm_compute. split; [reflexivity | discriminate]. Qed.
Lemma high_sizes : sizes_u64 high_p.
Proof. intros n k []. Qed.
Lemma high_crosses : text_fits high_p /\ sizes_u64 high_p /\ ~ no_crossing high_p /\ (exists g cs, report idd o_id None high_p = Ret (g, cs)).
Proof.
  split; [exact high_text|]. split; [exact high_sizes|]. split.
  - intros Nc. destruct high_differs as [W [Fo [T [Fi [[g [cs [R _]]] D]]]]].
    assert (K : report_d idd o_id None high_p = Ret (g, cs)); [|rewrite D in K; discriminate K].
    unfold report_d. destruct (build idd o_id high_p) as [b| | |] eqn:E; try (unfold report in R; rewrite E in R; discriminate R).
    rewrite (proj2 (build_d_iff idd o_id high_p b (wf_addrs _ W) T high_text) (conj E Nc)). cbn [bind]. unfold report in R. rewrite E in R. cbn [bind] in R.
    vm_compute in E. injection E as <-. vm_compute in R. rewrite <- R. vm_compute. reflexivity.
  - destruct high_release as [g [cs [R _]]]. exists g, cs. exact R.
Qed.
