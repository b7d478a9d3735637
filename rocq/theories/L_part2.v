(** Reports below a start point, for whole runs: lemmas for C98. *)
From Coq Require Import Permutation.
From Verif Require Import L_driver3 L_filter2.
From Verif Require Import M_base M_stack M_graph M_analysis M_filter M_names M_thumb M_ty M_parse M_render M_write M_build M_run M_log M_wrapper M_driver S_graph S_filter S_render S_build S_run S_driver S_same S_part.
From Verif Require Import L_base L_render L_log L_build1 L_build5 L_run L_driver1 L_driver2 L_write L_driver3 L_driver4 L_driver5 L_part.

Lemma start_dec demangle o p g cs s : wf_prog p -> fair o -> report demangle o None p = Ret (g, cs) -> (exists k, denotes demangle p s k) \/ no_start demangle p (Some s).
Proof.
  intros W Fo Rp. unfold report in Rp. destruct (bind_inv _ _ _ Rp) as [b [E H]]. destruct (build_spec _ _ _ _ W Fo E) as [ks [void [G [_ [_ [Hi _]]]]]].
  destruct (resolve_start demangle (b_indices b) s) as [i0|] eqn:Rs.
  - left. destruct (proj1 (resolve_denotes demangle o p b W Fo E ks void G Hi s i0) Rs) as [k [K _]]. exists k. exact K.
  - right. intros s' k X. injection X as <-. exact (proj1 (resolve_none demangle o p b W Fo E ks void G Hi s) Rs k).
Qed.

Section Runs.
Variables (demangle : str -> str) (w : world) (s : str).
Hypotheses (Sw : sane w) (Nf : forall k, w_fault w k = None).
Local Notation w1 := (started None w).
Local Notation w2 := (started (Some s) w).
Local Notation text g cs := (text_in (a_format (w_args w)) demangle g cs).
Definition reported_by (x y : io Z) : Prop := exists pre l l' target file rlib ll p g cs, load w target file rlib ll = Ret p /\
  report demangle (w_orders w) None p = Ret (g, cs) /\ x = (pre ++ map ELog l ++ [EOut (text g cs)], Ret 0%Z) /\
  forall g' cs', report demangle (w_orders w) (Some s) p = Ret (g', cs') -> y = (pre ++ map ELog l' ++ [EOut (text g' cs')], Ret 0%Z).
Definition keeps (x y : io Z) : Prop := forall t, x = (t, Ret 0%Z) -> reported_by x y.
Lemma keeps_bind {A} (x : io A) k1 k2 : (forall a, snd x = Ret a -> keeps (k1 a) (k2 a)) -> keeps (ibind x k1) (ibind x k2).
Proof.
  intros H t E. unfold ibind in *. destruct x as [tx [a|m|m|]]; cbn [fst snd] in *; try discriminate E. injection E as Et Er.
  assert (Ek : k1 a = (fst (k1 a), Ret 0%Z)) by (rewrite <- Er; destruct (k1 a); reflexivity).
  destruct (H a eq_refl _ Ek) as [pre [l [l' [target [file [rlib [ll [p [g [cs [L [R [E1 E2]]]]]]]]]]]]].
  exists (tx ++ pre), l, l', target, file, rlib, ll, p, g, cs. split; [exact L|]. split; [exact R|]. split; [rewrite E1; cbn [fst snd]; rewrite app_assoc; reflexivity|].
  intros g' cs' R'. rewrite (E2 g' cs' R'). cbn [fst snd]. rewrite app_assoc. reflexivity.
Qed.
Lemma archive_started x ms : archive_sizes (started x w) ms = archive_sizes w ms.
Proof. induction ms as [|m ms IH]; [reflexivity|]. cbn [archive_sizes]. rewrite IH. reflexivity. Qed.
Lemma load_files_started x target file rlib ll : load_files (started x w) target file rlib ll = load_files w target file rlib ll.
Proof.
  unfold load_files. cbv zeta. apply bind_ext. intros path. apply bind_ext. intros elf. apply bind_ext. intros dir. apply bind_ext. intros [[name t]|]; [|reflexivity].
  do 6 (apply bind_ext; intros ?). apply bind_ext; intros ms. rewrite archive_started. reflexivity.
Qed.
Lemma loading_started x target file rlib ll : loading demangle (started x w) target file rlib ll = loading demangle w target file rlib ll.
Proof. unfold loading. rewrite load_files_started. reflexivity. Qed.
Lemma touch_started x : touch (started x w) = touch w.
Proof.
  assert (H : forall l, touch_first (started x w) l = touch_first w l) by (induction l as [|e l IH]; [reflexivity|]; cbn [touch_first]; rewrite IH; reflexivity).
  unfold touch. rewrite H. reflexivity.
Qed.
Lemma emit_started x g cs : emit (write_output (started x w) demangle g cs) = ([EOut (text g cs)], Ret tt).
Proof.
  unfold write_output, text_in. cbn [started w_args a_format]. destruct (a_format (w_args w)).
  - apply (emit_says (w_fault w) _ _ _ None (says_dot _ demangle g cs)). apply received_all. split; [reflexivity | intros k _; apply Nf].
  - apply (emit_says (w_fault w) _ _ _ None (says_top _ demangle g)). apply received_all. split; [reflexivity | intros k _; apply Nf].
Qed.
Lemma no_keeps x y : (forall t, x <> (t, Ret 0%Z)) -> keeps x y.
Proof. intros H t E. destruct (H t E). Qed.
Lemma analyse_keeps target file paths : keeps (analyse demangle w1 target file paths) (analyse demangle w2 target file paths).
Proof.
  unfold analyse. destruct paths as [[rlib|] [ll|]]; [|apply no_keeps; intros t E; discriminate E..]. rewrite !loading_started. apply keeps_bind. intros p L. apply loading_inv in L.
  rewrite (log_parts demangle w1 p), (log_parts demangle w2 p). change (w_orders w1) with (w_orders w). change (w_orders w2) with (w_orders w). change (a_start (w_args w1)) with (@None str). change (a_start (w_args w2)) with (Some s).
  intros t E. destruct (report demangle (w_orders w) None p) as [[g cs]| | |] eqn:R; try discriminate E. exists [], (fst (report_log demangle (w_orders w) None p)), (fst (report_log demangle (w_orders w) (Some s) p)), target, file, rlib, ll, p, g, cs.
  split; [exact L|]. split; [exact R|]. split; [unfold ibind; cbn [fst snd]; rewrite emit_started; cbn [fst snd app]; reflexivity|].
  intros g' cs' R'. rewrite R'. unfold ibind. cbn [fst snd]. rewrite emit_started. cbn [fst snd app]. reflexivity.
Qed.
Lemma run_keeps : keeps (run demangle w1) (run demangle w2).
Proof.
  unfold run. change (w_wrapper w1) with (w_wrapper w). change (w_wrapper w2) with (w_wrapper w). rewrite (sane_user _ Sw). apply keeps_bind. intros _ _. change (w_hash w1) with (w_hash w). change (w_hash w2) with (w_hash w). change (w_override w1) with (w_override w). change (w_override w2) with (w_override w).
  destruct (_ && _)%bool; [apply no_keeps; intros t E; discriminate E|]. cbv zeta. change (pick_file (w_args w1)) with (pick_file (w_args w)). change (pick_file (w_args w2)) with (pick_file (w_args w)).
  apply keeps_bind. intros file _. apply keeps_bind. intros config _. apply keeps_bind. intros _ _. apply keeps_bind. intros cfg _. apply keeps_bind. intros exe _. rewrite !touch_started. apply keeps_bind. intros _ _. apply keeps_bind. intros _ _.
  unfold build_and_analyse. apply keeps_bind. intros _ _. apply keeps_bind. intros child _. apply keeps_bind. intros paths _. destruct (snd child) as [[|z|z]|]; [apply analyse_keeps | apply no_keeps; intros t E; discriminate E..].
Qed.
Theorem run_part t : main demangle w1 = (t, 0%Z) ->
  exists target file rlib ll p g cs, analyses w target file rlib ll p /\ printed t = [text g cs] /\
  (sizes_u64 p -> exists t' g' cs', main demangle w2 = (t', 0%Z) /\ deeds t' = deeds t /\ printed t' = [text g' cs'] /\
    (no_start demangle p (Some s) -> g' = g /\ cs' = cs) /\
    (forall k, denotes demangle p s k -> exists ids v nd, restricted g v g' ids /\ nth_error (gnodes g) v = Some nd /\ shows demangle p k nd /\ groups_below ids cs cs')).
Proof.
  intros M. assert (Sf : sane w1) by (destruct Sw; constructor; assumption). assert (Er : run demangle w1 = (t, Ret 0%Z)) by (unfold main in M; destruct (run demangle w1) as [t0 [z|m|m|]]; try discriminate M; injection M as -> ->; reflexivity).
  destruct (run_keeps t Er) as [pre [l [l' [target [file [rlib [ll [p [g [cs [L [R [E1 E2]]]]]]]]]]]]]. rewrite Er in E1. injection E1 as ->. destruct (loaded w target file rlib ll p Sw L) as [Wp An].
  assert (Pp : printed (pre ++ map ELog l) = []).
  { rewrite app_assoc in M. destruct (proj1 (proj2 (c60 demangle w1 _ 0%Z (sane_user _ Sf) M))) as [P|[a [b [d [Et [Pa Q]]]]]].
    + rewrite printed_app in P. cbn in P. destruct (printed (pre ++ map ELog l)); discriminate P.
    + destruct Q as [->|[m ->]].
      * apply app_inj_tail in Et. destruct Et as [-> _]. exact Pa.
      * exfalso. change (EOut b :: [EErr m]) with ([EOut b] ++ [EErr m]) in Et. rewrite app_assoc in Et. apply app_inj_tail in Et. destruct Et as [_ Et]. discriminate Et. }
  exists target, file, rlib, ll, p, g, cs. split; [exact An|]. split; [rewrite app_assoc, printed_app, Pp; reflexivity|]. intros Sz. rewrite printed_app in Pp. apply app_eq_nil in Pp. destruct Pp as [Pp _].
  pose proof (sane_orders _ Sw) as Fo.
  assert (Fin : forall g' cs', report demangle (w_orders w) (Some s) p = Ret (g', cs') -> exists t', main demangle w2 = (t', 0%Z) /\ deeds t' = deeds (pre ++ map ELog l ++ [EOut (text g cs)]) /\ printed t' = [text g' cs']).
  { intros g' cs' R'. eexists. unfold main. rewrite (E2 g' cs' R'). split; [reflexivity|]. split.
    - unfold deeds. rewrite !filter_app. f_equal. assert (Q : forall (ms : list message), filter (fun e => match e with ELog _ | EOut _ => false | _ => true end) (map ELog ms) = []) by (induction ms; [reflexivity | assumption]). rewrite !Q. reflexivity.
    - rewrite !printed_app, Pp, (proj1 (proj2 (logs_silent l'))). reflexivity. }
  destruct (start_dec demangle (w_orders w) p g cs s Wp Fo R) as [[k K]|N].
  - destruct (report_part demangle (w_orders w) p g cs s k Wp Fo Sz R K) as [g' [cs' [ids [v [nd [R' _]]]]]]. destruct (Fin g' cs' R') as [t' [F1 [F2 F3]]]. exists t', g', cs'. split; [exact F1|]. split; [exact F2|]. split; [exact F3|]. split; [intros X; destruct (X s k eq_refl K)|].
    intros k' K'. destruct (report_part demangle (w_orders w) p g cs s k' Wp Fo Sz R K') as [g2 [cs2 [ids2 [v2 [nd2 [R2 Q]]]]]]. rewrite R' in R2. injection R2 as <- <-. exists ids2, v2, nd2. exact Q.
  - pose proof (report_whole demangle (w_orders w) p s Wp Fo N) as R'. rewrite R in R'. destruct (Fin g cs R') as [t' [F1 [F2 F3]]]. exists t', g, cs. split; [exact F1|]. split; [exact F2|]. split; [exact F3|]. split; [intros _; split; reflexivity|].
    intros k K. destruct (N s k eq_refl K).
Qed.
End Runs.
