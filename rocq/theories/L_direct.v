(** Executions of machine code, call by call: lemmas for C107. *)
From Verif Require Import M_base M_stack M_graph M_analysis M_filter M_names M_thumb M_ty M_parse M_render M_build M_run M_log M_wrapper M_driver S_names S_graph S_render S_sig S_build S_run S_thumb S_machine S_driver S_direct.
From Verif Require Import L_base L_names L_build1 L_build2 L_build3 L_build4 L_build5 L_build6 L_build7 L_run L_report L_render L_driver1 L_driver2 L_driver3 L_driver4 L_driver5 L_machine.
Local Open Scope N_scope.
Local Open Scope list_scope.

Section Direct.
Variables (p : prog) (lay : nat -> list S_thumb.item).
Hypothesis La : layout p lay.
(** Each function was called by the one below it in a way that is noticed, as far as that one is dependable. *)
Fixpoint attached (i : nat) (fs : list nat) : Prop :=
  match fs with
  | [] => False
  | j :: fs => (j < length (pg_defined p))%nat /\ match fs with [] => j = i | k :: _ => (dependable p lay k -> noticed p k j) /\ attached i fs end
  end.
Lemma noticed_snoc i l k j : runs_noticed p i (l ++ [k]) -> noticed p k j -> (j < length (pg_defined p))%nat -> runs_noticed p i (l ++ [k; j]).
Proof.
  revert i. induction l as [|h l IH]; intros i R I L; cbn [app] in *.
  - inversion R; subst; [|match goal with H : runs_noticed _ _ [] |- _ => inversion H end]. apply rn_call with j; [exact I | constructor; exact L].
  - inversion R; subst; [destruct l; discriminate|]. eapply rn_call; [eassumption|]. apply IH; assumption.
Qed.
Lemma attached_runs i fs : attached i fs -> (forall k, In k fs -> dependable p lay k) -> runs_noticed p i (rev fs).
Proof.
  induction fs as [|j fs IH]; intros L N; [destruct L|]. destruct fs as [|k fs].
  - destruct L as [Lj ->]. constructor. exact Lj.
  - destruct L as [Lj [I L]]. specialize (IH L (fun x X => N x (or_intror X))). cbn [rev] in *. rewrite <- app_assoc. apply noticed_snoc; [exact IH | | exact Lj]. apply I, N. right. left. reflexivity.
Qed.
Lemma attached_lt i fs k : attached i fs -> In k fs -> (k < length (pg_defined p))%nat.
Proof.
  induction fs as [|j fs IH]; intros L I; [destruct I|]. destruct I as [<-|I]; [exact (proj1 L)|]. destruct fs as [|k' fs]; [destruct I|]. exact (IH (proj2 (proj2 L)) I).
Qed.
Definition held (i : nat) (fs : list frame) : Prop := attached i (map fr_fn fs) /\ forall f, In f fs -> frame_at p lay (fr_fn f) (fr_pos f) (fr_used f).
Variables (demangle : str -> str) (o : orders) (b : built).
Hypotheses (W : wf_prog p) (E : build demangle o p = Ret b).
Lemma push_held i k pos u fs j : held i (mkFrame k pos u :: fs) -> (dependable p lay k -> noticed p k j) -> (j < length (pg_defined p))%nat -> held i (mkFrame j 0 0 :: mkFrame k pos u :: fs).
Proof.
  intros [R F] I L. split.
  - cbn [map fr_fn] in *. split; [exact L|]. split; [exact I | exact R].
  - intros f [<-|Hf]; [cbn [fr_fn fr_pos fr_used]; constructor | exact (F f Hf)].
Qed.
Lemma step_held i fs fs' : held i fs -> machine p lay fs fs' -> held i fs'.
Proof.
  intros S M. destruct M as [k pos u x pos' u' fs I G Lp Lu | k addr pos u x imm j sym fs I C Hk J | k addr pos u x imm j sym fs I C O Hk J | k pos u x j fs I C Lj V | f f' fs].
  - destruct S as [R F]. split; [exact R|]. intros f [<-|Hf]; [|apply F; right; exact Hf]. specialize (F _ (or_introl eq_refl)). cbn [fr_fn fr_pos fr_used] in *. eapply fa_step; eassumption.
  - apply push_held; [exact S | | exact (at_lt p _ _ J)]. intros De. destruct (call_target p lay La demangle o b W E k addr sym pos x imm (proj1 (dp_seen _ _ _ De)) Hk I C) as [j' [J1 J2]]. rewrite (at_unique p W _ _ _ J J1) in *. exact (nt_code _ _ _ J2).
  - apply push_held; [exact S | | exact (at_lt p _ _ J)]. intros De. destruct (tail_target p lay La demangle o b W E k addr sym pos x imm (proj1 (dp_seen _ _ _ De)) Hk I C O) as [j' [J1 J2]]. rewrite (at_unique p W _ _ _ J J1) in *. exact (nt_code _ _ _ J2).
  - apply push_held; [exact S | | exact Lj]. intros De. apply covered_noticed; [|exact V]. apply (dp_covered _ _ _ De). exists pos, x. split; assumption.
  - destruct S as [R F]. split; [exact (proj2 (proj2 R)) | intros g Hg; apply F; right; exact Hg].
Qed.
Lemma executes_held i fs : executes p lay i fs -> held i fs.
Proof.
  induction 1 as [L | fs fs' H IH M]; [|exact (step_held i fs fs' IH M)]. split; [split; [exact L | reflexivity]|].
  intros f [<-|[]]. cbn [fr_fn fr_pos fr_used]. constructor.
Qed.
Lemma held_bound fs d : (forall f, In f fs -> dependable p lay (fr_fn f)) -> depth p (rev (map fr_fn fs)) d ->
  (forall f, In f fs -> (fr_fn f < length (pg_defined p))%nat /\ frame_at p lay (fr_fn f) (fr_pos f) (fr_used f)) -> in_use fs <= d.
Proof.
  revert d. induction fs as [|f fs IH]; intros d Tr D F; cbn [in_use fold_right]; [lia|]. cbn [map rev] in D. destruct (depth_app p _ _ _ D) as [d1 [d2 [D1 [D2 ->]]]].
  specialize (IH d1 (fun g Hg => Tr g (or_intror Hg)) D1 (fun g Hg => F g (or_intror Hg))). unfold in_use in IH. destruct (F f (or_introl eq_refl)) as [F1 F2]. destruct (Tr f (or_introl eq_refl)) as [Sn Pr _].
  inversion D2; subst. match goal with K : depth p [] _ |- _ => inversion K; subst end. pose proof (frames_fit p lay La _ _ _ _ Sn Pr F1 ltac:(eassumption) F2). lia.
Qed.
Lemma direct_machine i n fs : (forall l, runs_noticed p i l -> exists d, depth p l d /\ d <= n) ->
  executes p lay i fs -> (forall f, In f fs -> dependable p lay (fr_fn f)) -> in_use fs <= n.
Proof.
  intros B X Tr. destruct (executes_held i fs X) as [R F].
  assert (Tk : forall k, In k (map fr_fn fs) -> dependable p lay k) by (intros k K; apply in_map_iff in K; destruct K as [f [<- K]]; exact (Tr f K)).
  destruct (B (rev (map fr_fn fs)) (attached_runs _ _ R Tk)) as [d [D L]].
  assert (Bf : in_use fs <= d); [|lia]. apply held_bound; [exact Tr | exact D|]. intros f K. split; [|exact (F f K)]. apply (attached_lt i _ _ R). exact (in_map fr_fn _ _ K).
Qed.
End Direct.
Theorem machine_direct : forall p lay, layout p lay ->
  forall demangle o b, wf_prog p -> fair o -> build demangle o p = Ret b ->
  forall start g cs, finish demangle start b = Ret (g, cs) ->
  exists ks, length ks = node_count g /\
    (forall k i n nd, nth_error ks k = Some (KReal i) -> nth_error (gnodes g) k = Some nd -> nmax nd = Some (MExact n) -> below_2_64 g k ->
       forall fs, executes p lay i fs -> (forall f, In f fs -> dependable p lay (fr_fn f)) -> in_use fs <= n) /\
    (no_start demangle p start -> forall i, (i < length (pg_defined p))%nat -> nth_error ks i = Some (KReal i)) /\
    (forall s k, start = Some s -> denotes demangle p s k -> nth_error ks 0 = Some k) /\
    (forall k key nd, nth_error ks k = Some key -> nth_error (gnodes g) k = Some nd -> shows demangle p key nd).
Proof.
  intros p lay La demangle o b W Fo E start g cs H. destruct (report_bounds demangle o p b W Fo E start g cs H) as [ks [K1 [K2 K3]]]. exists ks. split; [exact K1|]. split; [|exact K3].
  intros k i n nd A1 A2 A3 A4 fs. exact (direct_machine p lay La demangle o b W E i n fs (K2 k i n nd A1 A2 A3 A4)).
Qed.
Theorem direct_printed demangle w t c : sane w -> main demangle w = (t, c) -> c = 0%Z -> a_format (w_args w) = Dot ->
  exists target file rlib ll p out, analyses w target file rlib ll p /\ one_artifact (w_args w) file /\ printed t = [out] /\
  ((forall g cycles nd, report demangle (w_orders w) (a_start (w_args w)) p = Ret (g, cycles) -> In nd (gnodes g) -> no_backslash (demangle (nname nd))) -> forall lay, layout p lay ->
   exists st ks nds es, read_dot out = Some st /\ length ks = length nds /\
     file_nodes st = map (fun x => (Some (N.of_nat (fst x)), Some (demangle (nname (snd x)), nmax (snd x), nlocal (snd x)), ndashed (snd x))) (combine (seq 0 (length nds)) nds) /\
     file_edges st = map (fun e => (Some (N.of_nat (fst e)), Some (N.of_nat (snd e)))) es /\
     (forall k key nd, nth_error ks k = Some key -> nth_error nds k = Some nd -> shows demangle p key nd) /\
     (forall k i n nd, nth_error ks k = Some (KReal i) -> nth_error nds k = Some nd -> nmax nd = Some (MExact n) -> below_2_64 (mkG nds es) k ->
        forall fs, executes p lay i fs -> (forall f, In f fs -> dependable p lay (fr_fn f)) -> in_use fs <= n) /\
     (no_start demangle p (a_start (w_args w)) -> forall i, (i < length (pg_defined p))%nat -> nth_error ks i = Some (KReal i)) /\
     (forall s k, a_start (w_args w) = Some s -> denotes demangle p s k -> nth_error ks 0 = Some k) /\
     (fits p -> forall k, below_2_64 (mkG nds es) k)).
Proof.
  intros S M N D. destruct (printed_of demangle w t c S M N) as [file [config [cfg [text [rlib [ll [p [echo [out [Ar [_ [_ [_ [_ [_ [Wf [A [O P]]]]]]]]]]]]]]]]]].
  exists (target_of w config), file, rlib, ll, p, out. split; [exact A|]. split; [exact Ar|]. split; [exact P|]. intros Nb lay La.
  unfold output in O. apply bind_Ret in O. destruct O as [[g cycles] [O1 O2]]. rewrite D in O2. injection O2 as <-. pose proof (fun nd => Nb g cycles nd O1) as Q. unfold report in O1. apply bind_Ret in O1. destruct O1 as [b [B O1]].
  destruct (machine_direct p lay La demangle (w_orders w) b Wf (sane_orders w S) B (a_start (w_args w)) g cycles O1) as [ks [K1 [K2 [K3 [K4 K5]]]]].
  pose proof (fun Ft => report_fits demangle (w_orders w) p b Wf (sane_orders w S) B (a_start (w_args w)) g cycles Ft O1) as K6. destruct (dot_read_back demangle g cycles Q) as [st [R1 [R2 [R3 _]]]].
  exists st, ks, (gnodes g), (gedges g). destruct g as [nds es]. split; [exact R1|]. split; [exact K1|]. split; [exact R2|]. split; [exact R3|]. split; [exact K5|]. split; [exact K2|]. split; [exact K3|]. split; [exact K4 | exact K6].
Qed.
