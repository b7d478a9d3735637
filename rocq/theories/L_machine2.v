(** From the text on stdout to executions of the machine code. *)
From Verif Require Import M_base M_stack M_graph M_names M_thumb M_ty M_parse M_render M_build M_run M_wrapper M_driver.
From Verif Require Import S_names S_graph S_render S_build S_run S_driver S_thumb S_machine L_base L_render L_run L_report L_run2 L_driver1 L_driver2 L_driver3 L_driver4 L_driver5 L_machine.

Theorem c65 demangle w t c : sane w -> main demangle w = (t, c) -> c = 0%Z -> a_format (w_args w) = Dot ->
  exists target file rlib ll p out, analyses w target file rlib ll p /\ one_artifact (w_args w) file /\ printed t = [out] /\
  ((forall g cycles nd, report demangle (w_orders w) (a_start (w_args w)) p = Ret (g, cycles) -> In nd (gnodes g) -> no_backslash (demangle (nname nd))) -> forall lay, layout p lay ->
   exists st ks nds es, read_dot out = Some st /\ length ks = length nds /\
     file_nodes st = map (fun x => (Some (N.of_nat (fst x)), Some (demangle (nname (snd x)), nmax (snd x), nlocal (snd x)), ndashed (snd x))) (combine (seq 0 (length nds)) nds) /\
     file_edges st = map (fun e => (Some (N.of_nat (fst e)), Some (N.of_nat (snd e)))) es /\
     (forall k key nd, nth_error ks k = Some key -> nth_error nds k = Some nd -> shows demangle p key nd) /\
     (forall k i n nd, nth_error ks k = Some (KReal i) -> nth_error nds k = Some nd -> nmax nd = Some (MExact n) -> below_2_64 (mkG nds es) k -> forall fs, executes p lay i fs -> (forall f, In f fs -> trusted p lay (fr_fn f)) -> (in_use fs <= n)%N) /\
     (no_start demangle p (a_start (w_args w)) -> forall i, i < length (pg_defined p) -> nth_error ks i = Some (KReal i)) /\
     (forall s k, a_start (w_args w) = Some s -> denotes demangle p s k -> nth_error ks 0 = Some k) /\
     (fits p -> forall k, below_2_64 (mkG nds es) k)).
Proof.
  intros S M N D. destruct (printed_of demangle w t c S M N) as [file [config [cfg [text [rlib [ll [p [echo [out [Ar [_ [_ [_ [_ [_ [Wf [A [O P]]]]]]]]]]]]]]]]]].
  exists (target_of w config), file, rlib, ll, p, out. split; [exact A|]. split; [exact Ar|]. split; [exact P|]. intros Nb lay La.
  unfold output in O. apply bind_Ret in O. destruct O as [[g cycles] [O1 O2]]. rewrite D in O2. injection O2 as <-. pose proof (fun nd => Nb g cycles nd O1) as Q. unfold report in O1. apply bind_Ret in O1. destruct O1 as [b [B O1]].
  destruct (machine_bounded p lay La demangle (w_orders w) b Wf (sane_orders w S) B (a_start (w_args w)) g cycles O1) as [ks [K1 [K2 [K3 [K4 K5]]]]].
  pose proof (fun Ft => report_fits demangle (w_orders w) p b Wf (sane_orders w S) B (a_start (w_args w)) g cycles Ft O1) as K6. destruct (dot_read_back demangle g cycles Q) as [st [R1 [R2 [R3 _]]]].
  exists st, ks, (gnodes g), (gedges g). destruct g as [nds es]. split; [exact R1|]. split; [exact K1|]. split; [exact R2|]. split; [exact R3|]. split; [exact K5|]. split; [exact K2|]. split; [exact K3|]. split; [exact K4 | exact K6].
Qed.
