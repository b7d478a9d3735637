(** Runs that log nothing, from the command line: lemmas for C106. *)
From Coq Require Import Permutation Sorted.
From Verif Require Import M_base M_stack M_graph M_analysis M_filter M_names M_thumb M_ty M_parse M_render M_build M_run M_log M_wrapper M_driver S_names S_graph S_render S_sig S_build S_run S_thumb S_machine S_direct S_log S_driver S_silent S_silent2.
From Verif Require Import L_base L_names L_maxprops L_build1 L_build2 L_build3 L_build4 L_build5 L_build6 L_build7 L_run L_log L_log2 L_literal L_log3 L_log4 L_log5 L_log6 L_log7 L_report L_render L_write L_driver1 L_driver2 L_driver3 L_driver4 L_driver5 L_log8 L_silent L_machine L_direct.

Lemma run_log_out demangle w t c : sane w -> main demangle w = (t, c) -> c = 0%Z ->
  exists target file rlib ll p g cs out, one_artifact (w_args w) file /\ analyses w target file rlib ll p /\ wf_prog p /\
    report_log demangle (w_orders w) (a_start (w_args w)) p = (messages t, Ret (g, cs)) /\ output demangle (w_orders w) (a_start (w_args w)) (a_format (w_args w)) p = Ret out /\ printed t = [out].
Proof.
  intros S M C0. destruct (success_prints demangle w t c (sane_user w S) M C0) as [out N]. destruct (user_run demangle w t c (sane_user w S) M) as [[_ [H _]]|[file [config [_ [P [Ec H]]]]]]; [rewrite H in N; destruct N|].
  destruct H as [[_ [H _]]|[cfg [r0 [pre [exe [extra [[G _] [Ht [Hc [Hcm [Hp [[_ Hm] Hx]]]]]]]]]]]]; [rewrite H in N; destruct N|].
  pose proof Hp as Hp'. rewrite Hp in N. destruct (build_logs demangle w (target_of w config) file exe _ out N) as [text [rlib [ll [p [echo [res [K1 [K2 [K3 [K4 [pre' [K5 K6]]]]]]]]]]]].
  destruct (loaded w (target_of w config) file rlib ll p S K3) as [Wp A]. exists (target_of w config), file, rlib, ll, p. pose proof K4 as O. unfold output in K4. destruct (bind_inv _ _ _ K4) as [[g cs] [R _]]. exists g, cs, out.
  assert (Out : res = out /\ printed t = [out]).
  { destruct (build_prints demangle w (target_of w config) file exe (cargo_args (w_args w) file (no_std (buf_lines cfg)))) as [[Z _]|[text2 [rlib2 [ll2 [p2 [echo2 [res2 [out2 [e [J1 [J2 [J3 [J4 [J5 [J6 [J7 _]]]]]]]]]]]]]]]]; [rewrite Z in N; destruct N|].
    rewrite J6 in N. destruct N as [->|[]]. rewrite K1 in J1. injection J1 as <-. rewrite K2 in J2. injection J2 as _ <- <-. rewrite K3 in J3. injection J3 as <-. rewrite O in J4. injection J4 as <-.
    rewrite J7 in Hc. destruct e as [m|]; [cbn in Hc; congruence|]. apply received_all in J5. destruct J5 as [J5 _]. split; [congruence | rewrite Hp'; exact J6]. }
  destruct Out as [-> Out].
  assert (Mx : messages extra = []) by (destruct Hx as [[-> _]|[_ [m [-> _]]]]; reflexivity).
  assert (Rl : report_log demangle (w_orders w) (a_start (w_args w)) p = (messages (pre ++ pre'), Ret (g, cs))).
  { rewrite messages_app, Hm, K6. cbn [app]. rewrite (surjective_pairing (report_log demangle (w_orders w) (a_start (w_args w)) p)) at 1. rewrite report_erase, R. reflexivity. }
  assert (Mt : messages t = messages (pre ++ pre')) by (rewrite Ht, K5, !messages_app, Hm, Mx; cbn; rewrite !app_nil_r; reflexivity).
  split; [exact P|]. split; [exact A|]. split; [exact Wp|]. split; [rewrite Mt; exact Rl|]. split; [exact O | exact Out].
Qed.
Theorem printed_silent demangle w t c : sane w -> main demangle w = (t, c) -> c = 0%Z -> a_format (w_args w) = Dot -> messages t = [] ->
  exists target file rlib ll p out, analyses w target file rlib ll p /\ one_artifact (w_args w) file /\ printed t = [out] /\
  ((forall g cycles nd, report demangle (w_orders w) (a_start (w_args w)) p = Ret (g, cycles) -> In nd (gnodes g) -> no_backslash (demangle (nname nd))) ->
   exists st ks nds es, read_dot out = Some st /\ length ks = length nds /\
     file_nodes st = map (fun x => (Some (N.of_nat (fst x)), Some (demangle (nname (snd x)), nmax (snd x), nlocal (snd x)), ndashed (snd x))) (combine (seq 0 (length nds)) nds) /\
     file_edges st = map (fun e => (Some (N.of_nat (fst e)), Some (N.of_nat (snd e)))) es /\
     (forall k key nd, nth_error ks k = Some key -> nth_error nds k = Some nd -> shows demangle p key nd) /\
     (forall k i n nd, nth_error ks k = Some (KReal i) -> nth_error nds k = Some nd -> nmax nd = Some (MExact n) -> below_2_64 (mkG nds es) k ->
        forall l, runs p i l -> (forall x c, In x l -> avoids p x c) -> exists d, depth p l d /\ (d <= n)%N) /\
     (no_start demangle p (a_start (w_args w)) -> forall i, i < length (pg_defined p) -> nth_error ks i = Some (KReal i)) /\
     (forall s k, a_start (w_args w) = Some s -> denotes demangle p s k -> nth_error ks 0 = Some k) /\
     (fits p -> forall k, below_2_64 (mkG nds es) k)).
Proof.
  intros S M N D Q. destruct (run_log_out demangle w t c S M N) as [target [file [rlib [ll [p [g [cs [out [Ar [A [Wf [R [O P]]]]]]]]]]]]]. rewrite Q in R.
  exists target, file, rlib, ll, p, out. split; [exact A|]. split; [exact Ar|]. split; [exact P|]. intros Nb.
  destruct (silent_bounds demangle (w_orders w) (a_start (w_args w)) p g cs Wf (sane_orders w S) R) as [ks [K1 [K2 [K3 [K4 K5]]]]].
  destruct (built_of demangle (w_orders w) (a_start (w_args w)) p [] g cs R) as [b [Eb Ef]]. pose proof (fun Ft => report_fits demangle (w_orders w) p b Wf (sane_orders w S) Eb (a_start (w_args w)) g cs Ft Ef) as K6.
  assert (Re : report demangle (w_orders w) (a_start (w_args w)) p = Ret (g, cs)) by (rewrite <- report_erase, R; reflexivity).
  unfold output in O. rewrite Re, D in O. cbn [bind] in O. injection O as <-. destruct (dot_read_back demangle g cs (fun nd => Nb g cs nd Re)) as [st [R1 [R2 [R3 _]]]].
  exists st, ks, (gnodes g), (gedges g). destruct g as [nds es]. split; [exact R1|]. split; [exact K1|]. split; [exact R2|]. split; [exact R3|]. split; [exact K5|]. split; [exact K2|]. split; [exact K3|]. split; [exact K4 | exact K6].
Qed.
Theorem machine_silent : forall p lay, layout p lay -> forall demangle o start g cs, wf_prog p -> fair o -> report_log demangle o start p = ([], Ret (g, cs)) ->
  exists ks, length ks = node_count g /\
    (forall k i n nd, nth_error ks k = Some (KReal i) -> nth_error (gnodes g) k = Some nd -> nmax nd = Some (MExact n) -> below_2_64 g k ->
       forall fs, executes p lay i fs -> (forall f, In f fs -> steady p lay (fr_fn f)) -> (in_use fs <= n)%N) /\
    (no_start demangle p start -> forall i, i < length (pg_defined p) -> nth_error ks i = Some (KReal i)) /\
    (forall s k, start = Some s -> denotes demangle p s k -> nth_error ks 0 = Some k) /\
    (forall k key nd, nth_error ks k = Some key -> nth_error (gnodes g) k = Some nd -> shows demangle p key nd).
Proof.
  intros p lay La demangle o start g cs W Fo E. destruct (built_of demangle o start p [] g cs E) as [b [Eb Ef]].
  destruct (machine_direct p lay La demangle o b W Fo Eb start g cs Ef) as [ks [L [H R]]]. exists ks. split; [exact L|]. split; [|exact R].
  intros k i n nd K1 K2 K3 K4 fs X T. apply (H k i n nd K1 K2 K3 K4 fs X). intros f I. destruct (T f I) as [T1 [T2 T3]]. constructor; [exact T1 | exact T2|]. intros Rg. destruct (T3 Rg) as [T4 [T5 T6]].
  apply (silent_covered demangle o start p g cs W Fo E). intros [| | | |]; [exact T4 | | exact T5 | exact T6 |]; intros Th; rewrite (la_thumb p lay La) in Th; discriminate Th.
Qed.
Theorem printed_machine demangle w t c : sane w -> main demangle w = (t, c) -> c = 0%Z -> a_format (w_args w) = Dot -> messages t = [] ->
  exists target file rlib ll p out, analyses w target file rlib ll p /\ one_artifact (w_args w) file /\ printed t = [out] /\
  ((forall g cycles nd, report demangle (w_orders w) (a_start (w_args w)) p = Ret (g, cycles) -> In nd (gnodes g) -> no_backslash (demangle (nname nd))) -> forall lay, layout p lay ->
   exists st ks nds es, read_dot out = Some st /\ length ks = length nds /\
     file_nodes st = map (fun x => (Some (N.of_nat (fst x)), Some (demangle (nname (snd x)), nmax (snd x), nlocal (snd x)), ndashed (snd x))) (combine (seq 0 (length nds)) nds) /\
     file_edges st = map (fun e => (Some (N.of_nat (fst e)), Some (N.of_nat (snd e)))) es /\
     (forall k key nd, nth_error ks k = Some key -> nth_error nds k = Some nd -> shows demangle p key nd) /\
     (forall k i n nd, nth_error ks k = Some (KReal i) -> nth_error nds k = Some nd -> nmax nd = Some (MExact n) -> below_2_64 (mkG nds es) k ->
        forall fs, executes p lay i fs -> (forall f, In f fs -> steady p lay (fr_fn f)) -> (in_use fs <= n)%N) /\
     (no_start demangle p (a_start (w_args w)) -> forall i, i < length (pg_defined p) -> nth_error ks i = Some (KReal i)) /\
     (forall s k, a_start (w_args w) = Some s -> denotes demangle p s k -> nth_error ks 0 = Some k) /\
     (fits p -> forall k, below_2_64 (mkG nds es) k)).
Proof.
  intros S M N D Q. destruct (run_log_out demangle w t c S M N) as [target [file [rlib [ll [p [g [cs [out [Ar [A [Wf [R [O P]]]]]]]]]]]]]. rewrite Q in R.
  exists target, file, rlib, ll, p, out. split; [exact A|]. split; [exact Ar|]. split; [exact P|]. intros Nb lay La.
  destruct (machine_silent p lay La demangle (w_orders w) (a_start (w_args w)) g cs Wf (sane_orders w S) R) as [ks [K1 [K2 [K3 [K4 K5]]]]].
  destruct (built_of demangle (w_orders w) (a_start (w_args w)) p [] g cs R) as [b [Eb Ef]]. pose proof (fun Ft => report_fits demangle (w_orders w) p b Wf (sane_orders w S) Eb (a_start (w_args w)) g cs Ft Ef) as K6.
  assert (Re : report demangle (w_orders w) (a_start (w_args w)) p = Ret (g, cs)) by (rewrite <- report_erase, R; reflexivity).
  unfold output in O. rewrite Re, D in O. cbn [bind] in O. injection O as <-. destruct (dot_read_back demangle g cs (fun nd => Nb g cs nd Re)) as [st [R1 [R2 [R3 _]]]].
  exists st, ks, (gnodes g), (gedges g). destruct g as [nds es]. split; [exact R1|]. split; [exact K1|]. split; [exact R2|]. split; [exact R3|]. split; [exact K5|]. split; [exact K2|]. split; [exact K3|]. split; [exact K4 | exact K6].
Qed.
