(** C94: the maxima that are reported are reached. *)
From Verif Require Import M_base M_stack M_graph M_names M_thumb M_ty M_parse M_render M_build M_run M_wrapper M_driver S_names S_graph S_render S_sig S_build S_run S_driver S_attain X_build X_driver L_run2 X_attain L_attain.

(** C94, partial (`llvm.memmove`, see below): the number that is reported for a function is reached by a chain of calls which the program has, and an exact
    one is exactly the usage of the chain. *)
Theorem C94_maxima_are_reached_partial :
  forall demangle o start p g cs, wf_prog p -> fair o -> report demangle o start p = Ret (g, cs) -> no_memmove p ->
  exists ks void, pictures demangle p start ks void (gnodes g) (gedges g) /\
  forall k i m, nth_error ks k = Some (KReal i) -> reported g k m -> below_2_64 g k ->
  exists l d, stacked p i l /\ known_depth p l d /\ (num m <= d)%N /\ (exact m -> depth p l (num m)).
Proof. exact maxima_reached. Qed.
Print Assumptions C94_maxima_are_reached_partial.
Example C94_example : wf_prog p3 /\ fair o_id /\ no_memmove p3 /\ fits p3 /\
  (exists g cs nd, report idd o_id None p3 = Ret (g, cs) /\ nth_error (gnodes g) 0 = Some nd /\ nmax nd = Some (MExact 32)) /\ runs p3 0 [0; 2] /\ depth p3 [0; 2] 32.
Proof. exact (conj p3_wf (conj o_id_fair (conj p3_moves (conj p3_fits (conj p3_report p3_runs))))). Qed.
Example C94_example_lower : wf_prog p_untyped /\ no_memmove p_untyped /\
  (exists g cs nd, report idd o_id None p_untyped = Ret (g, cs) /\ nth_error (gnodes g) 0 = Some nd /\ nmax nd = Some (MLower 24)) /\
  stacked p_untyped 0 [0; 1] /\ known_depth p_untyped [0; 1] 24.
Proof. exact (conj untyped_wf (conj untyped_moves (conj untyped_report untyped_stacked))). Qed.
(** `llvm.memmove` is taken for a call of `memset`: an exact maximum that no chain of calls comes near. *)
Theorem C94_memmove_refuted :
  exists p g cs nd, wf_prog p /\ fits p /\ report idd o_id None p = Ret (g, cs) /\ nth_error (gnodes g) 0 = Some nd /\ chosen p 0 (nname nd) /\ nmax nd = Some (MExact 108) /\
  forall l d, stacked p 0 l -> known_depth p l d -> (d <= 40)%N.
Proof. exact moves_unreached. Qed.
Print Assumptions C94_memmove_refuted.

(** Together with C58: in programs which are covered by the analysis and in which no formatting is hidden, an exact maximum is the largest stack usage
    among all executions of the function. *)
Theorem C94_exact_maximum_is_the_largest_usage_partial :
  forall demangle o start p g cs, wf_prog p -> fair o -> report demangle o start p = Ret (g, cs) -> no_memmove p -> covered p -> (forall v, ~ true_void p v) ->
  exists ks void, pictures demangle p start ks void (gnodes g) (gedges g) /\
  forall k i n, nth_error ks k = Some (KReal i) -> reported g k (MExact n) -> below_2_64 g k ->
  (forall l, runs p i l -> exists d, depth p l d /\ (d <= n)%N) /\ exists l, runs p i l /\ depth p l n.
Proof. exact exact_is_largest. Qed.
Print Assumptions C94_exact_maximum_is_the_largest_usage_partial.
Example C94_example_largest : wf_prog p3 /\ fair o_id /\ no_memmove p3 /\ covered p3 /\ (forall v, ~ true_void p3 v) /\ fits p3.
Proof. exact (conj p3_wf (conj o_id_fair (conj p3_moves (conj p3_covered (conj p3_void p3_fits))))). Qed.

(** The same for the file that is printed (names without backslash, as in C16). *)
Theorem C94_printed_maxima_are_reached_partial :
  forall demangle w t c, sane w -> main demangle w = (t, c) -> c = 0%Z -> a_format (w_args w) = Dot ->
  exists target file rlib ll p out, analyses w target file rlib ll p /\ one_artifact (w_args w) file /\ printed t = [out] /\
  ((forall g cycles nd, report demangle (w_orders w) (a_start (w_args w)) p = Ret (g, cycles) -> In nd (gnodes g) -> no_backslash (demangle (nname nd))) ->
   exists st ks nds es, read_dot out = Some st /\ length ks = length nds /\
     file_nodes st = map (fun x => (Some (N.of_nat (fst x)), Some (demangle (nname (snd x)), nmax (snd x), nlocal (snd x)), ndashed (snd x))) (combine (seq 0 (length nds)) nds) /\
     file_edges st = map (fun e => (Some (N.of_nat (fst e)), Some (N.of_nat (snd e)))) es /\
     (forall k key nd, nth_error ks k = Some key -> nth_error nds k = Some nd -> shows demangle p key nd) /\
     (no_memmove p -> forall k i nd m, nth_error ks k = Some (KReal i) -> nth_error nds k = Some nd -> nmax nd = Some m -> below_2_64 (mkG nds es) k ->
        exists l d, stacked p i l /\ known_depth p l d /\ (num m <= d)%N /\ (exact m -> depth p l (num m))) /\
     (no_memmove p -> covered p -> (forall v, ~ true_void p v) ->
        forall k i n nd, nth_error ks k = Some (KReal i) -> nth_error nds k = Some nd -> nmax nd = Some (MExact n) -> below_2_64 (mkG nds es) k ->
        (forall l, runs p i l -> exists d, depth p l d /\ (d <= n)%N) /\ exists l, runs p i l /\ depth p l n)).
Proof. exact printed_reached. Qed.
Print Assumptions C94_printed_maxima_are_reached_partial.
Example C94_example_printed : sane ex_w /\ (exists t, main idd ex_w = (t, 0%Z) /\ printed t = [ex_out]) /\ a_format (w_args ex_w) = Dot.
Proof. split; [apply ex_sane|]. split; [|reflexivity]. destruct ex_run as [t [H1 [H2 _]]]. exists t. split; [exact H1 | exact H2]. Qed.
