(** C99: an exact maximum is reported exactly if the stack usage is bounded. *)
From Verif Require Import M_base M_stack M_graph M_names M_thumb M_ty M_parse M_render M_build M_run M_log M_wrapper M_driver S_names S_graph S_render S_sig S_build S_run S_driver S_attain S_bounded L_run2 X_build X_driver X_finite X_log X_attain X_bounded L_bounded.

(** C99, partial (the restrictions of C58 and C94, which are refuted without them): in a closed program the maximum of a function is exact if and only if
    the executions of the function have a bound, and then it is the largest usage among them. *)
Theorem C99_exact_iff_bounded_partial :
  forall demangle o start p g cs, wf_prog p -> fair o -> report demangle o start p = Ret (g, cs) -> no_memmove p -> covered p -> (forall v, ~ true_void p v) -> closed p ->
  exists ks void, pictures demangle p start ks void (gnodes g) (gedges g) /\
  forall k i m, nth_error ks k = Some (KReal i) -> reported g k m ->
  (exact m <-> bounded p i) /\
  (exact m -> below_2_64 g k -> (forall l, runs p i l -> exists d, depth p l d /\ (d <= num m)%N) /\ exists l, runs p i l /\ depth p l (num m)).
Proof. exact exact_iff_bounded. Qed.
Print Assumptions C99_exact_iff_bounded_partial.
Example C99_example : wf_prog p3 /\ fair o_id /\ no_memmove p3 /\ covered p3 /\ (forall v, ~ true_void p3 v) /\ closed p3 /\
  (exists g cs nd, report idd o_id None p3 = Ret (g, cs) /\ nth_error (gnodes g) 0 = Some nd /\ nmax nd = Some (MExact 32)) /\ bounded p3 0.
Proof. exact (conj p3_wf (conj o_id_fair (conj p3_moves (conj p3_covered (conj p3_void (conj p3_closed (conj p3_report p3_bounded))))))). Qed.
Example C99_example_unbounded : wf_prog p_circles /\ no_memmove p_circles /\ covered p_circles /\ (forall v, ~ true_void p_circles v) /\ closed p_circles /\
  (exists g cs, report idd o_id None p_circles = Ret (g, cs) /\ reported g 0 (MLower 24) /\ reported g 2 (MLower 8)) /\ ~ bounded p_circles 0.
Proof. exact (conj (proj1 circles_wf) (conj circles_moves (conj circles_covered (conj circles_void (conj circles_closed (conj circles_report circles_unbounded)))))). Qed.

(** The same without the hypothesis that all of the program is known: a maximum is exact if and only if the executions of the function have a bound and none of them
    calls anything that is not known.  (The order in which the definitions are met plays no role if no memory routine that is called is missing: [stable].) *)
Theorem C99_exact_iff_bounded_inside_partial :
  forall demangle o start p g cs, wf_prog p -> fair o -> report demangle o start p = Ret (g, cs) -> no_memmove p -> covered p -> (forall v, ~ true_void p v) -> stable p ->
  exists ks void, pictures demangle p start ks void (gnodes g) (gedges g) /\
  forall k i m, nth_error ks k = Some (KReal i) -> reported g k m ->
  (exact m <-> bounded p i /\ inside p i) /\
  (exact m -> below_2_64 g k -> (forall l, runs p i l -> exists d, depth p l d /\ (d <= num m)%N) /\ exists l, runs p i l /\ depth p l (num m)).
Proof. exact exact_iff_inside. Qed.
Print Assumptions C99_exact_iff_bounded_inside_partial.
Example C99_example_inside : wf_prog p_out /\ no_memmove p_out /\ covered p_out /\ (forall v, ~ true_void p_out v) /\ stable p_out /\ created p_out (lit "extern_fn") /\
  (exists g cs, report idd o_id None p_out = Ret (g, cs) /\ reported g 0 (MExact 24) /\ reported g 2 (MLower 20)) /\
  (bounded p_out 0 /\ inside p_out 0) /\ ~ inside p_out 2.
Proof. exact (conj out_wf (conj out_moves (conj out_covered (conj out_void (conj out_stable (conj out_created (conj out_report (conj (conj out_bounded out_inside) (proj2 out_escapes))))))))). Qed.

(** A run that says nothing is one of a closed program, if every function called by name is in the executable. *)
Theorem C99_silent_runs_are_of_closed_programs :
  forall demangle o start p r, wf_prog p -> fair o -> report_log demangle o start p = ([], Ret r) -> (forall i f, body p i (DirectCall f) -> ~ intrinsic f -> exists j, live p f j) -> closed p.
Proof. exact silent_closed. Qed.
Print Assumptions C99_silent_runs_are_of_closed_programs.
Example C99_example_silent : (exists g cs, report_log idd o_id None p_circles = ([], Ret (g, cs)) /\ reported g 0 (MLower 24)) /\
  (forall i f, body p_circles i (DirectCall f) -> ~ intrinsic f -> exists j, live p_circles f j).
Proof. exact (conj circles_silent circles_called). Qed.

(** The same for the file that is printed (names without backslash, as in C16). *)
Theorem C99_printed_exact_iff_bounded_partial :
  forall demangle w t c, sane w -> main demangle w = (t, c) -> c = 0%Z -> a_format (w_args w) = Dot ->
  exists target file rlib ll p out, analyses w target file rlib ll p /\ one_artifact (w_args w) file /\ printed t = [out] /\
  ((forall g cycles nd, report demangle (w_orders w) (a_start (w_args w)) p = Ret (g, cycles) -> In nd (gnodes g) -> no_backslash (demangle (nname nd))) ->
   no_memmove p -> covered p -> (forall v, ~ true_void p v) -> stable p ->
   exists st ks nds, read_dot out = Some st /\ length ks = length nds /\
     file_nodes st = map (fun x => (Some (N.of_nat (fst x)), Some (demangle (nname (snd x)), nmax (snd x), nlocal (snd x)), ndashed (snd x))) (combine (seq 0 (length nds)) nds) /\
     (forall k key nd, nth_error ks k = Some key -> nth_error nds k = Some nd -> shows demangle p key nd) /\
     (forall k i nd m, nth_error ks k = Some (KReal i) -> nth_error nds k = Some nd -> nmax nd = Some m -> (exact m <-> bounded p i /\ inside p i))).
Proof. exact printed_bounded. Qed.
Print Assumptions C99_printed_exact_iff_bounded_partial.
Example C99_example_run : sane ex_w /\ (exists t, main idd ex_w = (t, 0%Z) /\ printed t = [ex_out]) /\ a_format (w_args ex_w) = Dot.
Proof. destruct ex_run as [t [H1 [H2 _]]]. exact (conj (ex_sane _ _ _ _ _ _) (conj (ex_intro _ t (conj H1 H2)) eq_refl)). Qed.
