(** C102: programs that do more need at least as much stack. *)
From Verif Require Import M_base M_stack M_graph M_names M_thumb M_ty M_parse M_render M_build M_run M_wrapper M_driver S_graph S_render S_build S_run S_driver S_part S_below S_more S_prints X_build X_driver X_below L_more L_below3 X_more X_below2.

(** C102: if the functions that [i] can reach do at most what certain functions of another program do, and an exact maximum is printed in that program,
    then the maximum of [i] is exact too, and not larger.  This is for any two programs, whatever the target, the iteration orders and the addresses. *)
Theorem C102_exact_maxima_grow_partial :
  forall demangle o o' p q f i g cs g' cs' m m', wf_prog p -> wf_prog q -> fair o -> fair o' -> one_void p -> fits q ->
  settled p (reaches p i) -> at_most p q f (reaches p i) -> i < length (pg_defined p) -> f i < length (pg_defined q) ->
  report demangle o None p = Ret (g, cs) -> report demangle o' None q = Ret (g', cs') -> reported g i m -> reported g' (f i) m' -> exact m' ->
  (num m <= num m')%N /\ exact m.
Proof. exact more_exact. Qed.
Print Assumptions C102_exact_maxima_grow_partial.
(** Two functions with the same code, which are at one address in the other program. *)
Example C102_example : wf_prog p_fold /\ wf_prog q_fold /\ one_void p_fold /\ fits q_fold /\ settled p_fold (reaches p_fold 0) /\ at_most p_fold q_fold fold_place (reaches p_fold 0) /\
  (exists g cs, report idd o_id None p_fold = Ret (g, cs) /\ reported g 0 (MExact 28)) /\
  exists g cs, report idd o_rev None q_fold = Ret (g, cs) /\ reported g 0 (MExact 28).
Proof. exact fold_example. Qed.
(** More statements in the functions and larger sizes. *)
Theorem C102_extended_partial :
  forall demangle o o' p q i g cs g' cs' m m', wf_prog p -> wf_prog q -> fair o -> fair o' -> one_void p -> fits q ->
  settled p (reaches p i) -> extended p q -> i < length (pg_defined p) ->
  report demangle o None p = Ret (g, cs) -> report demangle o' None q = Ret (g', cs') -> reported g i m -> reported g' i m' -> exact m' -> (num m <= num m')%N /\ exact m.
Proof. exact extended_exact. Qed.
Print Assumptions C102_extended_partial.
Example C102_example_extended : wf_prog (low [] 100) /\ wf_prog q_more /\ one_void (low [] 100) /\ fits q_more /\ settled (low [] 100) (reaches (low [] 100) 0) /\ extended (low [] 100) q_more /\
  (exists g cs, report idd o_id None (low [] 100) = Ret (g, cs) /\ reported g 0 (MExact 24)) /\
  exists g cs, report idd o_rev None q_more = Ret (g, cs) /\ reported g 0 (MExact 148).
Proof. exact more_example. Qed.
(** Lower bounds do not grow: a call that closes a circle turns an exact 16 into `>= 8`. *)
Theorem C102_lower_bounds_refuted :
  exists demangle o p q, wf_prog p /\ wf_prog q /\ extended p q /\
  (exists g cs, report demangle o None p = Ret (g, cs) /\ reported g 0 (MExact 16)) /\ exists g cs, report demangle o None q = Ret (g, cs) /\ reported g 0 (MLower 8).
Proof. do 4 eexists. exact pair_differ. Qed.
Print Assumptions C102_lower_bounds_refuted.
(** The first theorem below any start points, which can be different for the two programs. *)
Theorem C102_below_start_points_partial :
  forall demangle o o' start start' p q g cs g' cs', wf_prog p -> wf_prog q -> fair o -> fair o' -> sizes_u64 p -> sizes_u64 q -> one_void p -> fits q ->
  report demangle o start p = Ret (g, cs) -> report demangle o' start' q = Ret (g', cs') ->
  exists ks void ks' void', pictures demangle p start ks void (gnodes g) (gedges g) /\ pictures demangle q start' ks' void' (gnodes g') (gedges g') /\
  forall f i k k' m m', settled p (reaches p i) -> at_most p q f (reaches p i) ->
  nth_error ks k = Some (KReal i) -> nth_error ks' k' = Some (KReal (f i)) -> reported g k m -> reported g' k' m' -> exact m' -> (num m <= num m')%N /\ exact m.
Proof. exact more_starts. Qed.
Print Assumptions C102_below_start_points_partial.
Example C102_example_start : wf_prog (low [] 100) /\ wf_prog q_more /\ sizes_u64 (low [] 100) /\ sizes_u64 q_more /\ one_void (low [] 100) /\ fits q_more /\ settled (low [] 100) (reaches (low [] 100) 0) /\
  at_most (low [] 100) q_more (fun j => j) (reaches (low [] 100) 0) /\
  (exists g cs, report idd o_id (Some (lit "main")) (low [] 100) = Ret (g, cs) /\ length (gnodes g) = 3 /\ reported g 0 (MExact 24)) /\
  exists g cs, report idd o_rev None q_more = Ret (g, cs) /\ reported g 0 (MExact 148).
Proof. exact more_start_example. Qed.
(** The same of the files that two runs of the tool print (names without backslash, as in C16). *)
Theorem C102_printed_maxima_partial :
  forall demangle w w' t t' c c', sane w -> sane w' -> main demangle w = (t, c) -> main demangle w' = (t', c') -> c = 0%Z -> c' = 0%Z -> a_format (w_args w) = Dot -> a_format (w_args w') = Dot ->
  exists target file rlib ll p out target' file' rlib' ll' q out', analyses w target file rlib ll p /\ printed t = [out] /\ analyses w' target' file' rlib' ll' q /\ printed t' = [out'] /\
  ((forall g cycles nd, report demangle (w_orders w) (a_start (w_args w)) p = Ret (g, cycles) -> In nd (gnodes g) -> no_backslash (demangle (nname nd))) ->
   (forall g cycles nd, report demangle (w_orders w') (a_start (w_args w')) q = Ret (g, cycles) -> In nd (gnodes g) -> no_backslash (demangle (nname nd))) ->
   sizes_u64 p -> sizes_u64 q -> one_void p -> fits q ->
   exists ks nds ks' nds', prints demangle p out ks nds /\ prints demangle q out' ks' nds' /\
   forall f i k k' nd nd' m m', settled p (reaches p i) -> at_most p q f (reaches p i) ->
   nth_error ks k = Some (KReal i) -> nth_error nds k = Some nd -> nmax nd = Some m -> nth_error ks' k' = Some (KReal (f i)) -> nth_error nds' k' = Some nd' -> nmax nd' = Some m' ->
   exact m' -> (num m <= num m')%N /\ exact m).
Proof. exact printed_more. Qed.
Print Assumptions C102_printed_maxima_partial.
Example C102_example_runs : sane (started None ex_w) /\ sane (started (Some (lit "leaf")) ex_w) /\
  (exists t t', main idd (started None ex_w) = (t, 0%Z) /\ main idd (started (Some (lit "leaf")) ex_w) = (t', 0%Z) /\ printed t <> printed t') /\
  a_format (w_args (started None ex_w)) = Dot /\ sizes_u64 ex_p /\ one_void ex_p /\ fits ex_p /\ settled ex_p (reaches ex_p 1) /\ at_most ex_p ex_p (fun j => j) (reaches ex_p 1).
Proof. destruct runs_example as [A [B [C [D [E [F [Ft [G [_ H]]]]]]]]]. exact (conj A (conj B (conj C (conj D (conj E (conj F (conj Ft (conj G H)))))))). Qed.
