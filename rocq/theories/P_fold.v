(** C105: functions that the linker puts at one address. *)
From Verif Require Import M_base M_stack M_graph M_names M_thumb M_ty M_parse M_render M_build M_run M_wrapper M_driver S_graph S_render S_build S_run S_driver S_part S_below S_prints S_fold X_build X_driver X_part X_below X_below2 L_more L_below3 X_more L_fold L_fold2 L_fold3 X_fold.

(** C105: if functions of the same type, the same statements and the same size are put at one address, then all functions have the same exact maxima as before. *)
Theorem C105_folding_partial :
  forall demangle o o' p q f g cs g' cs' i m m', wf_prog p -> wf_prog q -> folded_by p q f -> fair o -> fair o' -> one_void p -> fits p -> fits q ->
  report demangle o None p = Ret (g, cs) -> report demangle o' None q = Ret (g', cs') -> (exists n, live p n i) -> reported g i m -> reported g' (f i) m' -> (exact m <-> exact m') /\ (exact m -> m = m').
Proof. exact fold_exact. Qed.
Print Assumptions C105_folding_partial.
Example C105_example : wf_prog p_fold /\ wf_prog q_fold /\ folded_by p_fold q_fold fold_place /\ one_void p_fold /\ fits p_fold /\ fits q_fold /\ (exists n, live p_fold n 2) /\ fold_place 2 = 1 /\
  (exists g cs, report idd o_id None p_fold = Ret (g, cs) /\ length (gnodes g) = 4 /\ reported g 2 (MExact 20)) /\
  exists g cs, report idd o_rev None q_fold = Ret (g, cs) /\ length (gnodes g) = 3 /\ reported g 1 (MExact 20).
Proof. exact folding_example. Qed.
(** Functions of different types at one address: only one of the types is taken notice of.  An exact 108 becomes an exact 12, although the function is still called through a pointer. *)
Theorem C105_types_refuted :
  exists demangle o p q f, wf_prog p /\ wf_prog q /\ pg_defines q = pg_defines p /\ pg_sizes q = pg_sizes p /\ (forall n y, live q n y <-> exists j, live p n j /\ y = f j) /\
  (exists g cs, report demangle o None p = Ret (g, cs) /\ reported g 0 (MExact 108)) /\ exists g cs, report demangle o None q = Ret (g, cs) /\ reported g 0 (MExact 12).
Proof. do 5 eexists. exact types_differ. Qed.
Print Assumptions C105_types_refuted.
(** In general: if functions are followed by all those of another program that are related to them, then an exact maximum of one of those is not smaller, and the maximum is exact before. *)
Theorem C105_related_functions_partial :
  forall demangle o o' p q F i i' g cs g' cs' m m', wf_prog p -> wf_prog q -> fair o -> fair o' -> one_void p -> fits q ->
  settled p (on_left F) -> followed p q F -> F i i' -> i < length (pg_defined p) -> i' < length (pg_defined q) ->
  report demangle o None p = Ret (g, cs) -> report demangle o' None q = Ret (g', cs') -> reported g i m -> reported g' i' m' -> exact m' -> (num m <= num m')%N /\ exact m.
Proof. exact followed_exact. Qed.
Print Assumptions C105_related_functions_partial.
(** One function is related to two. *)
Example C105_example_related : wf_prog q_fold /\ wf_prog p_fold /\ one_void q_fold /\ fits p_fold /\ settled q_fold (on_left (flipped (folds p_fold fold_place))) /\
  followed q_fold p_fold (flipped (folds p_fold fold_place)) /\ flipped (folds p_fold fold_place) 1 1 /\ flipped (folds p_fold fold_place) 1 2 /\
  (exists g cs, report idd o_id None q_fold = Ret (g, cs) /\ reported g 1 (MExact 20)) /\ exists g cs, report idd o_rev None p_fold = Ret (g, cs) /\ reported g 2 (MExact 20).
Proof. exact related_example. Qed.
(** Functions that follow each other have the same exact maxima. *)
Theorem C105_both_ways_partial :
  forall demangle o o' p q F i i' g cs g' cs' m m', wf_prog p -> wf_prog q -> fair o -> fair o' -> one_void p -> fits p -> fits q ->
  settled p (on_left F) -> followed p q F -> settled q (on_left (flipped F)) -> followed q p (flipped F) -> F i i' -> i < length (pg_defined p) -> i' < length (pg_defined q) ->
  report demangle o None p = Ret (g, cs) -> report demangle o' None q = Ret (g', cs') -> reported g i m -> reported g' i' m' -> (exact m <-> exact m') /\ (exact m -> m = m').
Proof. exact both_exact. Qed.
Print Assumptions C105_both_ways_partial.
Example C105_example_both_ways : wf_prog p_fold /\ wf_prog q_fold /\ one_void p_fold /\ fits p_fold /\ fits q_fold /\ settled p_fold (on_left (folds p_fold fold_place)) /\ followed p_fold q_fold (folds p_fold fold_place) /\
  settled q_fold (on_left (flipped (folds p_fold fold_place))) /\ followed q_fold p_fold (flipped (folds p_fold fold_place)) /\ folds p_fold fold_place 0 0 /\
  (exists g cs, report idd o_id None p_fold = Ret (g, cs) /\ reported g 0 (MExact 28)) /\ exists g cs, report idd o_rev None q_fold = Ret (g, cs) /\ reported g 0 (MExact 28).
Proof. exact ways_example. Qed.
(** The first theorem below any start points, which can be different for the two programs. *)
Theorem C105_below_start_points_partial :
  forall demangle o o' start start' p q f g cs g' cs', wf_prog p -> wf_prog q -> folded_by p q f -> fair o -> fair o' -> sizes_u64 p -> sizes_u64 q -> one_void p -> fits p -> fits q ->
  report demangle o start p = Ret (g, cs) -> report demangle o' start' q = Ret (g', cs') ->
  exists ks void ks' void', pictures demangle p start ks void (gnodes g) (gedges g) /\ pictures demangle q start' ks' void' (gnodes g') (gedges g') /\
  forall i k k' m m' n, live p n i -> nth_error ks k = Some (KReal i) -> nth_error ks' k' = Some (KReal (f i)) -> reported g k m -> reported g' k' m' -> (exact m <-> exact m') /\ (exact m -> m = m').
Proof. exact fold_starts. Qed.
Print Assumptions C105_below_start_points_partial.
Example C105_example_start : wf_prog p_fold /\ wf_prog q_fold /\ folded_by p_fold q_fold fold_place /\ sizes_u64 p_fold /\ sizes_u64 q_fold /\ one_void p_fold /\ fits p_fold /\ fits q_fold /\ live p_fold (lit "b") 2 /\
  (exists g cs, report idd o_id (Some (lit "b")) p_fold = Ret (g, cs) /\ length (gnodes g) = 2) /\ exists g cs, report idd o_rev None q_fold = Ret (g, cs) /\ length (gnodes g) = 3 /\ reported g 1 (MExact 20).
Proof. exact fold_start_example. Qed.
(** Functions that follow each other, in the files that two runs of the tool print (names without backslash, as in C16). *)
Theorem C105_printed_maxima_partial :
  forall demangle w w' t t' c c', sane w -> sane w' -> main demangle w = (t, c) -> main demangle w' = (t', c') -> c = 0%Z -> c' = 0%Z -> a_format (w_args w) = Dot -> a_format (w_args w') = Dot ->
  exists target file rlib ll p out target' file' rlib' ll' q out', analyses w target file rlib ll p /\ printed t = [out] /\ analyses w' target' file' rlib' ll' q /\ printed t' = [out'] /\
  ((forall g cycles nd, report demangle (w_orders w) (a_start (w_args w)) p = Ret (g, cycles) -> In nd (gnodes g) -> no_backslash (demangle (nname nd))) ->
   (forall g cycles nd, report demangle (w_orders w') (a_start (w_args w')) q = Ret (g, cycles) -> In nd (gnodes g) -> no_backslash (demangle (nname nd))) ->
   sizes_u64 p -> sizes_u64 q -> one_void p -> fits p -> fits q ->
   exists ks nds ks' nds', prints demangle p out ks nds /\ prints demangle q out' ks' nds' /\
   forall F i i' k k' nd nd' m m', settled p (on_left F) -> followed p q F -> settled q (on_left (flipped F)) -> followed q p (flipped F) -> F i i' ->
   nth_error ks k = Some (KReal i) -> nth_error nds k = Some nd -> nmax nd = Some m -> nth_error ks' k' = Some (KReal i') -> nth_error nds' k' = Some nd' -> nmax nd' = Some m' ->
   (exact m <-> exact m') /\ (exact m -> m = m')).
Proof. exact printed_both. Qed.
Print Assumptions C105_printed_maxima_partial.
Example C105_example_runs : sane (started None ex_w) /\ sane (started (Some (lit "leaf")) ex_w) /\
  (exists t t', main idd (started None ex_w) = (t, 0%Z) /\ main idd (started (Some (lit "leaf")) ex_w) = (t', 0%Z) /\ printed t <> printed t') /\
  a_format (w_args (started None ex_w)) = Dot /\ sizes_u64 ex_p /\ one_void ex_p /\ fits ex_p /\ settled ex_p (on_left eq) /\ followed ex_p ex_p eq /\ followed ex_p ex_p (flipped eq).
Proof.
  destruct runs_example as [A [B [C [D [E [F [Ft _]]]]]]]. split; [exact A|]. split; [exact B|]. split; [exact C|]. split; [exact D|]. split; [exact E|]. split; [exact F|]. split; [exact Ft|].
  split; [apply ex_calm|]. split; [exact (followed_refl ex_p) | exact (followed_refl_flipped ex_p)].
Qed.
