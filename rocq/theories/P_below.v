(** C101: functions that cannot be reached do not matter. *)
From Verif Require Import M_base M_stack M_graph M_names M_thumb M_ty M_parse M_render M_build M_run M_wrapper M_driver S_graph S_render S_build S_run S_driver S_part S_below S_prints X_build X_driver L_below L_below2 L_below3 X_below X_below2.

(** C101: the maximum of a function depends on the functions that it can reach, in any program, whatever the target and the iteration orders.  If these
    functions are found in another program too, with the same sizes, statements and jumps, and with the same meaning of the names and pointer types that
    they use, the same maximum is printed there: at whatever address they are, and whatever else that program has. *)
Theorem C101_same_below_partial :
  forall demangle o o' p q f i g cs g' cs' m m', wf_prog p -> wf_prog q -> fair o -> fair o' -> sizes_u64 p -> sizes_u64 q -> one_void p ->
  settled p (reaches p i) -> settled q (fun y => exists j, reaches p i j /\ y = f j) -> same_below p q f (reaches p i) ->
  i < length (pg_defined p) -> f i < length (pg_defined q) ->
  report demangle o None p = Ret (g, cs) -> report demangle o' None q = Ret (g', cs') -> reported g i m -> reported g' (f i) m' -> m = m'.
Proof. exact below_decides. Qed.
Print Assumptions C101_same_below_partial.
Example C101_example : same_below p_low r_low (shifted []) (reaches p_low 0) /\ reaches p_low 0 1 /\ settled p_low (reaches p_low 0) /\ settled r_low (fun y => exists j, reaches p_low 0 j /\ y = shifted [] j).
Proof. exact r_below. Qed.
(** Functions that cannot be reached can be written anew. *)
Theorem C101_rewritten_partial :
  forall demangle o o' p q i g cs g' cs' m m', wf_prog p -> wf_prog q -> fair o -> fair o' -> sizes_u64 p -> sizes_u64 q -> one_void p ->
  settled p (reaches p i) -> settled q (reaches p i) -> rewritten p q (reaches p i) -> i < length (pg_defined p) ->
  report demangle o None p = Ret (g, cs) -> report demangle o' None q = Ret (g', cs') -> reported g i m -> reported g' i m' -> m = m'.
Proof. exact rewritten_decides. Qed.
Print Assumptions C101_rewritten_partial.
Example C101_example_rewritten : wf_prog p_low /\ wf_prog q_low /\ sizes_u64 p_low /\ sizes_u64 q_low /\ one_void p_low /\ settled p_low (reaches p_low 0) /\ settled q_low (reaches p_low 0) /\
  rewritten p_low q_low (reaches p_low 0) /\
  (exists g cs, report idd o_id None p_low = Ret (g, cs) /\ reported g 0 (MExact 24) /\ reported g 2 (MExact 124)) /\
  exists g cs, report idd o_rev None q_low = Ret (g, cs) /\ reported g 0 (MExact 24) /\ reported g 2 (MLower 20).
Proof. exact low_example. Qed.
(** Functions that cannot be reached can be added: on a target whose machine code is not read, the function [x] behind the functions [l1]. *)
Theorem C101_added_partial :
  forall demangle o o' p q l1 x l2 d k i g cs g' cs' m m', wf_prog p -> wf_prog q -> fair o -> fair o' -> sizes_u64 p -> sizes_u64 q -> one_void p ->
  added p q (reaches p i) l1 x l2 d k -> settled p (reaches p i) -> settled q (fun y => exists j, reaches p i j /\ y = shifted l1 j) -> i < length (pg_defined p) ->
  report demangle o None p = Ret (g, cs) -> report demangle o' None q = Ret (g', cs') -> reported g i m -> reported g' (shifted l1 i) m' -> m = m'.
Proof. exact added_decides. Qed.
Print Assumptions C101_added_partial.
Example C101_example_added : wf_prog p_low /\ wf_prog r_low /\ sizes_u64 p_low /\ sizes_u64 r_low /\ one_void p_low /\
  added p_low r_low (reaches p_low 0) [] (X_build.at_ 4080 ["boot"%string]) (pg_defined p_low) d_boot 1000 /\
  settled p_low (reaches p_low 0) /\ settled r_low (fun y => exists j, reaches p_low 0 j /\ y = shifted [] j) /\
  (exists g cs, report idd o_id None p_low = Ret (g, cs) /\ reported g 0 (MExact 24)) /\
  exists g cs, report idd o_id None r_low = Ret (g, cs) /\ reported g 0 (MLower 1024) /\ reported g 1 (MExact 24).
Proof. exact r_example. Qed.
(** Otherwise a function that cannot be reached does matter: its call of a memory routine outside of the executable makes the routine known to the tool,
    and the memory intrinsics of other functions then count as calls of it. *)
Theorem C101_memory_routine_refuted :
  exists demangle o p q, wf_prog p /\ wf_prog q /\ rewritten p q (reaches p 0) /\ ~ reaches p 0 1 /\
  (exists g cs, report demangle o None p = Ret (g, cs) /\ reported g 0 (MExact 8)) /\ exists g cs, report demangle o None q = Ret (g, cs) /\ reported g 0 (MLower 8).
Proof. do 4 eexists. exact lone_differ. Qed.
Print Assumptions C101_memory_routine_refuted.
(** The same below any start points, which can be different for the two programs. *)
Theorem C101_below_start_points_partial :
  forall demangle o o' start start' p q g cs g' cs', wf_prog p -> wf_prog q -> fair o -> fair o' -> sizes_u64 p -> sizes_u64 q -> one_void p ->
  report demangle o start p = Ret (g, cs) -> report demangle o' start' q = Ret (g', cs') ->
  exists ks void ks' void', pictures demangle p start ks void (gnodes g) (gedges g) /\ pictures demangle q start' ks' void' (gnodes g') (gedges g') /\
  forall f i k k' m m', settled p (reaches p i) -> settled q (fun y => exists j, reaches p i j /\ y = f j) -> same_below p q f (reaches p i) ->
  nth_error ks k = Some (KReal i) -> nth_error ks' k' = Some (KReal (f i)) -> reported g k m -> reported g' k' m' -> m = m'.
Proof. exact below_starts. Qed.
Print Assumptions C101_below_start_points_partial.
Example C101_example_start : wf_prog p_low /\ wf_prog r_low /\ sizes_u64 p_low /\ sizes_u64 r_low /\ one_void p_low /\ same_below p_low r_low (shifted []) (reaches p_low 0) /\
  settled p_low (reaches p_low 0) /\ settled r_low (fun y => exists j, reaches p_low 0 j /\ y = shifted [] j) /\
  (exists g cs, report idd o_id None p_low = Ret (g, cs) /\ length (gnodes g) = 4 /\ reported g 0 (MExact 24)) /\
  exists g cs, report idd o_rev (Some (lit "main")) r_low = Ret (g, cs) /\ length (gnodes g) = 3 /\ reported g 0 (MExact 24).
Proof. exact r_start. Qed.
(** The same of the files that two runs of the tool print (names without backslash, as in C16). *)
Theorem C101_printed_maxima_partial :
  forall demangle w w' t t' c c', sane w -> sane w' -> main demangle w = (t, c) -> main demangle w' = (t', c') -> c = 0%Z -> c' = 0%Z -> a_format (w_args w) = Dot -> a_format (w_args w') = Dot ->
  exists target file rlib ll p out target' file' rlib' ll' q out', analyses w target file rlib ll p /\ printed t = [out] /\ analyses w' target' file' rlib' ll' q /\ printed t' = [out'] /\
  ((forall g cycles nd, report demangle (w_orders w) (a_start (w_args w)) p = Ret (g, cycles) -> In nd (gnodes g) -> no_backslash (demangle (nname nd))) ->
   (forall g cycles nd, report demangle (w_orders w') (a_start (w_args w')) q = Ret (g, cycles) -> In nd (gnodes g) -> no_backslash (demangle (nname nd))) ->
   sizes_u64 p -> sizes_u64 q -> one_void p ->
   exists ks nds ks' nds', prints demangle p out ks nds /\ prints demangle q out' ks' nds' /\
   forall f i k k' nd nd' m m', settled p (reaches p i) -> settled q (fun y => exists j, reaches p i j /\ y = f j) -> same_below p q f (reaches p i) ->
   nth_error ks k = Some (KReal i) -> nth_error nds k = Some nd -> nmax nd = Some m -> nth_error ks' k' = Some (KReal (f i)) -> nth_error nds' k' = Some nd' -> nmax nd' = Some m' -> m = m').
Proof. exact printed_below. Qed.
Print Assumptions C101_printed_maxima_partial.
Example C101_example_runs : sane (started None ex_w) /\ sane (started (Some (lit "leaf")) ex_w) /\
  (exists t t', main idd (started None ex_w) = (t, 0%Z) /\ main idd (started (Some (lit "leaf")) ex_w) = (t', 0%Z) /\ printed t <> printed t') /\
  a_format (w_args (started None ex_w)) = Dot /\ sizes_u64 ex_p /\ one_void ex_p /\ settled ex_p (reaches ex_p 1) /\ same_below ex_p ex_p (fun j => j) (reaches ex_p 1).
Proof. destruct runs_example as [A [B [C [D [E [F [_ [G [H _]]]]]]]]]. exact (conj A (conj B (conj C (conj D (conj E (conj F (conj G H))))))). Qed.
