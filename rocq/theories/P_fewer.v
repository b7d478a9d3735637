(** C103: stack sizes that are missing. *)
From Verif Require Import M_base M_stack M_graph M_analysis M_names M_thumb M_ty M_parse M_render M_build M_run M_wrapper M_driver S_graph S_mono S_render S_build S_run S_driver S_part S_below S_fewer S_prints X_build X_driver X_below L_fewer L_fewer2 X_fewer X_fewer2.

(** C103: making usages unknown.  A maximum that is still exact is the one from before; other maxima do not become larger. *)
Theorem C103_unknown_usages :
  forall g1 g2 v g1' g2' c1 c2 m1 m2, wf_graph g1 -> usages_u64 g2 -> less_known g1 g2 ->
  max_stack true g1 = Ret (g1', c1) -> max_stack true g2 = Ret (g2', c2) -> reported g1' v m1 -> reported g2' v m2 ->
  (exact m1 -> m1 = m2) /\ (below_2_64 g2 v -> (num m1 <= num m2)%N).
Proof. exact less_known_max. Qed.
Print Assumptions C103_unknown_usages.
Example C103_example_graphs : wf_graph g_less /\ usages_u64 g_known /\ less_known g_less g_known /\
  (exists g cs, max_stack true g_less = Ret (g, cs) /\ reported g 0 (MLower 24) /\ reported g 1 (MExact 16)) /\
  (exists g cs, max_stack true g_known = Ret (g, cs) /\ reported g 0 (MExact 48) /\ reported g 1 (MExact 16)) /\ below_2_64 g_known 0.
Proof. exact less_example. Qed.
(** An executable without some of its stack sizes: a maximum that is exact without them is the one with them, and the numbers do not become larger.  On Thumb the
    machine code may still tell the usage. *)
Theorem C103_missing_sizes_partial :
  forall demangle o o' p l g cs g' cs' i m m', wf_prog p -> wf_prog (with_sizes p l) -> fewer_sizes p l -> fair o -> fair o' -> sizes_u64 p -> one_void p ->
  report demangle o None p = Ret (g, cs) -> report demangle o' None (with_sizes p l) = Ret (g', cs') -> i < length (pg_defined p) ->
  reported g i m -> reported g' i m' -> (exact m' -> m = m') /\ (fits p -> (num m' <= num m)%N).
Proof. exact fewer_plain. Qed.
Print Assumptions C103_missing_sizes_partial.
Example C103_example : wf_prog (low [] 100) /\ wf_prog (with_sizes (low [] 100) no_foo) /\ fewer_sizes (low [] 100) no_foo /\ sizes_u64 (low [] 100) /\ one_void (low [] 100) /\ fits (low [] 100) /\
  (exists g cs, report idd o_id None (low [] 100) = Ret (g, cs) /\ reported g 0 (MExact 24) /\ reported g 2 (MExact 100)) /\
  exists g cs, report idd o_rev None (with_sizes (low [] 100) no_foo) = Ret (g, cs) /\ reported g 0 (MLower 8) /\ reported g 2 (MExact 100).
Proof. exact fewer_example. Qed.
(** The same below any start points. *)
Theorem C103_below_start_points_partial :
  forall demangle o o' start start' p l g cs g' cs', wf_prog p -> wf_prog (with_sizes p l) -> fewer_sizes p l -> fair o -> fair o' -> sizes_u64 p -> one_void p ->
  report demangle o start p = Ret (g, cs) -> report demangle o' start' (with_sizes p l) = Ret (g', cs') ->
  exists ks void ks' void', pictures demangle p start ks void (gnodes g) (gedges g) /\ pictures demangle (with_sizes p l) start' ks' void' (gnodes g') (gedges g') /\
  forall i k k' m m', nth_error ks k = Some (KReal i) -> nth_error ks' k' = Some (KReal i) -> reported g k m -> reported g' k' m' ->
  (exact m' -> m = m') /\ (fits p -> (num m' <= num m)%N).
Proof. exact fewer_starts. Qed.
Print Assumptions C103_below_start_points_partial.
Example C103_example_start : wf_prog (low [] 100) /\ wf_prog (with_sizes (low [] 100) no_foo) /\ fewer_sizes (low [] 100) no_foo /\ sizes_u64 (low [] 100) /\ one_void (low [] 100) /\
  (exists g cs, report idd o_id (Some (lit "main")) (low [] 100) = Ret (g, cs) /\ length (gnodes g) = 3 /\ reported g 0 (MExact 24)) /\
  exists g cs, report idd o_rev None (with_sizes (low [] 100) no_foo) = Ret (g, cs) /\ reported g 0 (MLower 8).
Proof. exact fewer_start_example. Qed.
(** The same of the files that two runs of the tool print (names without backslash, as in C16). *)
Theorem C103_printed_maxima_partial :
  forall demangle w w' t t' c c', sane w -> sane w' -> main demangle w = (t, c) -> main demangle w' = (t', c') -> c = 0%Z -> c' = 0%Z -> a_format (w_args w) = Dot -> a_format (w_args w') = Dot ->
  exists target file rlib ll p out target' file' rlib' ll' q out', analyses w target file rlib ll p /\ printed t = [out] /\ analyses w' target' file' rlib' ll' q /\ printed t' = [out'] /\
  ((forall g cycles nd, report demangle (w_orders w) (a_start (w_args w)) p = Ret (g, cycles) -> In nd (gnodes g) -> no_backslash (demangle (nname nd))) ->
   (forall g cycles nd, report demangle (w_orders w') (a_start (w_args w')) q = Ret (g, cycles) -> In nd (gnodes g) -> no_backslash (demangle (nname nd))) ->
   sizes_u64 p -> one_void p -> forall l, q = with_sizes p l -> fewer_sizes p l ->
   exists ks nds ks' nds', prints demangle p out ks nds /\ prints demangle q out' ks' nds' /\
   forall i k k' nd nd' m m', nth_error ks k = Some (KReal i) -> nth_error nds k = Some nd -> nmax nd = Some m -> nth_error ks' k' = Some (KReal i) -> nth_error nds' k' = Some nd' -> nmax nd' = Some m' ->
   (exact m' -> m = m') /\ (fits p -> (num m' <= num m)%N)).
Proof. exact printed_fewer. Qed.
Print Assumptions C103_printed_maxima_partial.
Example C103_example_runs : sane ex_w /\ sane less_w /\ (exists t t', main idd ex_w = (t, 0%Z) /\ main idd less_w = (t', 0%Z) /\ printed t <> printed t') /\
  a_format (w_args ex_w) = Dot /\ sizes_u64 ex_p /\ one_void ex_p /\ fits ex_p /\ fewer_sizes ex_p less_sizes.
Proof. exact less_runs. Qed.
(** Functions made by the outliner: LLVM's size is printed if it is there, and the one found in the machine code if not. *)
Theorem C103_outlined_refuted :
  exists demangle o p l, wf_prog p /\ wf_prog (with_sizes p l) /\ sizes_u64 p /\ incl l (pg_sizes p) /\
  (exists g cs, report demangle o None p = Ret (g, cs) /\ reported g 0 (MExact 4)) /\ exists g cs, report demangle o None (with_sizes p l) = Ret (g, cs) /\ reported g 0 (MExact 8).
Proof. do 4 eexists. exact outlined_differ. Qed.
Print Assumptions C103_outlined_refuted.
(** A function with two names is known by the one that has a size.  Without its size, a call by the other name is found, and a lower bound becomes exact. *)
Theorem C103_two_names_refuted :
  exists demangle o p l, wf_prog p /\ wf_prog (with_sizes p l) /\ sizes_u64 p /\ incl l (pg_sizes p) /\
  (exists g cs, report demangle o None p = Ret (g, cs) /\ reported g 0 (MLower 0)) /\ exists g cs, report demangle o None (with_sizes p l) = Ret (g, cs) /\ reported g 0 (MExact 0).
Proof. do 4 eexists. exact alias_differ. Qed.
Print Assumptions C103_two_names_refuted.
