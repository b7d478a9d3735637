(** C88: debug builds and release builds of the tool. *)
From Verif Require Import M_base M_stack M_graph M_names M_thumb M_ty M_parse M_render M_build M_run M_wrapper M_driver M_debug L_driver3 L_filter2 S_graph S_build S_run S_debug S_driver S_thumb S_machine
  M_analysis X_build X_machine L_maxprops L_debug1 L_debug2 L_debug4 L_debug5 L_debug6 L_debug7.

(** C88: a debug build prints what a release build prints, whatever the program.  The two can only differ by an arithmetic check that stops the
    debug build; this happens (refutations below), but not for code below the middle of the address space whose usages fit 64 bits. *)
Theorem C88_debug_ends_as_release_or_overflows :
  forall demangle o start f p, wf_prog p -> fair o -> proper_tags (pg_tags p) -> same_or_overflow (output_d demangle o start f p) (output demangle o start f p).
Proof. intros demangle o start f p. exact (so_output demangle o start f p). Qed.
Print Assumptions C88_debug_ends_as_release_or_overflows.
Theorem C88_loaded_debug_ends_as_release_or_overflows :
  forall demangle w target file rlib ll p, sane w -> load w target file rlib ll = Ret p -> forall start f,
  same_or_overflow (output_d demangle (w_orders w) start f p) (output demangle (w_orders w) start f p).
Proof. exact so_loaded. Qed.
Print Assumptions C88_loaded_debug_ends_as_release_or_overflows.
Theorem C88_debug_prints_as_release_partial :
  forall demangle o start f p t, wf_prog p -> fair o -> proper_tags (pg_tags p) -> low_text p -> fits p ->
  output_d demangle o start f p = Ret t <-> output demangle o start f p = Ret t.
Proof. exact same_output. Qed.
Print Assumptions C88_debug_prints_as_release_partial.
Example C88_example : wf_prog m_p /\ fair o_id /\ proper_tags (pg_tags m_p) /\ low_text m_p /\ fits m_p /\
  exists g cs nd, report_d idd o_id None m_p = Ret (g, cs) /\ nth_error (gnodes g) 0 = Some nd /\ nmax nd = Some (MExact 16).
Proof. exact (conj m_wf (conj o_id_fair (conj m_tags (conj m_low (conj m_fits m_debug))))). Qed.

(** The branch `b.n` at the end of the lower half of the address space to the upper half: a release build finds the callee. *)
Theorem C88_branch_across_the_middle_refuted :
  exists demangle o p, wf_prog p /\ fair o /\ proper_tags (pg_tags p) /\ fits p /\
  (exists g cs, report demangle o None p = Ret (g, cs) /\ gedges g = [(0, 1)]) /\ report_d demangle o None p = Panic "attempt to add with overflow".
Proof. exists idd, o_id, high_p. exact high_differs. Qed.
Print Assumptions C88_branch_across_the_middle_refuted.
(** Usages whose sum is 2^64: the maximum printed by a release build is zero. *)
Theorem C88_usages_that_do_not_fit_refuted :
  exists demangle o p, wf_prog p /\ fair o /\ proper_tags (pg_tags p) /\ low_text p /\
  (exists g cs nd, report demangle o None p = Ret (g, cs) /\ nth_error (gnodes g) 0 = Some nd /\ nmax nd = Some (MExact 0)) /\
  report_d demangle o None p = Panic "attempt to add with overflow".
Proof. exists idd, o_id, big_p. exact big_differs. Qed.
Print Assumptions C88_usages_that_do_not_fit_refuted.

(** These are the only two differences, for code anywhere that is smaller than half the address space: a debug build prints what a release
    build prints exactly if no branch leads across the middle and the charge of every function shown fits 64 bits. *)
Theorem C88_debug_agrees_exactly_partial :
  forall demangle o start f p t, wf_prog p -> fair o -> proper_tags (pg_tags p) -> sizes_u64 p -> text_fits p ->
  output_d demangle o start f p = Ret t <-> output demangle o start f p = Ret t /\ no_crossing p /\
    forall g cs, report demangle o start p = Ret (g, cs) -> forall v m, reported g v m -> below_2_64 g v.
Proof. exact output_d_iff. Qed.
Print Assumptions C88_debug_agrees_exactly_partial.
Theorem C88_debug_graph_exactly_partial :
  forall demangle o start p g cs, wf_prog p -> fair o -> proper_tags (pg_tags p) -> sizes_u64 p -> text_fits p ->
  report_d demangle o start p = Ret (g, cs) <-> report demangle o start p = Ret (g, cs) /\ no_crossing p /\ forall v m, reported g v m -> below_2_64 g v.
Proof. exact report_d_iff. Qed.
Print Assumptions C88_debug_graph_exactly_partial.
Example C88_example_upper_half : wf_prog up_p /\ fair o_id /\ proper_tags (pg_tags up_p) /\ sizes_u64 up_p /\ text_fits up_p /\ ~ low_text up_p /\ no_crossing up_p /\
  exists g cs, report_d idd o_id None up_p = Ret (g, cs) /\ gedges g = [(0, 1)].
Proof. exact up_ok. Qed.
Example C88_example_crossing : text_fits high_p /\ sizes_u64 high_p /\ ~ no_crossing high_p /\ exists g cs, report idd o_id None high_p = Ret (g, cs).
Proof. exact high_crosses. Qed.

(** The maxima: a debug build finds them exactly if every charge fits 64 bits ... *)
Theorem C88_debug_maxima_exactly_if_they_fit :
  forall g x, wf_graph g -> usages_u64 g -> fresh g ->
  max_stack_d true g = Ret x <-> max_stack true g = Ret x /\ forall v, v < node_count g -> below_2_64 g v.
Proof. intros g x W U. exact (max_stack_d_iff g W U x). Qed.
Print Assumptions C88_debug_maxima_exactly_if_they_fit.
Example C88_example_maxima : wf_graph wrapping /\ usages_u64 wrapping /\ fresh wrapping /\ max_stack true wrapping = Ret wrapping_done /\ ~ below_2_64 wrapping 0 /\
  max_stack_d true wrapping = Panic "attempt to add with overflow".
Proof. exact wrapping_debug. Qed.
(** ... so a number that a debug build reports is always the charge of the function, with no assumption on how large the usages are. *)
Theorem C88_debug_numbers_are_right :
  forall demangle o start p g cs, wf_prog p -> fair o -> proper_tags (pg_tags p) -> sizes_u64 p -> report_d demangle o start p = Ret (g, cs) ->
  report demangle o start p = Ret (g, cs) /\ forall v m, reported g v m -> forall n, charge g v n <-> n = num m.
Proof. exact debug_right. Qed.
Print Assumptions C88_debug_numbers_are_right.
Example C88_example_numbers : wf_prog m_p /\ fair o_id /\ proper_tags (pg_tags m_p) /\ sizes_u64 m_p /\
  exists g cs nd, report_d idd o_id None m_p = Ret (g, cs) /\ nth_error (gnodes g) 0 = Some nd /\ nmax nd = Some (MExact 16).
Proof. exact (conj m_wf (conj o_id_fair (conj m_tags (conj m_sizes m_debug)))). Qed.

(** C58 for debug builds, partial ([covered_fn] as there): nothing needs to be known about the sums. *)
Theorem C58_debug_exact_maximum_bounds_executions_partial :
  forall demangle o start p g cs, wf_prog p -> fair o -> proper_tags (pg_tags p) -> sizes_u64 p -> report_d demangle o start p = Ret (g, cs) ->
  exists ks, length ks = node_count g /\
    (forall k i n nd, nth_error ks k = Some (KReal i) -> nth_error (gnodes g) k = Some nd -> nmax nd = Some (MExact n) ->
       forall l, runs p i l -> (forall x, In x l -> covered_fn p x) -> exists d, depth p l d /\ (d <= n)%N) /\
    (no_start demangle p start -> forall i, i < length (pg_defined p) -> nth_error ks i = Some (KReal i)) /\
    (forall s k, start = Some s -> denotes demangle p s k -> nth_error ks 0 = Some k) /\
    (forall k key nd, nth_error ks k = Some key -> nth_error (gnodes g) k = Some nd -> shows demangle p key nd).
Proof. exact debug_bounds. Qed.
Print Assumptions C58_debug_exact_maximum_bounds_executions_partial.
Example C58_debug_example : wf_prog m_p /\ fair o_id /\ proper_tags (pg_tags m_p) /\ sizes_u64 m_p /\ covered m_p /\
  exists g cs nd, report_d idd o_id None m_p = Ret (g, cs) /\ nth_error (gnodes g) 0 = Some nd /\ nmax nd = Some (MExact 16).
Proof. exact (conj m_wf (conj o_id_fair (conj m_tags (conj m_sizes (conj m_covered m_debug))))). Qed.
(** C64 for debug builds: the stack which the machine uses. *)
Theorem C64_debug_exact_maximum_bounds_the_machine_partial :
  forall p lay, layout p lay ->
  forall demangle o start g cs, wf_prog p -> fair o -> proper_tags (pg_tags p) -> sizes_u64 p -> report_d demangle o start p = Ret (g, cs) ->
  exists ks, length ks = node_count g /\
    (forall k i n nd, nth_error ks k = Some (KReal i) -> nth_error (gnodes g) k = Some nd -> nmax nd = Some (MExact n) ->
       forall fs, executes p lay i fs -> (forall f, In f fs -> trusted p lay (fr_fn f)) -> (in_use fs <= n)%N) /\
    (no_start demangle p start -> forall i, i < length (pg_defined p) -> nth_error ks i = Some (KReal i)) /\
    (forall s k, start = Some s -> denotes demangle p s k -> nth_error ks 0 = Some k) /\
    (forall k key nd, nth_error ks k = Some key -> nth_error (gnodes g) k = Some nd -> shows demangle p key nd).
Proof. exact debug_machine. Qed.
Print Assumptions C64_debug_exact_maximum_bounds_the_machine_partial.
Example C64_debug_example : layout m_p m_lay /\ wf_prog m_p /\ fair o_id /\ proper_tags (pg_tags m_p) /\ sizes_u64 m_p /\ (forall i, trusted m_p m_lay i) /\
  (exists g cs nd, report_d idd o_id None m_p = Ret (g, cs) /\ nth_error (gnodes g) 0 = Some nd /\ nmax nd = Some (MExact 16)) /\
  executes m_p m_lay 0 [mkFrame 1 2 8; mkFrame 0 2 8].
Proof. exact (conj m_layout (conj m_wf (conj o_id_fair (conj m_tags (conj m_sizes (conj m_trusted (conj m_debug (proj1 m_exec)))))))). Qed.
(** In a release build the number of a function is too small if the sum does not fit 64 bits. *)
Theorem C58_sums_that_wrap_refuted :
  exists demangle o p g cs nd l d, wf_prog p /\ fair o /\ sizes_u64 p /\ covered p /\ report demangle o None p = Ret (g, cs) /\
  nth_error (gnodes g) 0 = Some nd /\ nmax nd = Some (MExact 0) /\ runs p 0 l /\ depth p l d /\ (0 < d)%N.
Proof. exact big_exceeds. Qed.
Print Assumptions C58_sums_that_wrap_refuted.
