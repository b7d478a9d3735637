(** C100: the order of the names of a function. *)
From Coq Require Import Permutation.
From Verif Require Import M_base M_stack M_graph M_names M_thumb M_ty M_parse M_render M_build M_run M_log M_wrapper M_driver S_graph S_render S_build S_run S_driver S_aliases
  X_build X_driver L_aliases L_aliases2 X_aliases.

(** C100: the order in which the symbol table lists the names of a function does not matter as long as the functions go by the same names and
    have the same types: the report and the messages are the same, whatever the target and the iteration orders. *)
Theorem C100_same_names_and_types :
  forall demangle o start p q, wf_prog p -> relisted p q -> same_choice p q ->
  report_log demangle o start q = report_log demangle o start p /\ forall f, output demangle o start f q = output demangle o start f p.
Proof. exact choice_output. Qed.
Print Assumptions C100_same_names_and_types.
Example C100_example_types : wf_prog p_equal /\ relisted p_equal q_equal /\ same_choice p_equal q_equal /\ ~ unambiguous p_equal.
Proof. exact equal_example. Qed.
(** This is so in any order if, at each address, a single name has a stack size and a single name has a type. *)
Theorem C100_any_order_partial :
  forall demangle o start p q, wf_prog p -> relisted p q -> unambiguous p ->
  report_log demangle o start q = report_log demangle o start p /\ forall f, output demangle o start f q = output demangle o start f p.
Proof. exact unambiguous_output. Qed.
Print Assumptions C100_any_order_partial.
Example C100_example : wf_prog p1 /\ relisted p1 q1 /\ unambiguous p1 /\ p1 <> q1 /\
  exists g cs, report idd o_id None p1 = Ret (g, cs) /\ map nname (firstn 5 (gnodes g)) = map lit ["main"; "foo_alias"; "bar"; "memcpy"; "leaf"]%string.
Proof. exact q1_example. Qed.
(** The whole tool: the same events in the same order, and the same exit code. *)
Theorem C100_runs_partial :
  forall demangle f w, sane w -> names_reordered f w ->
  forall t, main demangle w = (t, 0%Z) -> exists target file rlib ll p, analyses w target file rlib ll p /\ (unambiguous p -> main demangle (listing f w) = (t, 0%Z)).
Proof. exact main_al. Qed.
Print Assumptions C100_runs_partial.
Example C100_example_run : sane alias_w /\ names_reordered (leaf_names ["leaf"; "leaf_alias"]%string) alias_w /\ (exists t, main idd alias_w = (t, 0%Z) /\ printed t = [ex_out]) /\
  exists p, load alias_w (lit "x86_64-unknown-linux-gnu") (lit "my-app") (lit "t/cb.rlib") (lit "t/compiler_builtins-3f.ll") = Ret p /\ unambiguous p.
Proof. exact alias_run. Qed.

(** Otherwise it matters.  With two names that have sizes, the maximum is that of the first one ... *)
Theorem C100_two_sizes_refuted :
  exists demangle o p q, wf_prog p /\ relisted p q /\ exists g cs g' cs', report demangle o None p = Ret (g, cs) /\ report demangle o None q = Ret (g', cs') /\
  (exists x, nth_error (gnodes g) 0 = Some x /\ nmax x = Some (MExact 24)) /\ (exists x, nth_error (gnodes g') 0 = Some x /\ nmax x = Some (MExact 72)).
Proof. do 4 eexists. exact two_differ. Qed.
Print Assumptions C100_two_sizes_refuted.
(** ... without sizes, a call through a cast reaches the function by its first name only ... *)
Theorem C100_no_size_refuted :
  exists demangle o p q, wf_prog p /\ relisted p q /\ (forall n, In n (map lit ["foo"; "foo_alias"]%string) -> ~ sized p n) /\
  exists g cs g' cs', report demangle o None p = Ret (g, cs) /\ report demangle o None q = Ret (g', cs') /\ gedges g = [(0, 1)] /\ gedges g' = [(0, 2)].
Proof. do 4 eexists. exact cast_differ. Qed.
Print Assumptions C100_no_size_refuted.
(** ... and on Thumb a mapping symbol in front of the names stops the run. *)
Theorem C100_mapping_symbol_first_refuted :
  exists demangle o p q, wf_prog p /\ wf_prog q /\
  q = mkProg (pg_target p) (pg_defines p) (pg_declares p) (pg_sizes p) (pg_defined q) (pg_undefined p) (pg_tags p) (pg_text p) /\ Forall2 same_entry (pg_defined p) (pg_defined q) /\
  (exists g cs, report demangle o None p = Ret (g, cs)) /\ exists m, report demangle o None q = Panic m.
Proof. do 4 eexists. exact tagged_differ. Qed.
Print Assumptions C100_mapping_symbol_first_refuted.
