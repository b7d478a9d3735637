(** Model of the rest of [run]: main.rs 1067-1231, from the call graph to the output. *)
From Verif Require Import M_base M_stack M_graph M_analysis M_filter M_names M_render M_build.

(** main.rs 1067-1226: filter, analysis, shortening.  [b_info] is [has_stack_usage_info]. *)
Definition finish (demangle : str -> str) (start : option str) (b : built) : outcome (graph node * list (list nat)) :=
  let* g := filter_start demangle (b_indices b) start (b_g b) in
  let* (g, cycles) := max_stack (b_info b) g in
  let* g := shorten demangle (b_ambiguous b) g in
  Ret (g, cycles).
Definition report (demangle : str -> str) (o : orders) (start : option str) (p : prog) : outcome (graph node * list (list nat)) :=
  let* b := build demangle o p in finish demangle start b.

(** main.rs 1228-1231. *)
Inductive format := Dot | Top.
Definition output (demangle : str -> str) (o : orders) (start : option str) (f : format) (p : prog) : outcome str :=
  let* (g, cycles) := report demangle o start p in
  Ret (match f with Dot => dot demangle g cycles | Top => top demangle g end).
