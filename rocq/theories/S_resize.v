(** Other stack sizes for the same code. *)
From Verif Require Import M_base M_stack M_graph M_thumb M_ty M_parse M_build S_names S_graph S_build S_fewer.

(** With the stack sizes [l], functions are known by the same names. *)
Definition same_known (p : prog) (l : list (str * N)) : Prop := forall i n, chosen (with_sizes p l) i n <-> chosen p i n.
(** [g1] and [g2] are the same functions with the same calls; their usages can be different. *)
Record same_calls (g1 g2 : graph node) : Prop := {
  sc_count : node_count g1 = node_count g2;
  sc_edges : gedges g1 = gedges g2
}.
Definition at_least (u : M_stack.local) : N := match u with LExact n => n | LUnknown => 0%N end.
(** [raised p l xs d]: with the stack sizes [l], a function [i] in [xs] uses at most [d i] more than before, and other functions do not use more. *)
Definition raised (p : prog) (l : list (str * N)) (xs : list nat) (d : nat -> N) : Prop :=
  forall i a b, usage p i a -> usage (with_sizes p l) i (LExact b) -> (b <= at_least a + d i)%N /\ (~ In i xs -> (b <= at_least a)%N).
(** [same_kind p l]: with the stack sizes [l], the same functions use nothing, and the usages of the same functions are unknown. *)
Definition same_kind (p : prog) (l : list (str * N)) : Prop :=
  forall i, (usage (with_sizes p l) i LUnknown <-> usage p i LUnknown) /\ (usage (with_sizes p l) i (LExact 0) <-> usage p i (LExact 0)).
