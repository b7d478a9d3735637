(** Specification vocabulary for comparing the reports about two call graphs. *)
From Verif Require Import M_base M_stack M_graph S_graph.
Local Open Scope N_scope.

(** What [v] can reach in [g1] looks the same as what [f v] can reach in [g2]; nothing is said about the rest of the
    two graphs. *)
Record same_view (g1 g2 : graph node) (f : nat -> nat) (v : nat) : Prop := {
  vw_apart : forall a b, reach g1 v a -> reach g1 v b -> f a = f b -> a = b;
  vw_local : forall a, reach g1 v a -> local_of g2 (f a) = local_of g1 a;
  vw_calls : forall a b, reach g1 v a -> calls g1 a b -> calls g2 (f a) (f b);
  vw_back : forall a y, reach g1 v a -> calls g2 (f a) y -> exists b, calls g1 a b /\ y = f b
}.

(** [g2] has every call of [g1], and nothing is known to use less stack than in [g1]. *)
Record grows (g1 g2 : graph node) : Prop := {
  gr_count : (node_count g1 <= node_count g2)%nat;
  gr_calls : forall u v, calls g1 u v -> calls g2 u v;
  gr_usage : forall v, known_usage g1 v <= known_usage g2 v
}.

(** Nothing becomes known on the way. *)
Definition stays_unknown (g1 g2 : graph node) : Prop := forall v, unknown g1 v -> unknown g2 v.

(** The additional calls of [g2] close no cycle: functions that can call each other there could before. *)
Definition no_new_recursion (g1 g2 : graph node) : Prop := forall u v, mutual g2 u v -> mutual g1 u v.
