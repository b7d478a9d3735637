(** Specification vocabulary for call graphs: calls, reachability, call chains, recursion, stack usage
    of a chain.  Nothing here refers to the algorithms of the tool. *)
From Verif Require Import M_base M_stack M_graph.
Local Open Scope N_scope.

(** Reflexive transitive closure of a relation on node indices. *)
Inductive star (E : nat -> nat -> Prop) : nat -> nat -> Prop :=
| star_refl v : star E v v
| star_step u v w : E u v -> star E v w -> star E u w.

(** [u] calls [v] in the graph. *)
Definition calls {A} (g : graph A) (u v : nat) : Prop := In (u, v) (gedges g).

(** Edges only connect existing nodes (petgraph guarantees this). *)
Definition wf_graph {A} (g : graph A) : Prop :=
  forall u v, calls g u v -> (u < node_count g)%nat /\ (v < node_count g)%nat.

Definition reach {A} (g : graph A) : nat -> nat -> Prop := star (calls g).

(** [u] and [v] can each (transitively) call the other, or are the same function. *)
Definition mutual {A} (g : graph A) (u v : nat) : Prop := reach g u v /\ reach g v u.

(** [v] can call itself again, directly or through others. *)
Definition recursive {A} (g : graph A) (v : nat) : Prop :=
  exists w, calls g v w /\ reach g w v.

Definition acyclic {A} (g : graph A) : Prop := forall v, ~ recursive g v.

(** [chain g v p]: [p] is a chain of calls starting at [v] (the functions that are simultaneously on the
    call stack, outermost first).  It may visit a function several times (recursion). *)
Inductive chain {A} (g : graph A) : nat -> list nat -> Prop :=
| chain_one v : (v < node_count g)%nat -> chain g v [v]
| chain_call v w p : calls g v w -> chain g w p -> chain g v (v :: p).

(** Local stack usage of a function as far as it is known. *)
Definition local_of (g : graph node) (v : nat) : option local :=
  option_map nlocal (nth_error (gnodes g) v).
Definition known (g : graph node) (v : nat) (n : N) : Prop := local_of g v = Some (LExact n).
Definition unknown (g : graph node) (v : nat) : Prop := local_of g v = Some LUnknown.

(** [true_usage g w]: [w] gives the real stack usage of every function; it agrees with what is known and
    is arbitrary on functions of unknown usage. *)
Definition true_usage (g : graph node) (w : nat -> N) : Prop :=
  forall v n, known g v n -> w v = n.

(** Total usage of the functions of a chain. *)
Fixpoint total (w : nat -> N) (p : list nat) : N :=
  match p with
  | [] => 0
  | v :: p' => w v + total w p'
  end.

(** Known usage with unknown functions counted as 0. *)
Definition known_usage (g : graph node) (v : nat) : N :=
  match local_of g v with Some (LExact n) => n | _ => 0 end.

(** The reported maximum of a function. *)
Definition reported (g : graph node) (v : nat) (m : maxv) : Prop :=
  exists nd, nth_error (gnodes g) v = Some nd /\ nmax nd = Some m.

Definition num (m : maxv) : N := match m with MExact n => n | MLower n => n end.
Definition exact (m : maxv) : Prop := match m with MExact _ => True | MLower _ => False end.

(** The sum of all known local usages of the graph. *)
Definition sum_known (g : graph node) : N := total (known_usage g) (seq 0 (node_count g)).

(** Subsequence of a chain (keep some elements, in order). *)
Inductive sublist {A} : list A -> list A -> Prop :=
| sub_nil l : sublist [] l
| sub_take x a b : sublist a b -> sublist (x :: a) (x :: b)
| sub_skip x a b : sublist a b -> sublist a (x :: b).

(** No two entries of the list belong to the same recursion group. *)
Inductive one_per_group {A} (g : graph A) : list nat -> Prop :=
| opg_nil : one_per_group g []
| opg_cons v q : (forall u, In u q -> ~ mutual g v u) -> one_per_group g q -> one_per_group g (v :: q).

(** [charge g v n]: [n] is the largest known usage of a chain from [v] when out of each recursion group at
    most one function is charged. *)
Definition charge (g : graph node) (v : nat) (n : N) : Prop :=
  (exists p q, chain g v p /\ sublist q p /\ one_per_group g q /\ total (known_usage g) q = n) /\
  (forall p q, chain g v p -> sublist q p -> one_per_group g q -> total (known_usage g) q <= n).

(** The chains from [v], charged in this way, use less than 2^64 bytes. *)
Definition below_2_64 (g : graph node) (v : nat) : Prop :=
  forall p q, chain g v p -> sublist q p -> one_per_group g q -> total (known_usage g) q < 2 ^ 64.
(** The local usages are numbers of 64 bits. *)
Definition usages_u64 (g : graph node) : Prop := forall u n, known g u n -> n < 2 ^ 64.

(** [h] is called from the recursion group of [v] and is not in it. *)
Definition leaves_group {A} (g : graph A) (v h : nat) : Prop :=
  ~ mutual g v h /\ exists x, mutual g v x /\ calls g x h.
(** [n] is the largest known usage in the recursion group of [v]. *)
Definition group_top (g : graph node) (v : nat) (n : N) : Prop :=
  (exists u, mutual g v u /\ known_usage g u = n) /\ forall u, mutual g v u -> known_usage g u <= n.
(** [wrapped g v n]: the sum that goes with [v] if additions are made modulo 2^64: the largest usage in the group of [v], plus the largest
    of the sums that go with the functions called from there. *)
Inductive wrapped (g : graph node) : nat -> N -> Prop :=
| wrapped_last v top : group_top g v top -> (forall h, ~ leaves_group g v h) -> wrapped g v top
| wrapped_call v top h sum : group_top g v top -> leaves_group g v h -> (forall w, leaves_group g v w -> wrapped g w (sum w)) ->
    (forall w, leaves_group g v w -> sum w <= sum h) -> wrapped g v ((top + sum h) mod 2 ^ 64).

(** Something reachable from [v] makes the usage of [v] unbounded or unknown. *)
Definition uncertain (g : graph node) (v : nat) : Prop :=
  (exists u, reach g v u /\ unknown g u) \/
  (exists u n, reach g v u /\ recursive g u /\ known g u n /\ n <> 0).

(** Two call graphs with the same functions and the same caller/callee pairs up to the numbering [f] of
    nodes ([f'] is its inverse); parallel edges and edge order do not matter. *)
Record renumbering (g1 g2 : graph node) (f f' : nat -> nat) : Prop := {
  rn_lt : forall v, (v < node_count g1)%nat -> (f v < node_count g2)%nat;
  rn_lt' : forall v, (v < node_count g2)%nat -> (f' v < node_count g1)%nat;
  rn_inv : forall v, (v < node_count g1)%nat -> f' (f v) = v;
  rn_inv' : forall v, (v < node_count g2)%nat -> f (f' v) = v;
  rn_local : forall v, (v < node_count g1)%nat -> local_of g2 (f v) = local_of g1 v;
  rn_calls : forall u v, (u < node_count g1)%nat -> (v < node_count g1)%nat ->
             (calls g1 u v <-> calls g2 (f u) (f v))
}.
