(** Specification of the start point filter. *)
From Verif Require Import M_base M_stack M_graph S_graph.

Definition edge_dec : forall a b : nat * nat, {a = b} + {a <> b}.
Proof. decide equality; apply Nat.eq_dec. Defined.

(** [g2] is the part of [g] reachable from [start]; [ids] lists for each node of [g2] the node of [g] it is
    a copy of. *)
Record restricted (g : graph node) (start : nat) (g2 : graph node) (ids : list nat) : Prop := {
  rs_nodup : NoDup ids;
  rs_start : nth_error ids 0 = Some start;
  rs_reach : forall v, In v ids <-> reach g start v;
  rs_count : length ids = node_count g2;
  rs_nodes : forall k v, nth_error ids k = Some v -> nth_error (gnodes g2) k = nth_error (gnodes g) v;
  rs_wf : wf_graph g2;
  rs_edges : forall k l u v, nth_error ids k = Some u -> nth_error ids l = Some v ->
             count_occ edge_dec (gedges g2) (k, l) = count_occ edge_dec (gedges g) (u, v)
}.

(** A rustc hash suffix: [::h] and 16 hexadecimal digits. *)
Definition is_hex (c : ascii) : bool :=
  is_digit c || ((97 <=? code c) && (code c <=? 102))%N.
Definition hash_suffix (h : str) : Prop :=
  exists d, h = lit "::h" ++ d /\ length d = 16 /\ forallb is_hex d = true.
Definition hashed_form (base d : str) : Prop := exists h, d = base ++ h /\ hash_suffix h.
