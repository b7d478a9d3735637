(** Model of the parts of petgraph 0.6.3 the tool uses (main.rs 24-29): [DiGraph], [Dfs],
    [DfsPostOrder], [Topo], [depth_first_search] and the algorithms [kosaraju_scc] and
    [is_cyclic_directed].  petgraph itself is not in /repo; the definitions transcribe that version. *)
From Verif Require Import M_base.

(** [DiGraph<A, ()>]: node weights by index, edges (source, target) in insertion order (main.rs 420). *)
Record graph (A : Type) := mkG { gnodes : list A; gedges : list (nat * nat) }.
Arguments mkG {A} _ _.
Arguments gnodes {A} _.
Arguments gedges {A} _.

(** main.rs 420, 1096. *)
Definition empty_graph {A} : graph A := mkG [] [].

(** [Graph::add_node]: returns the index of the new node (main.rs 511, 587, 739, 912, 1046, 1054, 1106, 1116). *)
Definition add_node {A} (g : graph A) (a : A) : graph A * nat :=
  (mkG (gnodes g ++ [a]) (gedges g), length (gnodes g)).

(** [Graph::add_edge] (panics in petgraph if an end point does not exist; well-formedness of the
    graphs the tool builds is proved). *)
(** main.rs 592, 619, 748, 913, 926, 944, 1049, 1055, 1063, 1121. *)
Definition add_edge {A} (g : graph A) (u v : nat) : graph A :=
  mkG (gnodes g) (gedges g ++ [(u, v)]).

(** main.rs 1142-1215: the indices that petgraph gives out. *)
Definition node_count {A} (g : graph A) : nat := length (gnodes g).

(** [g.neighbors(v)] / [g.neighbors_directed(v, Outgoing)]: targets of the edges leaving [v], the most
    recently added edge first; with one entry per parallel edge. *)
(** main.rs 1111, 1146, 1163, 1186, 1205. *)
Definition out_nbrs {A} (g : graph A) (v : nat) : list nat :=
  rev (map snd (filter (fun e => Nat.eqb (fst e) v) (gedges g))).

(** [g.neighbors_directed(v, Incoming)] = [Reversed(&g).neighbors(v)] (main.rs 1200). *)
Definition in_nbrs {A} (g : graph A) (v : nat) : list nat :=
  rev (map fst (filter (fun e => Nat.eqb (snd e) v) (gedges g))).

(** [g.node_identifiers()] (main.rs 1138-1139). *)
Definition node_ids {A} (g : graph A) : list nat := seq 0 (node_count g).

(** Step budget that suffices for every traversal below (main.rs 1101, 1138, 1139, 1200). *)
Definition trav_fuel {A} (g : graph A) : nat := 2 + node_count g + length (gedges g).

(** The pushes of one visited node: [for succ in graph.neighbors(node) { if !discovered.is_visited(&succ)
    { stack.push(succ) } }].  The head of a stack list is its top. *)
(** main.rs 1101, 1139. *)
Definition push_undiscovered (nbrs disc stack : list nat) : list nat :=
  rev (filter (fun s => negb (mem s disc)) nbrs) ++ stack.

(** [Dfs::next] called until it returns [None]; the result lists the returned nodes in order and the
    final [discovered] set.  (In petgraph the caller's loop body runs between two [next]; the traversal
    does not depend on it.)  [None] = out of fuel. *)
(** main.rs 1101-1102. *)
Fixpoint dfs_run (nb : nat -> list nat) (fuel : nat) (stack disc acc : list nat)
  : option (list nat * list nat) :=
  match fuel with
  | O => None
  | S f =>
    match stack with
    | [] => Some (rev acc, disc)
    | v :: st =>
      if mem v disc then dfs_run nb f st disc acc
      else dfs_run nb f (push_undiscovered (nb v) (v :: disc) st) (v :: disc) (v :: acc)
    end
  end.

(** [DfsPostOrder::next] called until it returns [None]; [fin] is the [finished] set, most recently
    finished first, so it is also the reversed sequence of returned nodes. *)
(** main.rs 1139. *)
Fixpoint post_run (nb : nat -> list nat) (fuel : nat) (stack disc fin : list nat)
  : option (list nat * list nat) :=
  match fuel with
  | O => None
  | S f =>
    match stack with
    | [] => Some (disc, fin)
    | v :: st =>
      if mem v disc then
        if mem v fin then post_run nb f st disc fin
        else post_run nb f st disc (v :: fin)
      else post_run nb f (push_undiscovered (nb v) (v :: disc) stack) (v :: disc) fin
    end
  end.

(** First phase of [kosaraju_scc]: finishing times of the reversed graph (main.rs 1139). *)
Fixpoint kosaraju_phase1 (nb : nat -> list nat) (fuel : nat) (ids disc fin : list nat)
  : option (list nat) :=
  match ids with
  | [] => Some fin
  | i :: rest =>
    if mem i disc then kosaraju_phase1 nb fuel rest disc fin
    else match post_run nb fuel [i] disc fin with
         | Some (disc', fin') => kosaraju_phase1 nb fuel rest disc' fin'
         | None => None
         end
  end.

(** Second phase: nodes in decreasing finishing time; each [Dfs] run from an undiscovered leader collects
    one component. *)
(** main.rs 1139. *)
Fixpoint kosaraju_phase2 (nb : nat -> list nat) (fuel : nat) (order disc : list nat) (sccs : list (list nat))
  : option (list (list nat)) :=
  match order with
  | [] => Some (rev sccs)
  | i :: rest =>
    if mem i disc then kosaraju_phase2 nb fuel rest disc sccs
    else match dfs_run nb fuel [i] disc [] with
         | Some (scc, disc') => kosaraju_phase2 nb fuel rest disc' (scc :: sccs)
         | None => None
         end
  end.

(** [petgraph::algo::kosaraju_scc] (main.rs 1139). *)
Definition kosaraju_scc {A} (g : graph A) : option (list (list nat)) :=
  match kosaraju_phase1 (in_nbrs g) (trav_fuel g) (node_ids g) [] [] with
  | Some order => kosaraju_phase2 (out_nbrs g) (trav_fuel g) order [] []
  | None => None
  end.

(** [petgraph::visit::dfs_visitor] with the visitor of [is_cyclic_directed], which stops at the first
    [BackEdge]. *)
(** main.rs 1138. *)
Inductive dfs_result := DCont (disc fin : list nat) | DBack | DFuel.

(** main.rs 1138. *)
Fixpoint dfs_visitor (nb : nat -> list nat) (fuel : nat) (u : nat) (disc fin : list nat) : dfs_result :=
  match fuel with
  | O => DFuel
  | S f =>
    if mem u disc then DCont disc fin
    else
      (fix loop (vs disc fin : list nat) : dfs_result :=
         match vs with
         | [] => DCont disc (u :: fin)
         | v :: vs' =>
           if negb (mem v disc) then
             match dfs_visitor nb f v disc fin with
             | DCont disc' fin' => loop vs' disc' fin'
             | r => r
             end
           else if negb (mem v fin) then DBack
           else loop vs' disc fin
         end) (nb u) (u :: disc) fin
  end.

(** [depth_first_search(g, g.node_identifiers(), ..)] (main.rs 1138). *)
Fixpoint dfs_starts (nb : nat -> list nat) (fuel : nat) (ids disc fin : list nat) : dfs_result :=
  match ids with
  | [] => DCont disc fin
  | i :: rest =>
    match dfs_visitor nb fuel i disc fin with
    | DCont disc' fin' => dfs_starts nb fuel rest disc' fin'
    | r => r
    end
  end.

(** [petgraph::algo::is_cyclic_directed]; [None] = out of fuel (main.rs 1138). *)
Definition is_cyclic_directed {A} (g : graph A) : option bool :=
  match dfs_starts (out_nbrs g) (trav_fuel g) (node_ids g) [] [] with
  | DCont _ _ => Some false
  | DBack => Some true
  | DFuel => None
  end.

(** [Topo::next] until [None].  [nb] are the neighbours in the traversed graph, [rnb] those in its reverse;
    [tovisit] is a stack (head = top), [ordered] the visited set, most recent first. *)
(** main.rs 1200-1201. *)
Fixpoint topo_run (nb rnb : nat -> list nat) (fuel : nat) (tovisit ordered : list nat)
  : option (list nat) :=
  match fuel with
  | O => None
  | S f =>
    match tovisit with
    | [] => Some (rev ordered)
    | x :: st =>
      if mem x ordered then topo_run nb rnb f st ordered
      else
        let ordered' := x :: ordered in
        let ready := filter (fun y => forallb (fun b => mem b ordered') (rnb y)) (nb x) in
        topo_run nb rnb f (rev ready ++ st) ordered'
    end
  end.

(** [Topo::new(Reversed(&g))] followed by [topo.next(Reversed(&g))] until [None]: the initial nodes are
    those without incoming edges in [Reversed(&g)], i.e. without callees. *)
(** main.rs 1200-1201. *)
Definition topo_reversed {A} (g : graph A) : option (list nat) :=
  topo_run (in_nbrs g) (out_nbrs g) (trav_fuel g)
    (rev (filter (fun a => match out_nbrs g a with [] => true | _ => false end) (node_ids g))) [].
