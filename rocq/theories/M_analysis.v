(** Model of the maximum stack usage pass of [run]: main.rs 1135-1215. *)
From Verif Require Import M_base M_stack M_graph.

(** Assignment to [g[i].max] (main.rs 1177-1179, 1192-1194, 1210-1212). *)
Fixpoint upd_nth {A} (l : list A) (i : nat) (f : A -> A) : list A :=
  match l, i with
  | [], _ => []
  | x :: l', O => f x :: l'
  | x :: l', S i' => x :: upd_nth l' i' f
  end.

(** main.rs 1177-1179, 1192-1194, 1210-1212. *)
Definition set_node_max (g : graph node) (i : nat) (m : maxv) : graph node :=
  mkG (upd_nth (gnodes g) i (fun nd => set_max nd (Some m))) (gedges g).

(** [g[i].local]; indexing a missing node panics (main.rs 1153, 1192-1194, 1210-1212). *)
Definition get_local (g : graph node) (i : nat) : outcome local :=
  match nth_error (gnodes g) i with
  | Some nd => Ret (nlocal nd)
  | None => Panic "Graph::index: node index out of bounds"
  end.

(** [g[i].max.expect("UNREACHABLE")] (main.rs 1169, 1187, 1206). *)
Definition get_max (g : graph node) (i : nat) : outcome maxv :=
  match nth_error (gnodes g) i with
  | Some nd => match nmax nd with Some m => Ret m | None => Panic "UNREACHABLE" end
  | None => Panic "Graph::index: node index out of bounds"
  end.

(** Evaluating a fallible closure over an iterator, left to right (main.rs 1153, 1162-1172, 1185-1188, 1204-1207). *)
Fixpoint map_outcome {A B} (f : A -> outcome B) (l : list A) : outcome (list B) :=
  match l with
  | [] => Ret []
  | x :: l' => let* y := f x in let* ys := map_outcome f l' in Ret (y :: ys)
  end.

(** main.rs 1149-1181: one SCC that is a cycle. *)
Definition process_cycle (g : graph node) (scc : list nat) : outcome (graph node) :=
  let* locals := map_outcome (get_local g) scc in
  match max_of (map local_into_max locals) with
  | None => Panic "UNREACHABLE"
  | Some scc_local0 =>
    let scc_local :=
      match scc_local0 with
      | MExact n => if N.eqb n 0 then scc_local0 else MLower n
      | MLower _ => scc_local0
      end in
    let* neighbors :=
      map_outcome (get_max g)
        (filter (fun neighbor => negb (mem neighbor scc)) (flat_map (out_nbrs g) scc)) in
    let m := match max_of neighbors with
             | Some mx => add_max mx scc_local
             | None => scc_local
             end in
    Ret (fold_left (fun g inode => set_node_max g inode m) scc g)
  end.

(** main.rs 1183-1195 and 1204-1213: a node that is not part of a cycle. *)
Definition process_single (g : graph node) (inode : nat) : outcome (graph node) :=
  let* neighbors := map_outcome (get_max g) (out_nbrs g inode) in
  let* l := get_local g inode in
  let m := match max_of neighbors with
           | Some mx => add_local mx l
           | None => local_into_max l
           end in
  Ret (set_node_max g inode m).

(** main.rs 1145-1147 [is_a_cycle]. *)
Definition is_a_cycle (g : graph node) (scc : list nat) (first : nat) : bool :=
  Nat.ltb 1 (length scc) || mem first (out_nbrs g first).

(** main.rs 1141-1197: the loop over the SCCs; also collects [cycles]. *)
Fixpoint process_sccs (g : graph node) (sccs : list (list nat)) (cycles : list (list nat))
  : outcome (graph node * list (list nat)) :=
  match sccs with
  | [] => Ret (g, rev cycles)
  | scc :: rest =>
    match scc with
    | [] => Panic "index out of bounds: scc[0]"
    | first :: _ =>
      if is_a_cycle g scc first then
        let* g' := process_cycle g scc in process_sccs g' rest (scc :: cycles)
      else
        let* g' := process_single g first in process_sccs g' rest cycles
    end
  end.

(** main.rs 1200-1214: the loop over the topological order.  ([debug_assert!] is compiled out.) *)
Fixpoint process_topo (g : graph node) (order : list nat) : outcome (graph node) :=
  match order with
  | [] => Ret g
  | v :: rest => let* g' := process_single g v in process_topo g' rest
  end.

(** The two passes, main.rs 1139-1197 and 1200-1214. *)
Definition cyclic_pass (g : graph node) : outcome (graph node * list (list nat)) :=
  match kosaraju_scc g with
  | Some sccs => process_sccs g sccs []
  | None => Fuel
  end.

(** main.rs 1198-1215: the pass over a graph without cycles. *)
Definition acyclic_pass (g : graph node) : outcome (graph node * list (list nat)) :=
  match topo_reversed g with
  | Some order => let* g' := process_topo g order in Ret (g', [])
  | None => Fuel
  end.

(** main.rs 1135-1215: returns the graph with the [max] fields set and the list of cycles. *)
Definition max_stack (has_stack_usage_info : bool) (g : graph node)
  : outcome (graph node * list (list nat)) :=
  if negb has_stack_usage_info then Ret (g, [])
  else
    match is_cyclic_directed g with
    | None => Fuel
    | Some true => cyclic_pass g
    | Some false => acyclic_pass g
    end.
