(** Model of the start point filter of [run]: main.rs 1067-1133. *)
From Verif Require Import M_base M_stack M_graph.

(** [BTreeMap<NodeIndex, NodeIndex>::get] on the map kept as an association list (main.rs 1103, 1113). *)
Fixpoint nget (m : list (nat * nat)) (i : nat) : option nat :=
  match m with
  | [] => None
  | (a, b) :: m' => if Nat.eqb a i then Some b else nget m' i
  end.

(** [indices.get(name)], [indices] being a map from symbol names to node indices (main.rs 1070). *)
Fixpoint sget {A} (m : list (str * A)) (k : str) : option A :=
  match m with
  | [] => None
  | (a, b) :: m' => if str_eqb a k then Some b else sget m' k
  end.

(** main.rs 1069-1092: which node the argument of `--start` denotes.  [demangle] stands for
    [rustc_demangle::demangle(..).to_string()]. *)
Definition resolve_start (demangle : str -> str) (indices : list (str * nat)) (start : str) : option nat :=
  match sget indices start with
  | Some i => Some i
  | None =>
    let start_ := start ++ lit "::h" in
    let hits := filter (fun kv => starts_with start_ (demangle (fst kv))) indices in
    match hits with
    | [] => None
    | [(_, i)] => Some i
    | _ :: _ :: _ => None
    end
  end.

(** main.rs 1103-1109 and 1113-1119: the copy of node [i1] in the new graph, created if needed. *)
Definition intern (g : graph node) (st : graph node * list (nat * nat)) (i1 : nat)
  : outcome (graph node * list (nat * nat) * nat) :=
  let '(g2, one2two) := st in
  match nget one2two i1 with
  | Some i2 => Ret (g2, one2two, i2)
  | None =>
    match nth_error (gnodes g) i1 with
    | Some nd => let '(g2', i2) := add_node g2 nd in Ret (g2', (i1, i2) :: one2two, i2)
    | None => Panic "Graph::index: node index out of bounds"
    end
  end.

(** main.rs 1111-1122: the edges of one caller. *)
Fixpoint copy_callees (g : graph node) (caller2 : nat) (callees : list nat)
    (st : graph node * list (nat * nat)) : outcome (graph node * list (nat * nat)) :=
  match callees with
  | [] => Ret st
  | callee1 :: rest =>
    let* (g2, one2two, callee2) := intern g st callee1 in
    copy_callees g caller2 rest (add_edge g2 caller2 callee2, one2two)
  end.

(** main.rs 1101-1123. *)
Fixpoint copy_callers (g : graph node) (callers : list nat) (st : graph node * list (nat * nat))
  : outcome (graph node * list (nat * nat)) :=
  match callers with
  | [] => Ret st
  | caller1 :: rest =>
    let* (g2, one2two, caller2) := intern g st caller1 in
    let* st' := copy_callees g caller2 (out_nbrs g caller1) (g2, one2two) in
    copy_callers g rest st'
  end.

(** main.rs 1094-1126: the subgraph reachable from [start]. *)
Definition reachable_subgraph (g : graph node) (start : nat) : outcome (graph node) :=
  match dfs_run (out_nbrs g) (trav_fuel g) [start] [] [] with
  | None => Fuel
  | Some (callers, _) =>
    let* (g2, _) := copy_callers g callers (empty_graph, []) in Ret g2
  end.

(** main.rs 1067-1133; an unresolved start point only logs an error. *)
Definition filter_start (demangle : str -> str) (indices : list (str * nat)) (start : option str)
    (g : graph node) : outcome (graph node) :=
  match start with
  | None => Ret g
  | Some s =>
    match resolve_start demangle indices s with
    | Some i => reachable_subgraph g i
    | None => Ret g
    end
  end.
