(** Model of the output: [dot] (main.rs 1236-1288), [top] (main.rs 1290-1335), [Escaper] (main.rs
    1337-1386) and the [Display] impls (main.rs 1416-1423, 1479-1486).  The text written to stdout is a
    string here; M_write has the same writers with write errors. *)
From Verif Require Import M_base M_stack M_graph.

(** main.rs 1416-1423 *)
Definition show_local (l : local) : str :=
  match l with
  | LExact n => show_N n
  | LUnknown => lit "?"
  end.

(** main.rs 1479-1486 *)
Definition show_max (m : maxv) : str :=
  match m with
  | MExact n => lit "= " ++ show_N n
  | MLower n => lit ">= " ++ show_N n
  end.

(** main.rs 1357-1386: [Escaper::write_str] over [write_char].  Working on bytes instead of characters
    is the same because the escaped character is ASCII. *)
Fixpoint escape (s : str) : str :=
  match s with
  | [] => []
  | c :: s' => if Ascii.eqb c dquote then backslash :: c :: escape s' else c :: escape s'
  end.

(** main.rs 95 *)
Definition font : str := lit "monospace".

(** main.rs 1246, 1256. *)
Definition q : str := [dquote].
(** The two characters backslash and n (main.rs 1253, 1256). *)
Definition esc_n : str := [backslash; "n"%char].

(** main.rs 1243-1263: one node line. *)
Definition dot_node (demangle : str -> str) (i : nat) (nd : node) : str :=
  lit "    " ++ show_nat i ++ lit " [label=" ++ q ++
  escape (demangle (nname nd)) ++
  match nmax nd with Some m => esc_n ++ lit "max " ++ show_max m | None => [] end ++
  esc_n ++ lit "local = " ++ show_local (nlocal nd) ++ q ++
  (if ndashed nd then lit " style=dashed" else []) ++
  lit "]" ++ nl.

(** [iter().enumerate()] starting at [i] (main.rs 1243, 1274). *)
Fixpoint enum_from {A} (i : nat) (l : list A) : list (nat * A) :=
  match l with
  | [] => []
  | x :: l' => (i, x) :: enum_from (S i) l'
  end.

(** main.rs 1265-1272: one edge line. *)
Definition dot_edge (e : nat * nat) : str :=
  lit "    " ++ show_nat (fst e) ++ lit " -> " ++ show_nat (snd e) ++ nl.

(** main.rs 1274-1285: one cluster. *)
Definition dot_cluster (i : nat) (cycle : list nat) : str :=
  nl ++ lit "    subgraph cluster_" ++ show_nat i ++ lit " {" ++ nl ++
  lit "        style=dashed" ++ nl ++
  lit "        fontname=" ++ font ++ nl ++
  lit "        label=" ++ q ++ lit "SCC" ++ show_nat i ++ q ++ nl ++
  flat_map (fun v => lit "        " ++ show_nat v ++ nl) cycle ++
  lit "    }" ++ nl.

(** main.rs 1236-1288 [dot]. *)
Definition dot (demangle : str -> str) (g : graph node) (cycles : list (list nat)) : str :=
  lit "digraph {" ++ nl ++
  lit "    node [fontname=" ++ font ++ lit " shape=box]" ++ nl ++
  flat_map (fun p => dot_node demangle (fst p) (snd p)) (enum_from 0 (gnodes g)) ++
  flat_map dot_edge (gedges g) ++
  flat_map (fun p => dot_cluster (fst p) (snd p)) (enum_from 0 cycles) ++
  lit "}" ++ nl.

(** main.rs 1316-1317, 1323-1327: the local usage as shown by [top]. *)
Definition top_usage (nd : node) : N :=
  match nlocal nd with LExact n => n | LUnknown => 0 end.

(** [slice::sort_by] is a stable sort; modelled as insertion sort.  Comparator of main.rs 1315-1319:
    decreasing usage. *)
Fixpoint insert_node (nd : node) (l : list node) : list node :=
  match l with
  | [] => [nd]
  | x :: l' => if (top_usage x <=? top_usage nd)%N then nd :: l else x :: insert_node nd l'
  end.
Fixpoint sort_nodes (l : list node) : list node :=
  match l with
  | [] => []
  | x :: l' => insert_node x (sort_nodes l')
  end.

(** main.rs 1321-1333: one line of [top]. *)
Definition top_line (demangle : str -> str) (nd : node) : str :=
  show_N (top_usage nd) ++ lit " " ++ escape (demangle (nname nd) ++ nl).

(** main.rs 1301-1311: the number on the first line. *)
Definition top_max (nds : list node) : option N :=
  match max_of (map (fun nd => match nmax nd with Some m => m | None => MExact 0 end) nds) with
  | Some (MExact n) | Some (MLower n) => Some n
  | None => None
  end.

(** main.rs 1290-1335 [top]. *)
Definition top (demangle : str -> str) (g : graph node) : str :=
  let nodes := gnodes g in
  match top_max nodes with
  | Some n => show_N n ++ lit " MAX" ++ nl
  | None => []
  end ++
  lit "Usage Function" ++ nl ++
  flat_map (top_line demangle) (sort_nodes nodes).
