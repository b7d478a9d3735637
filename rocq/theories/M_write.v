(** Model of writing the output: [dot] (main.rs 1236-1288), [top] (main.rs 1290-1335) and [Escaper] (main.rs 1337-1386) with
    errors of stdout.  The text that is written if there are none is that of M_render. *)
From Verif Require Import M_base M_stack M_graph M_render.

(** The locked stdout: the bytes it accepted, the last one first, and the number of bytes that were offered to it.
    [fault n]: whether the [n]-th byte that is offered is refused, and with which error. *)
(** main.rs 1237-1238, 1291-1293. *)
Record sink := mkSink { sk_rev : str; sk_tried : nat }.
(** main.rs 1236-1334. *)
Definition faults : Type := nat -> option str.
(** [io::Result] with the state of stdout (main.rs 1236-1334). *)
Definition wr (A : Type) : Type := sink -> sink * outcome A.
(** main.rs 1236-1334. *)
Definition wret {A} (x : A) : wr A := fun k => (k, Ret x).
(** main.rs 1236-1334. *)
Definition wbind {A B} (m : wr A) (f : A -> wr B) : wr B := fun k =>
  match m k with
  | (k', Ret x) => f x k'
  | (k', Fail e) => (k', Fail e)
  | (k', Panic e) => (k', Panic e)
  | (k', Fuel) => (k', Fuel)
  end.
Notation "'wr*' x ':=' e1 'in' e2" := (wbind e1 (fun x => e2))
  (at level 200, x pattern, e1 at level 200, e2 at level 200, right associativity).

(** [write!(stdout, ...)?]: [io::Write::write_all] on the parts of the text, which stops at the first error.  The parts are joined
    here. *)
(** e.g. main.rs 1240, 1278. *)
Fixpoint write_all (fault : faults) (s : str) : wr unit :=
  match s with
  | [] => wret tt
  | c :: s' => fun k =>
      match fault (sk_tried k) with
      | Some e => (mkSink (sk_rev k) (S (sk_tried k)), Fail e)
      | None => write_all fault s' (mkSink (c :: sk_rev k) (S (sk_tried k)))
      end
  end.
(** A loop whose body ends with `?` (main.rs 1243, 1266, 1274, 1321). *)
Fixpoint write_each {A} (f : A -> wr unit) (l : list A) : wr unit :=
  match l with
  | [] => wret tt
  | x :: l' => wr* _ := f x in write_each f l'
  end.

(** main.rs 1372-1378: the closure in [write_char]. *)
Definition escaped_char (fault : faults) (c : ascii) : wr unit :=
  wr* _ := if Ascii.eqb c dquote then write_all fault [backslash] else wret tt in
  write_all fault [c].
(** main.rs 1363-1385 [write_str] over [write_char].  The result is the field [error] of the [Escaper] and the [fmt::Result]. *)
Fixpoint escape_str (fault : faults) (s : str) (error : outcome unit) (k : sink) : sink * (outcome unit * bool) :=
  match s with
  | [] => (k, (error, true))
  | c :: s' =>
      match escaped_char fault c k with
      | (k', Ret _) => escape_str fault s' error k'
      | (k', e) => (k', (e, false))
      end
  end.
(** main.rs 1248-1250 and 1330-1332: a new [Escaper], text written to it, its [fmt::Result] ignored ([ok]), `escaper.error?`. *)
Definition write_escaped (fault : faults) (s : str) : wr unit := fun k =>
  let '(k', (error, _)) := escape_str fault s (Ret tt) k in (k', error).

(** main.rs 1243-1263: one node. *)
Definition write_node (fault : faults) (demangle : str -> str) (x : nat * node) : wr unit :=
  let '(i, nd) := x in
  wr* _ := write_all fault (lit "    " ++ show_nat i ++ lit " [label=" ++ q) in
  wr* _ := write_escaped fault (demangle (nname nd)) in
  wr* _ := match nmax nd with Some m => write_all fault (esc_n ++ lit "max " ++ show_max m) | None => wret tt end in
  wr* _ := write_all fault (esc_n ++ lit "local = " ++ show_local (nlocal nd) ++ q) in
  wr* _ := if ndashed nd then write_all fault (lit " style=dashed") else wret tt in
  write_all fault (lit "]" ++ nl).
(** main.rs 1274-1285: one cluster. *)
Definition write_cluster (fault : faults) (x : nat * list nat) : wr unit :=
  let '(i, cycle) := x in
  wr* _ := write_all fault (nl ++ lit "    subgraph cluster_" ++ show_nat i ++ lit " {" ++ nl) in
  wr* _ := write_all fault (lit "        style=dashed" ++ nl) in
  wr* _ := write_all fault (lit "        fontname=" ++ font ++ nl) in
  wr* _ := write_all fault (lit "        label=" ++ q ++ lit "SCC" ++ show_nat i ++ q ++ nl) in
  wr* _ := write_each (fun v => write_all fault (lit "        " ++ show_nat v ++ nl)) cycle in
  write_all fault (lit "    }" ++ nl).
(** main.rs 1236-1288 [dot]. *)
Definition write_dot (fault : faults) (demangle : str -> str) (g : graph node) (cycles : list (list nat)) : wr unit :=
  wr* _ := write_all fault (lit "digraph {" ++ nl) in
  wr* _ := write_all fault (lit "    node [fontname=" ++ font ++ lit " shape=box]" ++ nl) in
  wr* _ := write_each (write_node fault demangle) (enum_from 0 (gnodes g)) in
  wr* _ := write_each (fun e => write_all fault (dot_edge e)) (gedges g) in
  wr* _ := write_each (write_cluster fault) (enum_from 0 cycles) in
  write_all fault (lit "}" ++ nl).

(** main.rs 1321-1333: one line of [top]. *)
Definition write_line (fault : faults) (demangle : str -> str) (nd : node) : wr unit :=
  wr* _ := write_all fault (show_N (top_usage nd) ++ lit " ") in
  write_escaped fault (demangle (nname nd) ++ nl).
(** main.rs 1290-1335 [top]. *)
Definition write_top (fault : faults) (demangle : str -> str) (g : graph node) : wr unit :=
  let nodes := gnodes g in
  wr* _ := match top_max nodes with Some n => write_all fault (show_N n ++ lit " MAX" ++ nl) | None => wret tt end in
  wr* _ := write_all fault (lit "Usage Function" ++ nl) in
  write_each (write_line fault demangle) (sort_nodes nodes).
