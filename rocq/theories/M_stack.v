(** Model of the stack usage lattice: main.rs 1388-1486. *)
From Verif Require Import M_base.
Local Open Scope N_scope.

(** main.rs 1410-1414  [enum Local { Exact(u64), Unknown }] *)
Inductive local := LExact (n : N) | LUnknown.

(** main.rs 1434-1438  [enum Max { Exact(u64), LowerBound(u64) }] *)
Inductive maxv := MExact (n : N) | MLower (n : N).

(** [u64 + u64] as compiled in release mode: wraps modulo 2^64 (a debug build panics instead). *)
Definition u64_add (a b : N) : N := (a + b) mod two64.

(** main.rs 1425-1432  [impl Into<Max> for Local] *)
Definition local_into_max (l : local) : maxv :=
  match l with
  | LExact n => MExact n
  | LUnknown => MLower 0
  end.

(** main.rs 1440-1451  [impl ops::Add<Local> for Max] *)
Definition add_local (m : maxv) (l : local) : maxv :=
  match m, l with
  | MExact a, LExact b => MExact (u64_add a b)
  | MExact a, LUnknown => MLower a
  | MLower a, LExact b => MLower (u64_add a b)
  | MLower a, LUnknown => MLower a
  end.

(** main.rs 1453-1464  [impl ops::Add<Max> for Max] *)
Definition add_max (m k : maxv) : maxv :=
  match m, k with
  | MExact a, MExact b => MExact (u64_add a b)
  | MExact a, MLower b => MLower (u64_add a b)
  | MLower a, MExact b => MLower (u64_add a b)
  | MLower a, MLower b => MLower (u64_add a b)
  end.

(** main.rs 1470-1477  [fn max] *)
Definition max2 (m k : maxv) : maxv :=
  match m, k with
  | MExact a, MExact b => MExact (N.max a b)
  | MExact a, MLower b => MLower (N.max a b)
  | MLower a, MExact b => MLower (N.max a b)
  | MLower a, MLower b => MLower (N.max a b)
  end.

(** main.rs 1466-1468  [fn max_of] *)
Definition max_of (l : list maxv) : option maxv :=
  match l with
  | [] => None
  | first :: rest => Some (fold_left max2 rest first)
  end.

(** main.rs 1388-1394  [struct Node] *)
Record node := mkNode {
  nname : str;
  nlocal : local;
  nmax : option maxv;
  ndashed : bool
}.

(** main.rs 1396-1407  [fn Node] *)
Definition new_node (name : str) (stack : option N) (dashed : bool) : node :=
  {| nname := name;
     nlocal := match stack with Some n => LExact n | None => LUnknown end;
     nmax := None;
     ndashed := dashed |}.

(** main.rs 1177-1179, 1192-1194, 1210-1212. *)
Definition set_max (nd : node) (m : option maxv) : node :=
  {| nname := nname nd; nlocal := nlocal nd; nmax := m; ndashed := ndashed nd |}.
(** main.rs 855, 869, 891, 895. *)
Definition set_local (nd : node) (l : local) : node :=
  {| nname := nname nd; nlocal := l; nmax := nmax nd; ndashed := ndashed nd |}.
(** main.rs 1223. *)
Definition set_name (nd : node) (s : str) : node :=
  {| nname := s; nlocal := nlocal nd; nmax := nmax nd; ndashed := ndashed nd |}.
