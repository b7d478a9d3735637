(** Specification vocabulary: the edges of the call graph, one by one.

    The order of the statements matters in one way: a call of a memory intrinsic or of `memcmp` leads to a symbol outside of the
    executable only if a statement before it made a node for that symbol. *)
From Verif Require Import M_base M_stack M_graph M_thumb M_ty M_parse M_build S_names S_build.

(** [made p done n]: the statements [done] made a node for the symbol [n] outside of the executable. *)
Definition made (p : prog) (done : list (nat * stmt)) (n : str) : Prop :=
  (exists i, In (i, DirectCall n) done /\ ~ intrinsic n /\ n <> memcmp /\ forall j, ~ live p n j) \/
  (exists i, In (i, BitcastCall (Some n)) done /\ forall j, ~ chosen p j n).
(** [leads p done st l]: after the statements [done], the call [st] by name leads to [l]. *)
Inductive leads (p : prog) (done : list (nat * stmt)) : stmt -> key -> Prop :=
| le_direct f j : ~ intrinsic f -> live p f j -> (f = memcmp -> chosen p j f \/ made p done f) -> leads p done (DirectCall f) (KReal j)
| le_extern f : ~ intrinsic f -> (forall j, ~ live p f j) -> (f = memcmp -> made p done f) -> leads p done (DirectCall f) (KSym f)
| le_mem f n j : is_thumb (pg_target p) = false -> lowers f n -> chosen p j n -> leads p done (DirectCall f) (KReal j)
| le_mem_extern f n : is_thumb (pg_target p) = false -> lowers f n -> (forall j, ~ chosen p j n) -> made p done n -> leads p done (DirectCall f) (KSym n).
(** [calls p tr i l]: one of the statements [tr] of the program, by name, or the machine code of function [i] leads to [l]. *)
Definition calls (p : prog) (tr : list (nat * stmt)) (i : nat) (l : key) : Prop :=
  (exists before st after, tr = before ++ (i, st) :: after /\ leads p before st l) \/ (exists j, l = KReal j /\ jumps p i j).
(** The edges that are added once. *)
Inductive once (p : prog) (tr : list (nat * stmt)) (void : option str) : key -> key -> Prop :=
| on_call i l : calls p tr i l -> once p tr void (KReal i) l
| on_blind i : blind p i -> once p tr void (KReal i) (KCode i)
| on_pointer i s : calls_sig p i s -> once p tr void (KReal i) (KSig s)
| on_pointee s j : called_sig p s -> pointee p void s j -> once p tr void (KSig s) (KReal j)
| on_outside s : called_sig p s -> untyped p -> once p tr void (KSig s) (KExt s).

(** The calls of functions under a cast, each of which adds an edge. *)
Definition cast_of (x : nat * stmt) : list (nat * str) := match x with (i, BitcastCall (Some f)) => [(i, f)] | _ => [] end.
Definition casts (tr : list (nat * stmt)) : list (nat * str) := flat_map cast_of tr.
Definition cast_target (p : prog) (f : str) (l : key) : Prop :=
  (exists j, chosen p j f /\ l = KReal j) \/ ((forall j, ~ chosen p j f) /\ l = KSym f).

(** [counted_edges p tr ks void g]: the edges of [g] are those of the casts, one for each, and those added once. *)
Definition counted_edges (p : prog) (tr : list (nat * stmt)) (ks : list key) (void : option str) (g : graph node) : Prop :=
  exists by_cast others, Permutation.Permutation (gedges g) (by_cast ++ others) /\ NoDup others /\
    (forall u v, In (u, v) others <-> exists k l, nth_error ks u = Some k /\ nth_error ks v = Some l /\ once p tr void k l) /\
    Forall2 (fun c e => fst e = fst c /\ exists l, nth_error ks (snd e) = Some l /\ cast_target p (snd c) l) (casts tr) by_cast.

(** Same nodes and same edges, each as often, for some one-to-one correspondence of the nodes that keeps the first [n]. *)
Definition matched (n : nat) (g1 g2 : graph node) (f f' : nat -> nat) : Prop :=
  (forall v, v < n -> f v = v) /\
  (forall v, nth_error (gnodes g2) (f v) = nth_error (gnodes g1) v /\ nth_error (gnodes g1) (f' v) = nth_error (gnodes g2) v) /\
  (forall v, v < node_count g1 -> f' (f v) = v) /\ (forall v, v < node_count g2 -> f (f' v) = v) /\
  Permutation.Permutation (map (fun e => (f (fst e), f (snd e))) (gedges g1)) (gedges g2).
Definition same_counted (n : nat) (g1 g2 : graph node) : Prop := exists f f' : nat -> nat, matched n g1 g2 f f'.
(** How often an edge is there. *)
Definition times (e : nat * nat) (l : list (nat * nat)) : nat := length (filter (fun x => (fst x =? fst e) && (snd x =? snd e))%nat l).
Definition times_cast (i : nat) (f : str) (tr : list (nat * stmt)) : nat := length (filter (fun c => (fst c =? i)%nat && str_eqb (snd c) f) (casts tr)).

(** [arrow p tr void k l]: the statements [tr] of the program, its machine code or its function pointers lead from [k] to [l]. *)
Definition arrow (p : prog) (tr : list (nat * stmt)) (void : option str) (k l : key) : Prop :=
  once p tr void k l \/ exists i f, k = KReal i /\ In (i, f) (casts tr) /\ cast_target p f l.
(** [shown_times p tr void k l t]: there are [t] edges from [k] to [l]: one for each call under a cast, and one if something else leads there. *)
Definition shown_times (p : prog) (tr : list (nat * stmt)) (void : option str) (k l : key) (t : nat) : Prop :=
  exists a c, t = a + c /\ c <= 1 /\ (c = 1 <-> once p tr void k l) /\
    (forall i f, k = KReal i -> cast_target p f l -> a = times_cast i f tr) /\
    ((forall i f, k = KReal i -> ~ cast_target p f l) -> a = 0).
