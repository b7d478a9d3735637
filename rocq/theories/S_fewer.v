(** Programs of which fewer stack sizes are known. *)
From Verif Require Import M_base M_stack M_graph M_thumb M_ty M_parse M_build S_names S_graph S_build.

(** [g1] is the call graph [g2] with some usages unknown. *)
Record less_known (g1 g2 : graph node) : Prop := {
  lk_count : node_count g1 = node_count g2;
  lk_edges : gedges g1 = gedges g2;
  lk_usage : forall v n, known g1 v n -> known g2 v n
}.

(** The program [p] with the stack sizes [l]. *)
Definition with_sizes (p : prog) (l : list (str * N)) : prog :=
  mkProg (pg_target p) (pg_defines p) (pg_declares p) l (pg_defined p) (pg_undefined p) (pg_tags p) (pg_text p).
(** The size of [n] is not among [l]. *)
Definition dropped (p : prog) (l : list (str * N)) (n : str) : Prop := sized p n /\ forall k, ~ In (n, k) l.
(** [fewer_sizes p l]: [l] are some of the stack sizes of [p].  Functions are known by the same names as before; a function without its size was not made by the outliner. *)
Record fewer_sizes (p : prog) (l : list (str * N)) : Prop := {
  fw_some : forall n k, In (n, k) l -> In (n, k) (pg_sizes p);
  fw_known : forall i n, chosen p i n -> chosen (with_sizes p l) i n;
  fw_outlined : forall n, dropped p l n -> ~ outlined_name n
}.
