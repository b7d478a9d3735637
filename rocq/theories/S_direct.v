(** Functions that call through registers, and those that do not (C107). *)
From Verif Require Import M_base M_stack M_graph M_names M_thumb M_ty M_parse M_build S_names S_graph S_sig S_build S_run S_thumb S_machine.

(** [registers lay i]: the code of function [i] has a branch to an address in a register, other than a return by `bx lr`. *)
Definition registers (lay : nat -> list S_thumb.item) (i : nat) : Prop := exists pos x, In (pos, x) (placed 0 (lay i)) /\ is_indirect x = true.
(** As [trusted] (S_machine.v), but what the function may call is of interest only if it calls through registers. *)
Record dependable (p : prog) (lay : nat -> list S_thumb.item) (i : nat) : Prop := {
  dp_seen : seen p lay i;
  dp_promised : promised p lay i;
  dp_covered : registers lay i -> covered_fn p i
}.
