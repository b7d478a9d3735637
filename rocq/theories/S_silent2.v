(** What is asked of machine code when nothing was logged (C106). *)
From Verif Require Import M_base M_stack M_graph M_names M_thumb M_ty M_parse M_build M_run M_log S_names S_graph S_sig S_build S_run S_thumb S_machine S_direct S_silent.

(** [steady p lay i]: the code of function [i] is one whose calls are read, uses no more stack than was recorded for it, and, if it branches to registers, loses no calls in the ways that are left when there is machine code (S_machine.v: [seen], [promised]). *)
Definition steady (p : prog) (lay : nat -> list S_thumb.item) (i : nat) : Prop :=
  seen p lay i /\ promised p lay i /\ (registers lay i -> avoids p i OfMemcmp /\ avoids p i OfFormatting /\ avoids p i OfSecondType).
(** [slips demangle o p lay c]: nothing is logged, the maximum of the first function is exact but less than the machine uses, and [c] is the only way in which calls are lost. *)
Definition slips (demangle : str -> str) (o : orders) (p : prog) (lay : nat -> list S_thumb.item) (c : loss) : Prop :=
  wf_prog p /\ fits p /\ layout p lay /\
  (exists g cs n fs, report_log demangle o None p = ([], Ret (g, cs)) /\ reported g 0 (MExact n) /\ executes p lay 0 fs /\ (n < in_use fs)%N) /\
  forall i, seen p lay i /\ promised p lay i /\ forall c', c' <> c -> avoids p i c'.
