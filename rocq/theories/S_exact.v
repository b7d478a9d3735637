(** Specification vocabulary: which maxima are exact, in terms of the program. *)
From Verif Require Import M_base M_stack M_graph M_thumb M_ty M_parse M_build S_names S_build S_run S_calls.

(** Something can call itself. *)
Definition circular (p : prog) (tr : list (nat * stmt)) (void : option str) (k : key) : Prop :=
  exists l, arrow p tr void k l /\ S_run.leads (arrow p tr void) l k.
(** [accounted p tr void k]: the stack usage of [k] is known, and is zero if [k] can call itself; a function pointer uses no stack. *)
Definition accounted (p : prog) (tr : list (nat * stmt)) (void : option str) (k : key) : Prop :=
  match k with
  | KReal j => exists n, usage p j (LExact n) /\ (circular p tr void k -> n = 0%N)
  | KSig _ => True
  | KSym _ | KCode _ | KExt _ => False
  end.
(** [through p tr void i j]: function [i] may call [j] through a pointer, according to the tool. *)
Definition through (p : prog) (void : option str) (i j : nat) : Prop := exists s, calls_sig p i s /\ pointee p void s j.
