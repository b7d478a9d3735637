(** Specification vocabulary: programs whose stack usage is bounded. *)
From Verif Require Import M_base M_stack M_graph M_names M_thumb M_ty M_parse M_build S_names S_graph S_sig S_build S_run.

(** [closed p]: all that the program can call is known: no symbol outside of the executable is called, no function without type information exists or calls
    through registers. *)
Record closed (p : prog) : Prop := {
  cl_symbols : forall n, ~ created p n;
  cl_blind : forall i, ~ blind p i;
  cl_typed : ~ untyped p
}.
(** [bounded p i]: the stack usage of the executions of function [i] is known and has a bound. *)
Definition bounded (p : prog) (i : nat) : Prop := exists B, forall l, runs p i l -> exists d, depth p l d /\ (d <= B)%N.
(** [escapes p i]: function [i] calls something that is not known: a symbol outside of the executable, by name or through a cast; an address in a
    register, without having type information; or a pointer, while functions without type information exist.  (A `memcmp` outside of the executable
    is not counted: the tool takes it that the compiler replaces the calls of it.) *)
Inductive escapes (p : prog) (i : nat) : Prop :=
| es_name f : body p i (DirectCall f) -> ~ intrinsic f -> f <> memcmp -> (forall j, ~ live p f j) -> escapes p i
| es_cast f : body p i (BitcastCall (Some f)) -> (forall j, ~ chosen p j f) -> escapes p i
| es_blind : blind p i -> escapes p i
| es_pointer s : body p i (IndirectCall s) -> untyped p -> escapes p i.
(** No execution of function [i] calls anything that is not known. *)
Definition inside (p : prog) (i : nat) : Prop := forall l j, runs p i (l ++ [j]) -> ~ escapes p j.
