(** Specification vocabulary: chains of calls that the program can make. *)
From Verif Require Import M_base M_stack M_graph M_names M_thumb M_ty M_parse M_build S_names S_graph S_sig S_build S_run.

(** [may_call p i j]: the code of function [i] has a call that may be one of function [j]: by name, under a cast, by a memory intrinsic, through
    a pointer to a function with a matching signature, through a pointer to a formatting function whose argument type is hidden, or
    by a branch in the machine code. *)
Inductive may_call (p : prog) (i j : nat) : Prop :=
| mc_direct f : body p i (DirectCall f) -> ~ intrinsic f -> live p f j -> may_call p i j
| mc_cast f : body p i (BitcastCall (Some f)) -> live p f j -> may_call p i j
| mc_mem f n : is_thumb (pg_target p) = false -> body p i (DirectCall f) -> implements f n -> live p n j -> may_call p i j
| mc_pointer s' s : body p i (IndirectCall s') -> typed p j s -> sig_matches s s' -> may_call p i j
| mc_hidden s' v r : body p i (IndirectCall s') -> true_void p v -> sig_matches (fmt_sig (TAlias v)) s' -> typed_by_def p j (fmt_sig r) -> may_call p i j
| mc_code : jumps p i j -> may_call p i j.
(** [stacked p i l]: the functions [l] may be on the call stack, outermost [i] first. *)
Inductive stacked (p : prog) : nat -> list nat -> Prop :=
| sk_one i : i < length (pg_defined p) -> stacked p i [i]
| sk_call i j l : may_call p i j -> stacked p j l -> stacked p i (i :: l).
(** [known_depth p l d]: as far as is known, [d] bytes of stack are in use. *)
Inductive known_depth (p : prog) : list nat -> N -> Prop :=
| kd_nil : known_depth p [] 0
| kd_known i k l d : usage p i (LExact k) -> known_depth p l d -> known_depth p (i :: l) (k + d)
| kd_unknown i l d : usage p i LUnknown -> known_depth p l d -> known_depth p (i :: l) d.
(** `llvm.memmove` is not called where the tool would misread it. *)
Definition no_memmove (p : prog) : Prop := is_thumb (pg_target p) = false -> forall i r, ~ body p i (DirectCall (lit "llvm.memmove." ++ r)).
