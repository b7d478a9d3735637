(** Specification of the treatment of symbol names. *)
From Verif Require Import M_base.

(** [d] is [base] followed by something that looks like a rustc hash: [::h] and 16 bytes. *)
Definition has_hash (d base : str) : Prop :=
  base <> [] /\ exists h, length h = 16 /\ d = base ++ lit "::h" ++ h.

(** The well known shape of the symbols LLVM's outliner creates, with the numbers Rust's [u64] accepts. *)
Definition outlined_name (name : str) : Prop :=
  exists sign digits,
    name = lit "OUTLINED_FUNCTION_" ++ sign ++ digits /\ (sign = [] \/ sign = lit "+") /\
    digits <> [] /\ (forall c, In c digits -> is_digit c = true) /\ (digits_val digits < 2 ^ 64)%N.

(** [s] has no two consecutive [@]. *)
Definition no_double_at (s : str) : Prop := forall a b, s <> a ++ lit "@@" ++ b.

(** [first_at sep s a b]: [a] and [b] are what is before and after the first [sep] in [s]. *)
Definition first_at (sep s a b : str) : Prop := s = a ++ sep ++ b /\ forall a' b', s = a' ++ sep ++ b' -> length a <= length a'.
(** [trait_method d m]: the name [d] is `<type as trait>::method::h...`, and [m] is `trait::method`. *)
Definition trait_method (d m : str) : Prop :=
  exists r ty rhs t mh meth, d = lit "<" ++ r /\ first_at (lit " as ") d ty rhs /\ first_at (lit ">::") rhs t mh /\ has_hash mh meth /\ m = t ++ lit "::" ++ meth.
