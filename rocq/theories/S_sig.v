(** Specification vocabulary: which functions a function pointer may point to, judging by the types. *)
From Verif Require Import M_base M_ty.

(** Two types match if they are equal, or both are pointers and one is opaque. *)
Definition is_pointer (t : ty) : bool := match t with TPtr _ | TOpaque => true | _ => false end.
Definition ty_matches (a b : ty) : Prop := a = b \/ (is_pointer a = true /\ is_pointer b = true /\ (a = TOpaque \/ b = TOpaque)).
Definition ret_matches (a b : option ty) : Prop :=
  match a, b with None, None => True | Some a, Some b => ty_matches a b | _, _ => False end.
Definition sig_matches (a b : fnsig) : Prop :=
  Forall2 ty_matches (inputs a) (inputs b) /\ ret_matches (output a) (output b).
