(** When the log does not depend on the iteration orders, except for the order of its messages. *)
From Verif Require Import M_base M_parse M_build S_build.

(** Inline assembly is found in one definition of a function, and no symbol outside of the executable is called both by name and under a cast. *)
Record log_settled (p : prog) : Prop := {
  ls_asm : forall i n n' d d' c c', In (n, d) (pg_defines p) -> In (n', d') (pg_defines p) -> live p n i -> live p n' i -> In (Asm c) (d_stmts d) -> In (Asm c') (d_stmts d') -> n = n';
  ls_cast : forall i j f, body p i (BitcastCall (Some f)) -> body p j (DirectCall f) -> intrinsic f \/ f = memcmp \/ exists k, live p f k
}.
