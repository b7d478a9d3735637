(** Programs that do at least what another program does. *)
From Verif Require Import M_base M_stack M_graph M_thumb M_ty M_parse M_build S_names S_sig S_build S_below.

(** [at_most p q f R]: what the functions of [p] in [R] do is also done by the functions of [q] at the addresses given by [f]: they have all their
    statements and jumps, and do not use less stack.  The names that they use mean the same functions, or are outside of both executables; the functions that their pointers may point to are among
    those of [q].  Functions of [q] can do more and can be the place of several functions of [p]. *)
Record at_most (p q : prog) (f : nat -> nat) (R : nat -> Prop) : Prop := {
  am_target : pg_target q = pg_target p;
  am_usage : forall j c, R j -> usage q (f j) (LExact c) -> exists k, usage p j (LExact k) /\ (k <= c)%N;
  am_body : forall j st, R j -> body p j st -> body q (f j) st;
  am_jumps : forall j k, R j -> jumps p j k -> jumps q (f j) (f k);
  am_blind : forall j, R j -> blind p j -> blind q (f j);
  am_live : forall j n k, R j -> body p j (DirectCall n) -> live p n k -> live q n (f k);
  am_chosen : forall j st n k, R j -> body p j st -> looks_up st n -> chosen p k n -> chosen q (f k) n;
  am_outside : forall j n, R j -> body p j (DirectCall n) -> (forall k, ~ live p n k) -> forall y, ~ live q n y;
  am_unchosen : forall j st n, R j -> body p j st -> looks_up st n -> (forall k, ~ chosen p k n) -> forall y, ~ chosen q y n;
  am_sig : forall j s s' k, R j -> body p j (IndirectCall s') -> sig_matches s s' -> typed p k s -> typed q (f k) s;
  am_fmt : forall j v s' r k, R j -> body p j (IndirectCall s') -> sig_matches (fmt_sig (TAlias v)) s' -> typed_by_def p k (fmt_sig r) -> typed_by_def q (f k) (fmt_sig r);
  am_untyped : untyped p -> untyped q;
  am_void : forall v, true_void q v <-> true_void p v
}.

(** [extended p q]: the functions of [q] are those of [p], with more statements and larger stack sizes, on a target whose machine code is not read. *)
Record extended (p q : prog) : Prop := {
  xt_target : pg_target q = pg_target p;
  xt_other : is_thumb (pg_target p) = false;
  xt_defined : pg_defined q = pg_defined p;
  xt_declares : pg_declares q = pg_declares p;
  xt_types : forall n s, (exists d, In (n, d) (pg_defines q) /\ d_sig d = s) <-> (exists d, In (n, d) (pg_defines p) /\ d_sig d = s);
  xt_sized : forall n, sized q n <-> sized p n;
  xt_sizes : forall n c, In (n, c) (pg_sizes q) -> exists k, In (n, k) (pg_sizes p) /\ (k <= c)%N;
  xt_bodies : forall j st, body p j st -> body q j st
}.
