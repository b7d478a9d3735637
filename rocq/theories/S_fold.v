(** Functions of two programs that are related to each other. *)
From Verif Require Import M_base M_stack M_graph M_thumb M_ty M_parse M_build S_names S_sig S_build S_below.

(** [followed p q F]: whatever a function of [p] does is done by each function of [q] that [F] relates to it: it has all the statements and jumps, it does not use less
    stack, and what it calls is related again.  A function can be related to several ones, in both directions. *)
Record followed (p q : prog) (F : nat -> nat -> Prop) : Prop := {
  fo_target : pg_target q = pg_target p;
  fo_usage : forall j j' c, F j j' -> usage q j' (LExact c) -> exists k, usage p j (LExact k) /\ (k <= c)%N;
  fo_body : forall j j' st, F j j' -> body p j st -> body q j' st;
  fo_jumps : forall j j' k, F j j' -> jumps p j k -> exists k', F k k' /\ jumps q j' k';
  fo_blind : forall j j', F j j' -> blind p j -> blind q j';
  fo_live : forall j j' n k, F j j' -> body p j (DirectCall n) -> live p n k -> exists k', F k k' /\ live q n k';
  fo_chosen : forall j j' st n k, F j j' -> body p j st -> looks_up st n -> chosen p k n -> exists k', F k k' /\ chosen q k' n;
  fo_outside : forall j j' n, F j j' -> body p j (DirectCall n) -> (forall k, ~ live p n k) -> forall y, ~ live q n y;
  fo_unchosen : forall j j' st n, F j j' -> body p j st -> looks_up st n -> (forall k, ~ chosen p k n) -> forall y, ~ chosen q y n;
  fo_sig : forall j j' s s' k, F j j' -> body p j (IndirectCall s') -> sig_matches s s' -> typed p k s -> exists k', F k k' /\ typed q k' s;
  fo_fmt : forall j j' v s' r k, F j j' -> body p j (IndirectCall s') -> sig_matches (fmt_sig (TAlias v)) s' -> typed_by_def p k (fmt_sig r) -> exists k' r', F k k' /\ typed_by_def q k' (fmt_sig r');
  fo_untyped : untyped p -> untyped q;
  fo_void : forall v, true_void q v <-> true_void p v
}.
Definition flipped (F : nat -> nat -> Prop) (a b : nat) : Prop := F b a.
(** Functions of [p] that [F] relates to something. *)
Definition on_left (F : nat -> nat -> Prop) (j : nat) : Prop := exists j', F j j'.

(** [folded_by p q f]: [q] is [p] with functions of the same type, the same statements and the same size put at one address.  This is for a target whose machine code is not read, functions of one name
    that are all defined in the module, and statements that do not look for the name under which a function is known. *)
Record folded_by (p q : prog) (f : nat -> nat) : Prop := {
  fb_target : pg_target q = pg_target p;
  fb_other : is_thumb (pg_target p) = false;
  fb_defines : pg_defines q = pg_defines p;
  fb_sizes : pg_sizes q = pg_sizes p;
  fb_live : forall n y, live q n y <-> exists j, live p n j /\ y = f j;
  fb_one : forall n m j, live p n j -> live p m j -> n = m;
  fb_defined : forall n j, live p n j -> has_def p n;
  fb_type : forall j k s, f j = f k -> typed p j s -> forall n, live p n k -> typed p k s;
  fb_body : forall j k st, f j = f k -> body p j st -> forall n, live p n k -> body p k st;
  fb_size : forall j k c, f j = f k -> llvm_size p j c -> forall n, live p n k -> llvm_size p k c;
  fb_looks : forall j st n, body p j st -> ~ looks_up st n
}.
