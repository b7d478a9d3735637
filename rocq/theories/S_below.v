(** What a function can reach in a program, and programs that agree on it. *)
From Verif Require Import M_base M_stack M_graph M_thumb M_ty M_parse M_build S_names S_sig S_build.

(** [leads p void k l]: from [k] one gets to [l] along the calls of the program. *)
Inductive leads (p : prog) (void : option str) : key -> key -> Prop :=
| le_here k : leads p void k k
| le_step k m l : leads p void k m -> edge p (fun _ => False) void m l -> leads p void k l.
Definition void_of (p : prog) (void : option str) : Prop := match void with Some v => true_void p v | None => forall v, ~ true_void p v end.
(** Function [i] can reach function [j]. *)
Definition reaches (p : prog) (i j : nat) : Prop := exists void, void_of p void /\ leads p void (KReal i) (KReal j).

(** The names that a statement uses. *)
Inductive uses : stmt -> str -> Prop :=
| uses_call f : uses (DirectCall f) f
| uses_lowered f n : lowers f n -> uses (DirectCall f) n
| uses_cast f : uses (BitcastCall (Some f)) f.
(** The names that the tool looks up among the names that it shows for functions. *)
Inductive looks_up : stmt -> str -> Prop :=
| lu_memcmp : looks_up (DirectCall memcmp) memcmp
| lu_lowered f n : lowers f n -> looks_up (DirectCall f) n
| lu_cast f : looks_up (BitcastCall (Some f)) f.
(** The functions of [R] call no memory routine that another call makes a symbol outside of the executable. *)
Definition settled (p : prog) (R : nat -> Prop) : Prop :=
  forall j f, R j -> body p j (DirectCall f) -> (f = memcmp -> ~ created p f) /\ forall n, lowers f n -> ~ created p n.
(** [same_below p q f R]: the functions of [p] in [R] are functions of [q], at the addresses given by [f].  There they have the same usage, the same
    statements and the same jumps; the names that they use mean the same functions, and the types of pointers that they call have the same candidates.
    Nothing else is said about the other functions of both programs. *)
Record same_below (p q : prog) (f : nat -> nat) (R : nat -> Prop) : Prop := {
  sb_target : pg_target q = pg_target p;
  sb_apart : forall a b, R a -> R b -> f a = f b -> a = b;
  sb_usage : forall j l, R j -> usage p j l -> usage q (f j) l;
  sb_body : forall j st, R j -> (body q (f j) st <-> body p j st);
  sb_jumps : forall j y, R j -> (jumps q (f j) y <-> exists k, jumps p j k /\ y = f k);
  sb_blind : forall j, R j -> (blind q (f j) <-> blind p j);
  sb_live : forall j n y, R j -> body p j (DirectCall n) -> (live q n y <-> exists k, live p n k /\ y = f k);
  sb_chosen : forall j st n y, R j -> body p j st -> looks_up st n -> (chosen q y n <-> exists k, chosen p k n /\ y = f k);
  sb_sig : forall j s s' y, R j -> body p j (IndirectCall s') -> sig_matches s s' -> (typed q y s <-> exists k, typed p k s /\ y = f k);
  sb_fmt : forall j v s' r y, R j -> body p j (IndirectCall s') -> sig_matches (fmt_sig (TAlias v)) s' ->
             (typed_by_def q y (fmt_sig r) <-> exists k, typed_by_def p k (fmt_sig r) /\ y = f k);
  sb_untyped : untyped q <-> untyped p;
  sb_void : forall v, true_void q v <-> true_void p v
}.

(** [rewritten p q R]: in [q] the functions outside of [R] have other statements, other stack sizes and other machine code than in [p].  The symbol tables
    are the same, the definitions have the same types, and the same functions have a stack size. *)
Record rewritten (p q : prog) (R : nat -> Prop) : Prop := {
  rw_target : pg_target q = pg_target p;
  rw_defined : pg_defined q = pg_defined p;
  rw_declares : pg_declares q = pg_declares p;
  rw_types : forall n s, (exists d, In (n, d) (pg_defines q) /\ d_sig d = s) <-> (exists d, In (n, d) (pg_defines p) /\ d_sig d = s);
  rw_sized : forall n, sized q n <-> sized p n;
  rw_sizes : forall j n k, R j -> live p n j -> (In (n, k) (pg_sizes q) <-> In (n, k) (pg_sizes p));
  rw_bodies : forall j st, R j -> (body q j st <-> body p j st);
  rw_text : pg_text q = None <-> pg_text p = None;
  rw_code : forall j addr size a, R j -> (analysed q j addr size a <-> analysed p j addr size a)
}.
(** [added p q R l1 x l2 d k]: [q] is [p] with one more function [x], of definition [d] and stack size [k], between the addresses [l1] and [l2].  Its name is
    new, the functions of [R] do not use it, and it does not have the type of a pointer that they call. *)
Record added (p q : prog) (R : nat -> Prop) (l1 : list (N * symbol)) (x : N * symbol) (l2 : list (N * symbol)) (d : define) (k : N) : Prop := {
  ad_target : pg_target q = pg_target p;
  ad_other : is_thumb (pg_target p) = false;
  ad_before : pg_defined p = l1 ++ l2;
  ad_after : pg_defined q = l1 ++ x :: l2;
  ad_name : real_names x = [d_name d];
  ad_defines : forall n e, In (n, e) (pg_defines q) <-> (n = d_name d /\ e = d) \/ In (n, e) (pg_defines p);
  ad_declares : pg_declares q = pg_declares p;
  ad_sizes : forall n c, In (n, c) (pg_sizes q) <-> (n = d_name d /\ c = k) \/ In (n, c) (pg_sizes p);
  ad_new : forall j, ~ live p (d_name d) j;
  ad_unused : forall j st, R j -> body p j st -> ~ uses st (d_name d);
  ad_pointer : forall j s, R j -> body p j (IndirectCall s) -> ~ sig_matches (d_sig d) s;
  ad_fmt : forall r, d_sig d <> fmt_sig r
}.
(** Where the functions of the symbol table [l1 ++ l2] are after the insertion of one behind [l1]. *)
Definition shifted (l1 : list (N * symbol)) (j : nat) : nat := if Nat.ltb j (length l1) then j else S j.
