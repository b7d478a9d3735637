(** Specification vocabulary: the machine code of a program and its executions, instruction by instruction. *)
From Verif Require Import M_base M_stack M_graph M_names M_thumb M_ty M_parse M_build S_names S_graph S_sig S_build S_run S_thumb.
Local Open Scope N_scope.

(** [code_of p i addr l]: the machine code of function [i] is [l], at address [addr]. *)
Definition code_of (p : prog) (i : nat) (addr : N) (l : list S_thumb.item) : Prop :=
  exists stext text sym, pg_text p = Some (stext, text) /\ nth_error (pg_defined p) i = Some (addr, sym) /\
    extent (pg_tags p) addr sym (size l) /\
    bytes_at text ((addr + 2 ^ 32 - stext mod 2 ^ 32) mod 2 ^ 32) (size l) (encode l) /\
    function_ok (is_v7 (pg_target p)) addr (pg_tags p) l.
(** [layout p lay]: a 32-bit executable for a Thumb target; [lay i] is the code of function [i]. *)
Record layout (p : prog) (lay : nat -> list S_thumb.item) : Prop := {
  la_thumb : is_thumb (pg_target p) = true;
  la_32 : forall a sym, In (a, sym) (pg_defined p) -> a < 2 ^ 32;
  la_code : forall i addr sym, nth_error (pg_defined p) i = Some (addr, sym) -> code_of p i addr (lay i)
}.
(** [plain p lay]: the code has none of the instructions that the decoder misreads (see the refutations of C24 and C26). *)
Definition plain (p : prog) (lay : nat -> list S_thumb.item) : Prop :=
  forall i x, In (Ins x) (lay i) -> t3_swapped (is_v7 (pg_target p)) x = false /\ stack_quirk (is_v7 (pg_target p)) x = false.

(** Less is asked where less is enough.  [near p lay i]: no B.cond.W of function [i] goes further than 256 KiB (the refutation of C24).
    [seen p lay i]: nor does an instruction allocate more than the decoder counts; it may count an STMDB that allocates nothing. *)
Definition near (p : prog) (lay : nat -> list S_thumb.item) (i : nat) : Prop :=
  forall x, In (Ins x) (lay i) -> t3_swapped (is_v7 (pg_target p)) x = false.
Definition seen (p : prog) (lay : nat -> list S_thumb.item) (i : nat) : Prop :=
  near p lay i /\ forall x, In (Ins x) (lay i) -> lost (is_v7 (pg_target p)) x = false.

(** ** Executions *)
(** TBB and TBH (A7.7.182): the branch goes forward. *)
Definition is_table (x : instr) : bool :=
  match x with I32 w v => (fld w 15 4 =? 3725) && (fld v 15 5 =? 1920) | I16 _ => false end.
(** Bytes of stack that an instruction allocates. *)
Definition drop (v7 : bool) (x : instr) : N := match sp_drop v7 x with Some d => d | None => 0 end.
(** [goes v7 pos x pos']: after instruction [x] at offset [pos] the function goes on at offset [pos']: at the next
    instruction (after a call too) or where [x] branches to. *)
Inductive goes (v7 : bool) (pos : N) (x : instr) : N -> Prop :=
| go_next : goes v7 pos x (pos + isize x)
| go_branch imm pos' : branch_imm v7 x = Some imm -> (Z.of_N pos' = Z.of_N pos + 4 + imm)%Z -> goes v7 pos x pos'
| go_cbz imm pos' : cbz_imm v7 x = Some imm -> (Z.of_N pos' = Z.of_N pos + 4 + imm)%Z -> goes v7 pos x pos'
| go_table pos' : is_table x = true -> pos + 4 <= pos' -> goes v7 pos x pos'.
(** [frame_at p lay i pos u]: function [i] can be at offset [pos] with [u] bytes allocated.  Instructions may release any
    amount; only those of [sp_drop] allocate. *)
Inductive frame_at (p : prog) (lay : nat -> list S_thumb.item) (i : nat) : N -> N -> Prop :=
| fa_entry : frame_at p lay i 0 0
| fa_step pos u x pos' u' : frame_at p lay i pos u -> In (pos, x) (placed 0 (lay i)) -> goes (is_v7 (pg_target p)) pos x pos' ->
    pos' < size (lay i) -> u' <= u + drop (is_v7 (pg_target p)) x -> frame_at p lay i pos' u'.

(** A function that has not returned: which one, where it is, bytes it has allocated. *)
Record frame := mkFrame { fr_fn : nat; fr_pos : N; fr_used : N }.
(** Address that the branch [x] at offset [pos] of a function at [addr] goes to. *)
Definition dest (addr pos : N) (imm : Z) : N := Z.to_N ((Z.of_N addr + Z.of_N pos + 4 + imm) mod 2 ^ 32).
(** One step of the machine; innermost function first.  A branch out of the function is a tail call; the caller may or may
    not have released its stack before.  A branch to an address in a register calls what the function may call. *)
Inductive machine (p : prog) (lay : nat -> list S_thumb.item) : list frame -> list frame -> Prop :=
| ma_step i pos u x pos' u' fs : In (pos, x) (placed 0 (lay i)) -> goes (is_v7 (pg_target p)) pos x pos' -> pos' < size (lay i) ->
    u' <= u + drop (is_v7 (pg_target p)) x -> machine p lay (mkFrame i pos u :: fs) (mkFrame i pos' u' :: fs)
| ma_call i addr pos u x imm j sym fs : In (pos, x) (placed 0 (lay i)) -> call_imm x = Some imm ->
    nth_error (pg_defined p) i = Some (addr, sym) -> at_address p j (dest addr pos imm) ->
    machine p lay (mkFrame i pos u :: fs) (mkFrame j 0 0 :: mkFrame i pos u :: fs)
| ma_tail i addr pos u x imm j sym fs : In (pos, x) (placed 0 (lay i)) -> branch_imm (is_v7 (pg_target p)) x = Some imm ->
    inside (size (lay i)) (Z.of_N pos + 4 + imm) = false ->
    nth_error (pg_defined p) i = Some (addr, sym) -> at_address p j (dest addr pos imm) ->
    machine p lay (mkFrame i pos u :: fs) (mkFrame j 0 0 :: mkFrame i pos u :: fs)
| ma_register i pos u x j fs : In (pos, x) (placed 0 (lay i)) -> is_indirect x = true -> (j < length (pg_defined p))%nat -> invokes p i j ->
    machine p lay (mkFrame i pos u :: fs) (mkFrame j 0 0 :: mkFrame i pos u :: fs)
| ma_return f f' fs : machine p lay (f :: f' :: fs) (f' :: fs).
(** States of the machine after a call of function [i]. *)
Inductive executes (p : prog) (lay : nat -> list S_thumb.item) (i : nat) : list frame -> Prop :=
| ex_start : (i < length (pg_defined p))%nat -> executes p lay i [mkFrame i 0 0]
| ex_step fs fs' : executes p lay i fs -> machine p lay fs fs' -> executes p lay i fs'.
(** Bytes of stack in use. *)
Definition in_use (fs : list frame) : N := fold_right (fun f n => fr_used f + n) 0 fs.

(** [relied p lay i m]: the tool relies on LLVM's stack size [m] of function [i]: the code cannot be added up because a branch
    stays in the function, or the sum is not what LLVM says of an outlined function. *)
Inductive relied (p : prog) (lay : nat -> list S_thumb.item) (i : nat) (m : N) : Prop :=
| rl_branches pos x imm : llvm_size p i (Some m) -> In (pos, x) (placed 0 (lay i)) -> branch_imm (is_v7 (pg_target p)) x = Some imm ->
    inside (size (lay i)) (Z.of_N pos + 4 + imm) = true -> relied p lay i m
| rl_outlined : llvm_size p i (Some m) -> m <> 0 -> total_drop (is_v7 (pg_target p)) (lay i) <> m -> ~ has_asm p i -> outlined p i -> relied p lay i m.
(** LLVM's stack size of function [i] is right if the tool relies on it. *)
Definition promised (p : prog) (lay : nat -> list S_thumb.item) (i : nat) : Prop :=
  forall m, relied p lay i m -> forall pos u, frame_at p lay i pos u -> u <= m.
(** What is asked of a function for its executions to be bounded. *)
Record trusted (p : prog) (lay : nat -> list S_thumb.item) (i : nat) : Prop := {
  tr_seen : seen p lay i;
  tr_promised : promised p lay i;
  tr_covered : covered_fn p i
}.
