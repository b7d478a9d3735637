(** Specification vocabulary for the whole tool: executions of the analysed program. *)
From Verif Require Import M_base M_stack M_graph M_names M_thumb M_ty M_parse M_build S_names S_graph S_sig S_build.
From Verif Require S_calls.

(** The functions that implement the memory intrinsics. *)
Inductive implements : str -> str -> Prop :=
| im_memcpy r n : In n (map lit ["memcpy"; "__aeabi_memcpy"; "__aeabi_memcpy4"; "__aeabi_memcpy8"]%string) -> implements (lit "llvm.memcpy." ++ r) n
| im_memset r n : In n (map lit ["memset"; "__aeabi_memset"; "__aeabi_memset4"; "__aeabi_memset8"; "memclr"; "__aeabi_memclr"; "__aeabi_memclr4"; "__aeabi_memclr8"]%string) ->
    implements (lit "llvm.memset." ++ r) n
| im_memmove r n : In n (map lit ["memmove"; "__aeabi_memmove"; "__aeabi_memmove4"; "__aeabi_memmove8"]%string) -> implements (lit "llvm.memmove." ++ r) n.

(** [bears p j s]: one of the names of function [j] is defined or declared with signature [s].  A function can have several: the linker puts equal code at one address. *)
Definition bears (p : prog) (j : nat) (s : fnsig) : Prop :=
  exists n, live p n j /\ ((exists d, In (n, d) (pg_defines p) /\ s = d_sig d) \/ In (n, Some s) (pg_declares p)).

(** [unread p i]: the code of function [i] is not known, neither as LLVM IR nor as machine code that is read (a C function, say). *)
Definition unread (p : prog) (i : nat) : Prop :=
  i < length (pg_defined p) /\ (forall n d, In (n, d) (pg_defines p) -> ~ live p n i) /\ forall addr size a, ~ analysed p i addr size a.

(** [asm_calls p i]: function [i] has inline assembly, and its machine code is not read or branches to a register: perhaps the assembly calls a function. *)
Definition asm_calls (p : prog) (i : nat) : Prop := has_asm p i /\ forall addr size a, analysed p i addr size a -> indirect a = true.

(** [invokes p i j]: function [i] can call function [j]: by name, under a cast, by a memory intrinsic, through a pointer to
    a function with a matching signature or without known signature, or by a branch in the machine code.  Code that is not known and inline assembly can call anything. *)
Inductive invokes (p : prog) (i j : nat) : Prop :=
| iv_direct f : body p i (DirectCall f) -> ~ intrinsic f -> live p f j -> invokes p i j
| iv_cast f : body p i (BitcastCall (Some f)) -> live p f j -> invokes p i j
| iv_mem f n : is_thumb (pg_target p) = false \/ pg_text p = None -> body p i (DirectCall f) -> implements f n -> live p n j -> invokes p i j
| iv_pointer s' s : body p i (IndirectCall s') -> bears p j s -> sig_matches s s' -> invokes p i j
| iv_untyped s' : body p i (IndirectCall s') -> untyped_fn p j -> invokes p i j
| iv_code : jumps p i j -> invokes p i j
| iv_blind : blind p i -> invokes p i j
| iv_unread : unread p i -> invokes p i j
| iv_asm : asm_calls p i -> invokes p i j.

(** [runs p i l]: the functions [l] are on the call stack, outermost [i] first. *)
Inductive runs (p : prog) : nat -> list nat -> Prop :=
| runs_one i : i < length (pg_defined p) -> runs p i [i]
| runs_call i j l : invokes p i j -> runs p j l -> runs p i (i :: l).
(** [depth p l d]: [d] bytes of stack are in use. *)
Inductive depth (p : prog) : list nat -> N -> Prop :=
| depth_nil : depth p [] 0
| depth_cons i k l d : usage p i (LExact k) -> depth p l d -> depth p (i :: l) (k + d).

(** [noticed p i j]: a call of the kinds that the tool takes into account.  The others are those of the refutations of C37, C40, C41, C56
    and C57: of memcmp and of cast functions under another name than the one shown, of memory routines that the intrinsics are not looked
    up under, of formatting functions that are only declared, through pointers of a type that no function has, of functions by another of their types, all that code does which is not read, by memory intrinsics if a thumb program has no section .text, and by inline assembly through registers. *)
Inductive noticed (p : prog) (i j : nat) : Prop :=
| nt_direct f : body p i (DirectCall f) -> ~ intrinsic f -> live p f j -> (f = memcmp -> chosen p j f) -> noticed p i j
| nt_cast f : body p i (BitcastCall (Some f)) -> chosen p j f -> noticed p i j
| nt_mem f n : is_thumb (pg_target p) = false -> body p i (DirectCall f) -> lowers f n -> chosen p j n -> noticed p i j
| nt_pointer s' s : body p i (IndirectCall s') -> sig_matches s s' -> typed_by_def p j s \/ typed_by_decl p j s /\ (forall r, s <> fmt_sig (TAlias r)) -> noticed p i j
| nt_untyped s : untyped_fn p j -> calls_sig p i s -> noticed p i j
| nt_code : jumps p i j -> noticed p i j
| nt_blind : blind p i -> noticed p i j.
(** Executions in which all calls are noticed. *)
Inductive runs_noticed (p : prog) : nat -> list nat -> Prop :=
| rn_one i : i < length (pg_defined p) -> runs_noticed p i [i]
| rn_call i j l : noticed p i j -> runs_noticed p j l -> runs_noticed p i (i :: l).
(** Function [i] does not use the constructs that the tool overlooks. *)
Record covered_fn (p : prog) (i : nat) : Prop := {
  cv_memcmp : body p i (DirectCall memcmp) -> forall j, live p memcmp j -> chosen p j memcmp;
  cv_cast : forall f j, body p i (BitcastCall (Some f)) -> live p f j -> chosen p j f;
  cv_mem : is_thumb (pg_target p) = false -> forall f n j, body p i (DirectCall f) -> implements f n -> live p n j -> lowers f n /\ chosen p j n;
  cv_fmt : forall s' j s r, body p i (IndirectCall s') -> typed_by_decl p j s -> sig_matches s s' -> s <> fmt_sig (TAlias r);
  cv_pointer : untyped p -> forall s', body p i (IndirectCall s') -> exists s, calls_sig p i s;
  cv_types : forall s' j s, body p i (IndirectCall s') -> bears p j s -> sig_matches s s' -> exists t, typed p j t /\ sig_matches t s';
  cv_read : ~ unread p i;
  cv_text : is_thumb (pg_target p) = true -> pg_text p = None -> forall f n j, body p i (DirectCall f) -> implements f n -> ~ live p n j;
  cv_asm : ~ asm_calls p i
}.
Definition covered (p : prog) : Prop := forall i, covered_fn p i.
(** The stack sizes of all functions together fit into 64 bits. *)
Definition fits (p : prog) : Prop :=
  exists u, (forall i k, usage p i (LExact k) -> u i = k) /\ (total u (seq 0 (length (pg_defined p))) < 2 ^ 64)%N.

(** ** The start point *)
(** The names under which the graph shows functions and symbols outside of the executable. *)
Definition shown_name (p : prog) (n : str) : Prop := (exists i, chosen p i n) \/ created p n.
Definition hashed_start (demangle : str -> str) (s n : str) : Prop := exists r, demangle n = s ++ lit "::h" ++ r.
(** [denotes demangle p s k]: the start point [s] is the node of [k]: the one with name [s], or the only one whose name is [s] with a hash. *)
Definition denotes (demangle : str -> str) (p : prog) (s : str) (k : key) : Prop :=
  exists n, (shown_name p s /\ n = s \/ ~ shown_name p s /\ forall m, shown_name p m /\ hashed_start demangle s m <-> m = n) /\
            ((exists i, chosen p i n /\ k = KReal i) \/ created p n /\ k = KSym n).
(** The start point, if there is one, is not found. *)
Definition no_start (demangle : str -> str) (p : prog) (start : option str) : Prop := forall s k, start = Some s -> ~ denotes demangle p s k.

(** [shows demangle p k nd]: the node [nd] of the report stands for [k]; its name may have lost its hash. *)
Definition shows (demangle : str -> str) (p : prog) (k : key) (nd : node) : Prop :=
  exists void nd0, node_of p void k nd0 /\ nlocal nd = nlocal nd0 /\ ndashed nd = ndashed nd0 /\
    (nname nd = nname nd0 \/ has_hash (demangle (nname nd0)) (nname nd)).

(** [pictures demangle p start ks void nds es]: the nodes [nds], standing for [ks], and the edges [es] show the call graph of [p], or the
    part of it below the start point. *)
Record pictures (demangle : str -> str) (p : prog) (start : option str) (ks : list key) (void : option str) (nds : list node) (es : list (nat * nat)) : Prop := {
  pi_keys : NoDup ks /\ length ks = length nds;
  pi_nodes : forall k, In k ks -> is_node p k;
  pi_void : match void with Some v => true_void p v | None => forall v, ~ true_void p v end;
  pi_show : forall k key nd, nth_error ks k = Some key -> nth_error nds k = Some nd -> shows demangle p key nd;
  pi_all : no_start demangle p start -> forall k, is_node p k -> In k ks;
  pi_start : forall s k, start = Some s -> denotes demangle p s k ->
             nth_error ks 0 = Some k /\ forall v, v < length ks -> star (fun a b => In (a, b) es) 0 v;
  pi_wf : forall u v, In (u, v) es -> u < length ks /\ v < length ks;
  pi_must : forall k l, In k ks -> edge p (fun _ => False) void k l ->
            exists u v, nth_error ks u = Some k /\ nth_error ks v = Some l /\ In (u, v) es;
  pi_may : forall u v k l, In (u, v) es -> nth_error ks u = Some k -> nth_error ks v = Some l -> edge p (created p) void k l;
  pi_times : forall tr, trace p (pg_defines p) tr -> forall u v k l, nth_error ks u = Some k -> nth_error ks v = Some l ->
             S_calls.shown_times p tr void k l (S_calls.times (u, v) es);
  pi_closed : forall tr, trace p (pg_defines p) tr -> forall k l, In k ks -> S_calls.arrow p tr void k l -> In l ks
}.
(** LLVM knows the stack usage of some function of the program. *)
Definition measured (p : prog) : Prop := exists i n, chosen p i n /\ sized p n.
(** [groups es cs]: the lists [cs] are the groups of nodes which call each other, among those nodes which can call themselves. *)
Record groups (es : list (nat * nat)) (cs : list (list nat)) : Prop := {
  gr_once : NoDup (concat cs) /\ forall c, In c cs -> c <> [];
  gr_all : forall v, In v (concat cs) <-> exists w, In (v, w) es /\ star (fun a b => In (a, b) es) w v;
  gr_same : forall c x y, In c cs -> In x c -> (In y c <-> star (fun a b => In (a, b) es) x y /\ star (fun a b => In (a, b) es) y x)
}.
(** [figures nds es]: the maxima of the nodes are those which follow from the usages of the nodes and the edges. *)
Definition figures (nds : list node) (es : list (nat * nat)) : Prop :=
  let g := mkG nds es in
  forall v m, reported g v m ->
  (exact m <-> (forall u, reach g v u -> exists n, known g u n) /\ (forall u, reach g v u -> recursive g u -> known g u 0)) /\
  (below_2_64 g v -> forall n, charge g v n <-> n = num m).

(** If the name of the node carries a hash, then the name without it is that of some function. *)
Definition known_name (demangle : str -> str) (p : prog) (nd : node) : Prop :=
  forall h, has_hash (demangle (nname nd)) h -> exists i c, chosen p i c /\ has_hash (demangle c) h.
(** [in_view demangle p E start k]: [k] is below the start point, if there is one; [E] are the edges. *)
Inductive leads (E : key -> key -> Prop) : key -> key -> Prop :=
| leads_refl k : leads E k k
| leads_step k l m : E k l -> leads E l m -> leads E k m.
Definition in_view (demangle : str -> str) (p : prog) (E : key -> key -> Prop) (start : option str) (k : key) : Prop :=
  forall s r, start = Some s -> denotes demangle p s r -> leads E r k.
(** The type that stands for `fmt::Void`, if there is one. *)
Definition void_type (p : prog) (void : option str) : Prop := match void with Some v => true_void p v | None => forall v, ~ true_void p v end.
(** The names of all nodes in view are known. *)
Definition names_known (demangle : str -> str) (p : prog) (start : option str) : Prop :=
  forall void k nd, void_type p void -> is_node p k -> in_view demangle p (edge p (created p) void) start k -> node_of p void k nd -> known_name demangle p nd.
(** The sizes that LLVM gives are numbers of 64 bits. *)
Definition sizes_u64 (p : prog) : Prop := forall n k, In (n, k) (pg_sizes p) -> (k < 2 ^ 64)%N.
