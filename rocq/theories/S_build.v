(** Specification vocabulary for the construction of the call graph.

    A program is a symbol table (which names live at which address), definitions and declarations in LLVM IR, stack sizes
    and machine code ([prog]).  Nothing here depends on the order in which the definitions are listed. *)
From Coq Require Import Permutation.
From Verif Require Import M_base M_stack M_graph M_analysis M_filter M_names M_thumb M_ty M_parse M_build S_names S_sig.

(** ** Symbols *)
(** The mapping symbols `$a`, `$a.1`, `$x`, `$x.7`... are not functions. *)
Definition mapping_symbol (n : str) : bool :=
  existsb (fun t => str_eqb n t || starts_with (t ++ lit ".") n) [lit "$a"; lit "$x"].
Definition real_names (x : N * symbol) : list str := filter (fun n => negb (mapping_symbol n)) (sy_names (snd x)).

(** [names_at p i ns]: the [i]-th address of the symbol table has the names [ns]. *)
Definition names_at (p : prog) (i : nat) (ns : list str) : Prop :=
  exists x, nth_error (pg_defined p) i = Some x /\ ns = real_names x.
(** [live p f i]: function [f] is in the executable, at the [i]-th address. *)
Definition live (p : prog) (f : str) (i : nat) : Prop := exists ns, names_at p i ns /\ In f ns.

Definition sized (p : prog) (n : str) : Prop := exists k, In (n, k) (pg_sizes p).
(** [first P l x]: [x] is the first element of [l] with property [P]. *)
Definition first {A} (P : A -> Prop) (l : list A) (x : A) : Prop :=
  exists a b, l = a ++ x :: b /\ P x /\ forall y, In y a -> ~ P y.
(** [chosen p i n]: [n] is the name by which the graph knows the function: the first that has a stack size, else the first. *)
Definition chosen (p : prog) (i : nat) (n : str) : Prop :=
  exists ns, names_at p i ns /\
    (first (sized p) ns n \/ ((forall m, In m ns -> ~ sized p m) /\ first (fun _ => True) ns n)).

(** ** Programs *)
(** The maps have distinct keys, addresses are distinct and no name is used at two addresses. *)
Record wf_prog (p : prog) : Prop := {
  wf_defines : NoDup (map fst (pg_defines p));
  wf_def_names : forall n d, In (n, d) (pg_defines p) -> n = d_name d;
  wf_declares : NoDup (map fst (pg_declares p));
  wf_sizes : NoDup (map fst (pg_sizes p));
  wf_addrs : NoDup (map fst (pg_defined p));
  wf_names : NoDup (flat_map real_names (pg_defined p))
}.

(** [body p i st]: the function at address [i] contains statement [st]. *)
Definition body (p : prog) (i : nat) (st : stmt) : Prop :=
  exists n d, In (n, d) (pg_defines p) /\ live p n i /\ In st (d_stmts d).

(** ** Signatures *)
Definition has_def (p : prog) (n : str) : Prop := exists d, In (n, d) (pg_defines p).
Definition has_decl (p : prog) (n : str) : Prop := exists s, In (n, Some s) (pg_declares p).
(** Signature by the definition of the first name that has one; by declaration if there is no definition. *)
Definition typed_by_def (p : prog) (i : nat) (s : fnsig) : Prop :=
  exists ns n d, names_at p i ns /\ first (has_def p) ns n /\ In (n, d) (pg_defines p) /\ s = d_sig d.
Definition typed_by_decl (p : prog) (i : nat) (s : fnsig) : Prop :=
  exists ns n, names_at p i ns /\ (forall m, In m ns -> ~ has_def p m) /\ first (has_decl p) ns n /\ In (n, Some s) (pg_declares p).
Definition typed (p : prog) (i : nat) (s : fnsig) : Prop := typed_by_def p i s \/ typed_by_decl p i s.
(** A function without type information (functions made by the outliner are never called through pointers). *)
Definition untyped_fn (p : prog) (i : nat) : Prop :=
  exists ns n, names_at p i ns /\ chosen p i n /\ (forall m, In m ns -> ~ has_def p m /\ ~ has_decl p m) /\ ~ outlined_name n.
Definition untyped (p : prog) : Prop := exists i, untyped_fn p i.

(** ** Direct calls *)
Definition intrinsic (f : str) : Prop := exists r, f = lit "llvm." ++ r.
Definition memcmp : str := lit "memcmp".
(** What the memory intrinsics call, according to the tool, on targets whose machine code it does not read. *)
Inductive lowers : str -> str -> Prop :=
| lo_memcpy r n : In n (map lit ["memcpy"; "__aeabi_memcpy"; "__aeabi_memcpy4"]%string) -> lowers (lit "llvm.memcpy." ++ r) n
| lo_memset r n : In n (map lit ["memset"; "__aeabi_memset"; "__aeabi_memset4"; "memclr"; "__aeabi_memclr"; "__aeabi_memclr4"]%string) ->
    lowers (lit "llvm.memset." ++ r) n
| lo_memmove r n : In n (map lit ["memset"; "__aeabi_memset"; "__aeabi_memset4"; "memclr"; "__aeabi_memclr"; "__aeabi_memclr4"]%string) ->
    lowers (lit "llvm.memmove." ++ r) n.
Definition lowered (f : str) : Prop := exists n, lowers f n.

(** ** Machine code *)
(** [extent tags addr sym size]: the machine code of [sym] is [size] bytes long.  A symbol of size zero extends from the `$t`
    tag at its address to the next tag if that is a `$t` tag too, and is empty otherwise. *)
Inductive extent (tags : list (N * tag)) (addr : N) (sym : symbol) : N -> Prop :=
| ex_sized : (sy_size sym mod 2 ^ 32 <> 0)%N -> extent tags addr sym (sy_size sym mod 2 ^ 32)
| ex_tags k start tend : (sy_size sym mod 2 ^ 32 = 0)%N -> find_tag tags addr = Ret (Some k) ->
    nth_error tags k = Some (start, TThumb) -> nth_error tags (S k) = Some (tend, TThumb) ->
    extent tags addr sym ((tend + 2 ^ 32 - start) mod 2 ^ 32)
| ex_empty o : (sy_size sym mod 2 ^ 32 = 0)%N -> find_tag tags addr = Ret o ->
    (forall k start tend, o = Some k -> nth_error tags k = Some (start, TThumb) -> nth_error tags (S k) <> Some (tend, TThumb)) ->
    extent tags addr sym 0.
(** [bytes_at text offset size code]: [code] are the [size] bytes at [offset] of [text]. *)
Definition bytes_at (text : str) (offset size : N) (code : str) : Prop :=
  exists before after, text = before ++ code ++ after /\ N.of_nat (length before) = offset /\ N.of_nat (length code) = size.
(** [analysed p i addr size a]: the machine code of function [i], [size] bytes at [addr], has the analysis [a]. *)
Definition analysed (p : prog) (i : nat) (addr size : N) (a : st) : Prop :=
  is_thumb (pg_target p) = true /\
  exists stext text x code, pg_text p = Some (stext, text) /\ nth_error (pg_defined p) i = Some x /\ addr = (fst x mod 2 ^ 32)%N /\
    extent (pg_tags p) addr (snd x) size /\
    bytes_at text ((addr + 2 ^ 32 - stext mod 2 ^ 32) mod 2 ^ 32)%N size code /\
    analyze code addr (is_v7 (pg_target p)) (pg_tags p) = Ret a.
(** [jumps p i j]: the machine code of [i] has a BL to the address of [j], or a B to it which leaves the function. *)
Definition at_address (p : prog) (j : nat) (a : N) : Prop := exists sym, nth_error (pg_defined p) j = Some (a, sym).
Definition leaves (addr size target : N) : Prop := (target < addr)%N \/ ((addr + size) mod 2 ^ 32 <= target)%N.
Definition jumps (p : prog) (i j : nat) : Prop :=
  exists addr size a, analysed p i addr size a /\
    ((exists off, In off (bls a) /\ at_address p j (Z.to_N ((Z.of_N addr + off) mod 2 ^ 64))) \/
     (exists off, In off (bs a) /\ at_address p j (Z.to_N ((Z.of_N addr + off) mod 2 ^ 32)) /\
                  leaves addr size (Z.to_N ((Z.of_N addr + off) mod 2 ^ 32)))).
(** The function calls through a register and its LLVM IR is not available. *)
Definition blind (p : prog) (i : nat) : Prop :=
  (exists addr size a, analysed p i addr size a /\ indirect a = true) /\
  (forall n d, In (n, d) (pg_defines p) -> ~ live p n i).

(** ** Local stack usage *)
Definition llvm_size (p : prog) (i : nat) (k : option N) : Prop :=
  exists n, chosen p i n /\ match k with Some k => In (n, k) (pg_sizes p) | None => ~ sized p n end.
Definition has_asm (p : prog) (i : nat) : Prop := exists code, body p i (Asm code).
Definition outlined (p : prog) (i : nat) : Prop := exists n, chosen p i n /\ outlined_name n.
(** [usage p i l]: the local usage shown for function [i]. *)
Inductive usage (p : prog) (i : nat) : M_stack.local -> Prop :=
| us_llvm k : (is_thumb (pg_target p) = false \/ pg_text p = None) -> llvm_size p i (Some k) -> usage p i (LExact k)
| us_none : (is_thumb (pg_target p) = false \/ pg_text p = None) -> llvm_size p i None -> usage p i LUnknown
| us_agree addr size a k : analysed p i addr size a -> llvm_size p i (Some k) -> stack a = Some k -> usage p i (LExact k)
| us_asm addr size a k m : analysed p i addr size a -> llvm_size p i (Some m) -> stack a = Some k -> k <> m -> has_asm p i ->
    usage p i (LExact k)
| us_outlined addr size a k : analysed p i addr size a -> llvm_size p i (Some 0%N) -> stack a = Some k -> k <> 0%N -> ~ has_asm p i ->
    outlined p i -> usage p i (LExact k)
| us_outlined_kept addr size a k m : analysed p i addr size a -> llvm_size p i (Some m) -> stack a = Some k -> k <> m -> m <> 0%N ->
    ~ has_asm p i -> outlined p i -> usage p i (LExact m)
| us_no_total addr size a m : analysed p i addr size a -> llvm_size p i (Some m) -> stack a = None -> usage p i (LExact m)
| us_ours addr size a k : analysed p i addr size a -> llvm_size p i None -> stack a = Some k -> usage p i (LExact k)
| us_untouched addr size a : analysed p i addr size a -> llvm_size p i None -> stack a = None -> modifies_sp a = false ->
    usage p i (LExact 0)
| us_unknown addr size a : analysed p i addr size a -> llvm_size p i None -> stack a = None -> modifies_sp a = true ->
    usage p i LUnknown.

(** ** Indirect calls *)
(** [candidate_sig p s]: some function has signature [s]. *)
Definition candidate_sig (p : prog) (s : fnsig) : Prop := exists j, typed p j s.
(** Function [i] calls a pointer that may point to functions of signature [s]. *)
Definition calls_sig (p : prog) (i : nat) (s : fnsig) : Prop :=
  candidate_sig p s /\ exists s', body p i (IndirectCall s') /\ sig_matches s s'.
Definition called_sig (p : prog) (s : fnsig) : Prop := exists i, calls_sig p i s.

(** Signature of `fn(&T, &mut Formatter) -> fmt::Result`, [T] being the type `%r`. *)
Definition fmt_sig (r : ty) : fnsig :=
  {| inputs := [TPtr r; TPtr (TAlias (lit "core::fmt::Formatter"))]; output := Some (TInt 1) |}.
Definition void_candidate (p : prog) (r : str) : Prop := candidate_sig p (fmt_sig (TAlias r)).
(** The type that stands for `fmt::Void`. *)
Definition true_void (p : prog) (v : str) : Prop :=
  void_candidate p v /\
  (v = lit "fmt::Void" \/
   ~ void_candidate p (lit "fmt::Void") /\
   ((exists r, v = lit "core::fmt::Void" ++ r) \/
    (forall r, ~ void_candidate p (lit "core::fmt::Void" ++ r)) /\ (forall w, void_candidate p w -> w = v))).
(** The functions that a pointer of signature [s] may point to, according to the tool. *)
Definition pointee (p : prog) (void : option str) (s : fnsig) (j : nat) : Prop :=
  (exists v, void = Some v /\ s = fmt_sig (TAlias v) /\ exists r, typed_by_def p j (fmt_sig r)) \/
  ((forall v, void = Some v -> s <> fmt_sig (TAlias v)) /\ typed p j s).

(** ** The call graph *)
(** What a node stands for: a function of the executable, a symbol outside of it, the unknown callee of function [i], a
    function pointer type, the unknown callee of a function pointer. *)
Inductive key := KReal (i : nat) | KSym (n : str) | KCode (i : nat) | KSig (s : fnsig) | KExt (s : fnsig).

(** Symbols outside of the executable that get a node. *)
Definition created (p : prog) (n : str) : Prop :=
  (exists i, body p i (DirectCall n) /\ ~ intrinsic n /\ n <> memcmp /\ forall j, ~ live p n j) \/
  (exists i, body p i (BitcastCall (Some n)) /\ forall j, ~ chosen p j n).

Inductive is_node (p : prog) : key -> Prop :=
| in_real i : i < length (pg_defined p) -> is_node p (KReal i)
| in_sym n : created p n -> is_node p (KSym n)
| in_code i : blind p i -> is_node p (KCode i)
| in_sig s : called_sig p s -> is_node p (KSig s)
| in_ext s : called_sig p s -> untyped p -> is_node p (KExt s).

(** [edge p known void k l]: the graph has an edge from [k] to [l].  [known] are the symbols outside of the executable that
    have a node when a call of a memory intrinsic or of `memcmp` is met. *)
Inductive edge (p : prog) (known : str -> Prop) (void : option str) : key -> key -> Prop :=
| ed_direct i f j : body p i (DirectCall f) -> ~ intrinsic f -> live p f j -> (f = memcmp -> chosen p j f \/ known f) ->
    edge p known void (KReal i) (KReal j)
| ed_extern i f : body p i (DirectCall f) -> ~ intrinsic f -> (forall j, ~ live p f j) -> (f = memcmp -> known f) ->
    edge p known void (KReal i) (KSym f)
| ed_cast i f j : body p i (BitcastCall (Some f)) -> chosen p j f -> edge p known void (KReal i) (KReal j)
| ed_cast_extern i f : body p i (BitcastCall (Some f)) -> (forall j, ~ chosen p j f) -> edge p known void (KReal i) (KSym f)
| ed_mem i f n j : is_thumb (pg_target p) = false -> body p i (DirectCall f) -> lowers f n -> chosen p j n ->
    edge p known void (KReal i) (KReal j)
| ed_mem_extern i f n : is_thumb (pg_target p) = false -> body p i (DirectCall f) -> lowers f n -> (forall j, ~ chosen p j n) -> known n ->
    edge p known void (KReal i) (KSym n)
| ed_code i j : jumps p i j -> edge p known void (KReal i) (KReal j)
| ed_blind i : blind p i -> edge p known void (KReal i) (KCode i)
| ed_pointer i s : calls_sig p i s -> edge p known void (KReal i) (KSig s)
| ed_pointee s j : called_sig p s -> pointee p void s j -> edge p known void (KSig s) (KReal j)
| ed_outside s : called_sig p s -> untyped p -> edge p known void (KSig s) (KExt s).

(** The name shown for a function pointer type. *)
Definition sig_label (void : option str) (s : fnsig) (l : str) : Prop :=
  (exists v, void = Some v /\ v <> lit "fmt::Void" /\ s = fmt_sig (TAlias v) /\
     l = show_sig {| inputs := TAlias (lit "fmt::Void") :: tl (inputs s); output := output s |} ++ lit "*") \/
  ((forall v, void = Some v -> v <> lit "fmt::Void" -> s <> fmt_sig (TAlias v)) /\ l = show_sig s ++ lit "*").

(** [node_of p void k nd]: [nd] is what the graph shows for [k]. *)
Inductive node_of (p : prog) (void : option str) : key -> node -> Prop :=
| no_real i n l : chosen p i n -> usage p i l -> node_of p void (KReal i) (mkNode n l None false)
| no_sym n : node_of p void (KSym n) (mkNode n LUnknown None false)
| no_code i : node_of p void (KCode i) (mkNode (lit "?") LUnknown None false)
| no_sig s l : sig_label void s l -> node_of p void (KSig s) (mkNode l (LExact 0) None true)
| no_ext s : node_of p void (KExt s) (mkNode (lit "?") LUnknown None false).

(** [graph_of p ks void g]: [g] is a call graph of [p]; node [i] stands for [nth i ks]. *)
Record graph_of (p : prog) (ks : list key) (void : option str) (g : graph node) : Prop := {
  go_keys : NoDup ks;
  go_nodes : forall k, In k ks <-> is_node p k;
  go_real : forall i, i < length (pg_defined p) -> nth_error ks i = Some (KReal i);
  go_show : Forall2 (node_of p void) ks (gnodes g);
  go_void : match void with Some v => true_void p v | None => forall v, ~ true_void p v end;
  go_wf : forall u v, In (u, v) (gedges g) -> u < length ks /\ v < length ks;
  go_must : forall k l, edge p (fun _ => False) void k l ->
            exists u v, nth_error ks u = Some k /\ nth_error ks v = Some l /\ In (u, v) (gedges g);
  go_may : forall u v k l, In (u, v) (gedges g) -> nth_error ks u = Some k -> nth_error ks v = Some l ->
           edge p (created p) void k l
}.

(** The iteration orders of hash maps and sets: any permutations. *)
Record fair (o : orders) : Prop := {
  fair_sigs : forall m, Permutation (o_sigs o m) m;
  fair_callers : forall s l, Permutation (o_callers o s l) l;
  fair_callees : forall s l, Permutation (o_callees o s l) l
}.

(** ** Properties *)
(** Why there may be an edge between two functions. *)
Inductive reason (p : prog) (i j : nat) : Prop :=
| re_direct f : body p i (DirectCall f) -> live p f j -> reason p i j
| re_cast f : body p i (BitcastCall (Some f)) -> live p f j -> reason p i j
| re_mem f n : is_thumb (pg_target p) = false -> body p i (DirectCall f) -> lowers f n -> live p n j -> reason p i j
| re_code : jumps p i j -> reason p i j.

(** The same program, read with other iteration orders of the hash maps. *)
Record same_prog (p q : prog) : Prop := {
  sp_target : pg_target q = pg_target p;
  sp_defines : Permutation (pg_defines q) (pg_defines p);
  sp_declares : Permutation (pg_declares q) (pg_declares p);
  sp_sizes : Permutation (pg_sizes q) (pg_sizes p);
  sp_defined : pg_defined q = pg_defined p;
  sp_undefined : Permutation (pg_undefined q) (pg_undefined p);
  sp_tags : pg_tags q = pg_tags p;
  sp_text : pg_text q = pg_text p
}.
(** Same nodes and same caller/callee pairs, for some one-to-one correspondence of the nodes that keeps the first [n]. *)
Definition same_graph (n : nat) (g1 g2 : graph node) : Prop :=
  exists f f' : nat -> nat,
    (forall v, v < n -> f v = v) /\
    (forall v, nth_error (gnodes g2) (f v) = nth_error (gnodes g1) v /\ nth_error (gnodes g1) (f' v) = nth_error (gnodes g2) v) /\
    (forall v, v < node_count g1 -> f' (f v) = v) /\ (forall v, v < node_count g2 -> f (f' v) = v) /\
    (forall u v, u < node_count g1 -> v < node_count g1 -> (In (u, v) (gedges g1) <-> In (f u, f v) (gedges g2))).
(** No memory routine is a symbol outside of the executable. *)
Definition stable (p : prog) : Prop := forall n, created p n -> n <> memcmp /\ forall f, ~ lowers f n.
Definition one_void (p : prog) : Prop := forall v w, true_void p v -> true_void p w -> v = w.

(** The target of a BL or B at offset [off] from the start [addr] of a function. *)
Definition bl_target (addr : N) (off : Z) : N := Z.to_N ((Z.of_N addr + off) mod 2 ^ 64).
Definition b_target (addr : N) (off : Z) : N := Z.to_N ((Z.of_N addr + off) mod 2 ^ 32).
(** Intrinsics that need no function call, according to the tool. *)
Definition no_call (f : str) : Prop :=
  In f (map lit ["llvm.dbg.value"; "llvm.dbg.declare"; "llvm.assume"; "llvm.trap"; "llvm.x86.sse2.pause"; "llvm.experimental.noalias.scope.decl"]%string) \/
  exists pre r, f = lit pre ++ r /\
    In pre ["llvm.lifetime.start"; "llvm.lifetime.end"; "llvm.abs."; "llvm.bswap."; "llvm.ctlz."; "llvm.cttz."; "llvm.sadd.with.overflow.";
            "llvm.smul.with.overflow."; "llvm.ssub.with.overflow."; "llvm.uadd.sat."; "llvm.uadd.with.overflow."; "llvm.umax."; "llvm.umin.";
            "llvm.umul.with.overflow."; "llvm.usub.sat."; "llvm.usub.with.overflow."; "llvm.vector.reduce."; "llvm.x86.sse2.pmovmskb."]%string.

(** ** Programs which the tool understands *)
(** The usage that was found in the machine code does not contradict itself or LLVM's. *)
Definition agreed (p : prog) (i : nat) (a : st) : Prop :=
  (forall k, stack a = Some k -> (k <> 0%N <-> modifies_sp a = true)) /\
  (forall m, llvm_size p i (Some m) -> exists l, usage p i (LExact l) /\ (l <> 0%N <-> modifies_sp a = true)).
(** The statements of the functions of the executable, in the order of the definitions. *)
Inductive trace (p : prog) : list (str * define) -> list (nat * stmt) -> Prop :=
| tr_nil : trace p [] []
| tr_removed n d ds l : (forall i, ~ live p n i) -> trace p ds l -> trace p ((n, d) :: ds) l
| tr_kept n d i ds l : live p n i -> trace p ds l -> trace p ((n, d) :: ds) (map (pair i) (d_stmts d) ++ l).
(** After the statements [done], the statement [st] is understood: it does not call something nameless, a function that is called by
    its name is a symbol of the executable (or `memcmp`, if [done] does not call it under a cast), and what is to become of an intrinsic is known. *)
Definition stmt_ok (p : prog) (done : list (nat * stmt)) (st : stmt) : Prop :=
  match st with
  | BitcastCall None => False
  | DirectCall f =>
      (~ intrinsic f -> (exists j, live p f j) \/ In f (pg_undefined p) \/ (f = memcmp /\ forall k, ~ In (k, BitcastCall (Some memcmp)) done)) /\
      (intrinsic f -> is_thumb (pg_target p) = false -> lowered f \/ no_call f)
  | _ => True
  end.
(** The machine code of function [i] is understood: it can be decoded, and its usage is settled. *)
Definition settled (p : prog) (i : nat) (x : N * symbol) (addr size : N) (a : st) : Prop :=
  (exists n ns, sy_names (snd x) = n :: ns /\ mapping_symbol n = false) /\ analysed p i addr size a /\ agreed p i a.
(** Its calls and jumps lead to functions. *)
Definition resolved (p : prog) (addr size : N) (a : st) : Prop :=
  (forall off, In off (bls a) -> exists j, at_address p j (bl_target addr off)) /\
  (forall off, In off (bs a) -> leaves addr size (b_target addr off) -> exists j, at_address p j (b_target addr off)).
Definition code_ok (p : prog) (i : nat) (x : N * symbol) : Prop := exists addr size a, settled p i x addr size a /\ resolved p addr size a.
Record understood (p : prog) : Prop := {
  un_named : forall x, In x (pg_defined p) -> real_names x <> [];
  un_stmts : forall tr pre i st post, trace p (pg_defines p) tr -> tr = pre ++ (i, st) :: post -> stmt_ok p pre st;
  un_code : is_thumb (pg_target p) = true -> pg_text p <> None -> forall i x, nth_error (pg_defined p) i = Some x -> code_ok p i x
}.
