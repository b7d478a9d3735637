(** Model of the log messages ([warn!], [error!]) of [run]: main.rs 456-1138.  The functions are those of M_build, M_filter and
    M_run again, with what they log; L_log proves that they compute the same.  A message is what is handed to the logger, i.e. without
    the time stamp, and also if `RUST_LOG` suppresses it. *)
From Verif Require Import M_base M_stack M_graph M_analysis M_filter M_names M_thumb M_ty M_parse M_build M_run.

(** main.rs 500-1137: `warn!` and `error!`. *)
Inductive level := Warn | Error.
(** main.rs 500-1137. *)
Definition message : Type := (level * str)%type.
(** A computation that logs; the messages before a panic are kept (main.rs 420-1137). *)
Definition lg (A : Type) : Type := (list message * outcome A)%type.
(** main.rs 420-1137. *)
Definition lret {A} (x : A) : lg A := ([], Ret x).
(** main.rs 420-1137: a part that does not log. *)
Definition quiet {A} (x : outcome A) : lg A := ([], x).
(** e.g. main.rs 500, 951. *)
Definition log (l : level) (text : str) : lg unit := ([(l, text)], Ret tt).
(** main.rs 420-1137. *)
Definition lbind {A B} (x : lg A) (f : A -> lg B) : lg B :=
  match snd x with
  | Ret a => let r := f a in (fst x ++ fst r, snd r)
  | Fail m => (fst x, Fail m)
  | Panic m => (fst x, Panic m)
  | Fuel => (fst x, Fuel)
  end.
Notation "'lg*' x ':=' e1 'in' e2" := (lbind e1 (fun x => e2))
  (at level 200, x pattern, e1 at level 200, e2 at level 200, right associativity).
(** The loops main.rs 460-545, 551-765, 798-949, 1004-1065. *)
Fixpoint lfold {S X} (f : S -> X -> lg S) (l : list X) (s : S) : lg S :=
  match l with
  | [] => lret s
  | x :: l' => lg* s' := f s x in lfold f l' s'
  end.
(** main.rs 500, 542, 585, 701, 899. *)
Definition quoted (before name after : str) : str := before ++ lit "`" ++ name ++ lit "`" ++ after.

(** main.rs 460-545: one address; the messages of 500 and 542. *)
Definition add_real_log (demangle : str -> str) (p : prog) (s : nodes) (x : N * symbol) : lg nodes :=
  let names := untagged (snd x) in
  lg* canonical_name := quiet (canonical (pg_sizes p) names) in
  let aliases := fold_left (fun m n => sput m n canonical_name) names (n_aliases s) in
  let addr2name := bput (n_addr2name s) (fst x) canonical_name in
  let stack := sget (pg_sizes p) canonical_name in
  lg* info :=
    match stack with
    | None =>
        lg* _ := if negb (is_thumb (pg_target p)) then log Warn (quoted (lit "no stack usage information for ") canonical_name []) else lret tt in
        lret (n_info s)
    | Some _ => lret true
    end in
  lg* ambiguous := quiet (note_name demangle (n_ambiguous s) canonical_name) in
  let '(g, idx) := add_node (n_g s) (new_node canonical_name stack false) in
  let indices := sput (n_indices s) canonical_name idx in
  match def_of (pg_defines p) names with
  | Some def =>
      let fmts := match fmt_receiver (d_sig def) with Some _ => ninsert (n_fmts s) idx | None => n_fmts s end in
      lret (mkNodes g indices aliases addr2name ambiguous (add_candidate (n_indirects s) (d_sig def) idx) fmts info (n_untyped s))
  | None =>
      match decl_of (pg_declares p) names with
      | Some sig =>
          lret (mkNodes g indices aliases addr2name ambiguous (add_candidate (n_indirects s) sig idx) (n_fmts s) info (n_untyped s))
      | None =>
          if negb (is_outlined_function canonical_name) then
            lg* _ := log Warn (quoted (lit "no type information for ") canonical_name []) in
            lret (mkNodes g indices aliases addr2name ambiguous (n_indirects s) (n_fmts s) info true)
          else lret (mkNodes g indices aliases addr2name ambiguous (n_indirects s) (n_fmts s) info (n_untyped s))
      end
  end.
Definition real_nodes_log (demangle : str -> str) (p : prog) : lg nodes := lfold (add_real_log demangle p) (pg_defined p) nodes0.

(** main.rs 595-699: the intrinsics that reach the message of 701, i.e. those of 681-697 that no test before them catches. *)
Definition taken_for_code (thumb : bool) (func : str) : bool :=
  if smem func (map lit ["llvm.dbg.value"; "llvm.dbg.declare"; "llvm.assume"; "llvm.trap"]%string) then false
  else if starts_with (lit "llvm.lifetime.start") func || starts_with (lit "llvm.lifetime.end") func then false
  else if thumb && starts_with (lit "llvm.") func then false
  else if starts_with (lit "llvm.memcpy.") func then false
  else if starts_with (lit "llvm.memset.") func || starts_with (lit "llvm.memmove.") func then false
  else existsb (fun pre => starts_with pre func) lowered_prefixes || str_eqb func (lit "llvm.x86.sse2.pause").

(** main.rs 566-761: one statement; the messages of 569, 585 and 701.  The second component of the state is [llvm_seen]. *)
Definition exec_stmt_log (p : prog) (aliases : list (str * str)) (canonical_name : str) (caller : nat)
    (x : edgest * list str) (st : stmt) : lg (edgest * list str) :=
  let '(s, llvm_seen) := x in
  match st with
  | Asm expr =>
      lg* _ :=
        if smem canonical_name (e_asm s) then lret tt
        else log Warn (lit "assuming that asm!(" ++ [dquote] ++ expr ++ [dquote] ++ quoted (lit ") does *not* use the stack in ") canonical_name []) in
      lret (mkEdges (e_g s) (e_indices s) (e_indirects s) (e_seen s) (e_defined s) (sinsert (e_asm s) canonical_name), llvm_seen)
  | BitcastCall None => quiet (Panic "BUG? unnamed symbol is being invoked")
  | BitcastCall (Some sym) =>
      lg* (s, callee) :=
        match sget (e_indices s) sym with
        | Some idx => lret (s, idx)
        | None =>
            lg* _ := log Warn (quoted (lit "no stack information for ") sym []) in
            lret (add_unknown sym s)
        end in
      lret (e_set_g s (add_edge (e_g s) caller callee), llvm_seen)
  | DirectCall func =>
      if taken_for_code (is_thumb (pg_target p)) func then
        if negb (smem func llvm_seen) then
          lg* _ := log Warn (quoted (lit "assuming that ") func (lit " directly lowers to machine code")) in
          lret (s, sinsert llvm_seen func)
        else lret (s, llvm_seen)
      else
        lg* s := quiet (exec_stmt p aliases canonical_name caller s st) in
        lret (s, llvm_seen)
  | IndirectCall _ | SComment | Label | Other =>
      lg* s := quiet (exec_stmt p aliases canonical_name caller s st) in
      lret (s, llvm_seen)
  end.
(** main.rs 552-764: one definition. *)
Definition exec_define_log (p : prog) (aliases : list (str * str)) (x : edgest * list str) (d : define) : lg (edgest * list str) :=
  let '(s, llvm_seen) := x in
  match sget aliases (d_name d) with
  | None => lret (s, llvm_seen)
  | Some canonical_name =>
      let s := mkEdges (e_g s) (e_indices s) (e_indirects s) (e_seen s) (sinsert (e_defined s) canonical_name) (e_asm s) in
      match sget (e_indices s) canonical_name with
      | None => quiet (Panic "no entry found for key")
      | Some caller => lfold (exec_stmt_log p aliases canonical_name caller) (d_stmts d) (s, llvm_seen)
      end
  end.
Definition ir_edges_log (p : prog) (n : nodes) : lg edgest :=
  lg* (e, _) := lfold (exec_define_log p (n_aliases n)) (map snd (pg_defines p))
    (mkEdges (n_g n) (n_indices n) (n_indirects n) [] [] [], []) in
  lret e.

(** main.rs 848-853 and 861-866. *)
Definition overrides (name : str) (llvm stack : N) (reason : str) : lg unit :=
  log Warn (quoted (lit "LLVM reported that ") name (lit " uses ") ++ show_N llvm ++ lit " bytes of stack but our analysis reported " ++
            show_N stack ++ lit " bytes; overriding LLVM's result (" ++ reason ++ lit ")").
(** main.rs 827-900: the local usage of a function. *)
Definition settle_log (name : str) (asm outlined : bool) (local : M_stack.local) (a : st) : lg M_stack.local :=
  lg* _ :=
    match stack a with
    | Some k => if Bool.eqb (negb (k =? 0)%N) (modifies_sp a) then lret tt else quiet (Panic "BUG: our analysis is inconsistent")
    | None => lret tt
    end in
  lg* local :=
    match local with
    | LExact llvm =>
        lg* llvm' :=
          match stack a with
          | Some k =>
              if negb (llvm =? k)%N && asm then lg* _ := overrides name llvm k (lit "function uses inline assembly") in lret k
              else if outlined then
                if (llvm =? 0)%N && negb (k =? llvm)%N then
                  lg* _ := overrides name llvm k (lit "function was produced by LLVM's function outlining pass") in lret k
                else lret llvm
              else if (llvm =? k)%N then lret llvm else quiet (Panic "BUG: LLVM's result does not match our analysis")
          | None => lret llvm
          end in
        if Bool.eqb (negb (llvm' =? 0)%N) (modifies_sp a) then lret (LExact llvm')
        else quiet (Panic "BUG: LLVM's result does not match our analysis")
    | LUnknown =>
        match stack a with
        | Some k => lret (LExact k)
        | None => if negb (modifies_sp a) then lret (LExact 0) else lret LUnknown
        end
    end in
  lg* _ := match local with LUnknown => log Warn (quoted (lit "no stack usage information for ") name []) | LExact _ => lret tt end in
  lret local.

(** main.rs 798-950: one symbol. *)
Definition exec_code_log (p : prog) (n : nodes) (e : edgest) (stext : N) (text : str)
    (x : graph node * list (nat * nat)) (s : N * symbol) : lg (graph node * list (nat * nat)) :=
  let address := (fst s mod 2 ^ 32)%N in
  match sy_names (snd s) with
  | [] => quiet (Panic "index out of bounds: names[0]")
  | name :: _ =>
      match sget (n_aliases n) name with
      | None => quiet (Panic "no entry found for key")
      | Some canonical_name =>
          lg* size := quiet (code_size (pg_tags p) address (snd s)) in
          lg* code := quiet (slice text ((address + 2 ^ 32 - stext) mod 2 ^ 32)%N size) in
          lg* a := quiet (analyze code address (is_v7 (pg_target p)) (pg_tags p)) in
          match sget (e_indices e) canonical_name with
          | None => quiet (Panic "no entry found for key")
          | Some caller =>
              let '(g, seen) := x in
              lg* local := quiet (get_local g caller) in
              lg* local := settle_log canonical_name (smem canonical_name (e_asm e)) (is_outlined_function canonical_name) local a in
              let g := set_node_local g caller local in
              lg* g :=
                if negb (smem canonical_name (e_defined e)) && indirect a then
                  lg* _ := log Warn (quoted [] canonical_name
                    (lit " performs an indirect function call and there's no type information about the operation")) in
                  let '(g, callee) := add_node g (new_node (lit "?") None false) in lret (add_edge g caller callee)
                else lret g in
              lg* x := quiet (ofold (add_bl (e_indices e) (n_addr2name n) caller address) (bls a) (g, seen)) in
              quiet (ofold (add_b (e_indices e) (n_addr2name n) caller address size) (bs a) x)
          end
      end
  end.
(** main.rs 770-953. *)
Definition machine_edges_log (p : prog) (n : nodes) (e : edgest) : lg (graph node) :=
  if is_thumb (pg_target p) then
    match pg_text p with
    | None =>
        lg* _ := log Error (lit ".text section not found") in
        lret (e_g e)
    | Some (stext, text) =>
        lg* (g, _) := lfold (exec_code_log p n e (stext mod 2 ^ 32) text) (pg_defined p) (e_g e, e_seen e) in
        lret g
    end
  else lret (e_g e).

(** main.rs 1011-1065: one signature; the messages of 1025 and 1058. *)
Definition no_callees (name : str) : lg unit := log Error (quoted (lit "BUG? no callees for ") name []).
Definition is_nil {A} (l : list A) : bool := match l with [] => true | _ => false end.
Definition add_indirect_log (o : orders) (untyped : bool) (fmts : list nat) (void : option str) (g : graph node) (e : fnsig * icall)
  : lg (graph node) :=
  let '(sig, ind) := e in
  if negb (ic_called ind) then lret g
  else
    lg* callees :=
      if special_fmt void sig then
        lg* _ := if is_nil fmts then no_callees (show_sig sig) else lret tt in
        lret fmts
      else lret (ic_callees ind) in
    let name := show_sig (canonical_sig void sig) ++ lit "*" in
    let '(g, call) := add_node g (new_node name (Some 0%N) true) in
    let g := fold_left (fun g caller => add_edge g caller call) (o_callers o sig (ic_callers ind)) g in
    lg* g :=
      if untyped then
        let '(g, extern_sym) := add_node g (new_node (lit "?") None false) in lret (add_edge g call extern_sym)
      else
        lg* _ := if is_nil callees then no_callees name else lret tt in
        lret g in
    lret (fold_left (fun g callee => add_edge g call callee) (o_callees o sig callees) g).
(** main.rs 955-1065. *)
Definition indirect_edges_log (o : orders) (untyped : bool) (fmts : list nat) (indirects : list (fnsig * icall)) (g : graph node)
  : lg (graph node) :=
  lg* _ :=
    if untyped then log Warn (lit "the program contains untyped, external symbols (e.g. linked in from binary blobs); indirect function calls can not be bounded")
    else lret tt in
  let l := o_sigs o indirects in
  let void := one_true_void (map fst l) in
  lfold (add_indirect_log o untyped fmts void) l g.

(** main.rs 434-769: the steps before the symbol table of the ELF file is read. *)
Definition early_log (demangle : str -> str) (p : prog) : lg edgest :=
  lg* _ := quiet (default_methods demangle (map fst (pg_defines p))) in
  lg* n := real_nodes_log demangle p in
  ir_edges_log p n.
(** main.rs 434-1065. *)
Definition build_log (demangle : str -> str) (o : orders) (p : prog) : lg built :=
  lg* _ := quiet (default_methods demangle (map fst (pg_defines p))) in
  lg* n := real_nodes_log demangle p in
  lg* e := ir_edges_log p n in
  lg* g := machine_edges_log p n e in
  lg* g := indirect_edges_log o (n_untyped n) (n_fmts n) (e_indirects e) g in
  lret (mkBuilt g (e_indices e) (n_ambiguous n) (n_info n)).

(** `{:?}` of a string; characters outside of ASCII are left alone, which Rust does with those that can be printed (main.rs 1087). *)
Definition hex_digit (n : nat) : ascii := match nth_error (lit "0123456789abcdef") n with Some c => c | None => "?"%char end.
(** main.rs 1087. *)
Definition debug_char (c : ascii) : str :=
  let k := nat_of_ascii c in
  if Ascii.eqb c dquote || Ascii.eqb c backslash then [backslash; c]
  else if Nat.eqb k 0 then [backslash; "0"%char]
  else if Nat.eqb k 9 then [backslash; "t"%char]
  else if Nat.eqb k 10 then [backslash; "n"%char]
  else if Nat.eqb k 13 then [backslash; "r"%char]
  else if Nat.ltb k 16 then backslash :: lit "u{" ++ [hex_digit k] ++ lit "}"
  else if Nat.ltb k 32 || Nat.eqb k 127 then backslash :: lit "u{" ++ [hex_digit (k / 16); hex_digit (k mod 16)] ++ lit "}"
  else [c].
(** main.rs 1087. *)
Definition debug_str (s : str) : str := [dquote] ++ flat_map debug_char s ++ [dquote].
(** `{:?}` of a vector of strings (main.rs 1087). *)
Fixpoint debug_rest (l : list str) : str := match l with [] => [] | s :: l' => lit ", " ++ debug_str s ++ debug_rest l' end.
(** main.rs 1087. *)
Definition debug_list (l : list str) : str :=
  lit "[" ++ match l with [] => [] | s :: l' => debug_str s ++ debug_rest l' end ++ lit "]".

(** The keys of a [BTreeMap<Cow<str>, _>] in ascending order; byte by byte, as Rust compares strings.  main.rs 1070-1087: the order of [indices]. *)
Fixpoint str_leb (a b : str) : bool :=
  match a, b with
  | [], _ => true
  | _ :: _, [] => false
  | c :: a', d :: b' =>
      if Nat.ltb (nat_of_ascii c) (nat_of_ascii d) then true
      else if Nat.ltb (nat_of_ascii d) (nat_of_ascii c) then false
      else str_leb a' b'
  end.
(** main.rs 1070-1087. *)
Fixpoint insert_str (s : str) (l : list str) : list str :=
  match l with
  | [] => [s]
  | t :: l' => if str_leb s t then s :: l else t :: insert_str s l'
  end.
(** main.rs 1070-1087. *)
Definition sort_strs (l : list str) : list str := fold_right insert_str [] l.

(** main.rs 1069-1092. *)
Definition resolve_start_log (demangle : str -> str) (indices : list (str * nat)) (start : str) : lg (option nat) :=
  match sget indices start with
  | Some i => lret (Some i)
  | None =>
    let start_ := start ++ lit "::h" in
    let hits := filter (fun kv => starts_with start_ (demangle (fst kv))) indices in
    match hits with
    | [] => lret None
    | [(_, i)] => lret (Some i)
    | _ :: _ :: _ =>
        lg* _ := log Error (quoted (lit "multiple matches for ") start (lit ": ") ++ debug_list (sort_strs (map fst hits))) in
        lret None
    end
  end.
(** main.rs 1067-1133. *)
Definition filter_start_log (demangle : str -> str) (indices : list (str * nat)) (start : option str) (g : graph node) : lg (graph node) :=
  match start with
  | None => lret g
  | Some s =>
    lg* i := resolve_start_log demangle indices s in
    match i with
    | Some i => quiet (reachable_subgraph g i)
    | None =>
        lg* _ := log Error (lit "start point not found; the graph will not be filtered") in
        lret g
    end
  end.
(** main.rs 1135-1138. *)
Definition max_stack_log (has_stack_usage_info : bool) (g : graph node) : lg (graph node * list (list nat)) :=
  if negb has_stack_usage_info then
    lg* _ := log Error (lit "The graph has zero stack usage information; skipping max stack usage analysis") in
    lret (g, [])
  else quiet (max_stack has_stack_usage_info g).

(** main.rs 434-1226. *)
Definition report_log (demangle : str -> str) (o : orders) (start : option str) (p : prog) : lg (graph node * list (list nat)) :=
  lg* b := build_log demangle o p in
  lg* g := filter_start_log demangle (b_indices b) start (b_g b) in
  lg* (g, cycles) := max_stack_log (b_info b) g in
  lg* g := quiet (shorten demangle (b_ambiguous b) g) in
  lret (g, cycles).
