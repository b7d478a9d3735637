(** Model of the construction of the call graph by [run]: main.rs 337-1065.

    Hash maps are association lists with distinct keys, in the order in which they are iterated; hash sets are lists
    without repetitions.  Log messages ([warn!], [error!]) are left out: they do not change the graph; see [M_log].
    main.rs 434-454 computes [default_methods], which is never used. *)
From Verif Require Import M_base M_stack M_graph M_analysis M_filter M_names M_thumb M_ty M_parse.

(** [HashMap::insert] / [BTreeMap::insert]: replaces the value of an existing key (main.rs 342, 346, 491, 494, 512). *)
Fixpoint sput {A} (m : list (str * A)) (k : str) (v : A) : list (str * A) :=
  match m with
  | [] => [(k, v)]
  | (a, b) :: m' => if str_eqb a k then (a, v) :: m' else (a, b) :: sput m' k v
  end.
(** main.rs 722 [contains_key]. *)
Definition shas {A} (m : list (str * A)) (k : str) : bool := match sget m k with Some _ => true | None => false end.
(** [HashSet::insert] (main.rs 521, 531, 537, 756). *)
Definition ninsert (s : list nat) (i : nat) : list nat := if mem i s then s else s ++ [i].
(** main.rs 449, 560, 567, 700. *)
Definition sinsert (s : list str) (k : str) : list str := if smem k s then s else s ++ [k].
(** [BTreeMap<u64, _>] as a sorted association list. *)
Fixpoint bput {A} (m : list (N * A)) (k : N) (v : A) : list (N * A) :=
  match m with
  | [] => [(k, v)]
  | (a, b) :: m' => if (k <? a)%N then (k, v) :: m else if (a =? k)%N then (a, v) :: m' else (a, b) :: bput m' k v
  end.
Fixpoint bget {A} (m : list (N * A)) (k : N) : option A :=
  match m with
  | [] => None
  | (a, b) :: m' => if (a =? k)%N then Some b else bget m' k
  end.

(** A loop whose body can fail (the loops main.rs 460-545, 551-765, 798-949, 1004-1065). *)
Fixpoint ofold {S X} (f : S -> X -> outcome S) (l : list X) (s : S) : outcome S :=
  match l with
  | [] => Ret s
  | x :: l' => let* s' := f s x in ofold f l' s'
  end.

(** * Inputs *)

(** main.rs 337-351: the maps [defines] and [declares] of the items of both modules. *)
Definition collect_defines (items : list item) : list (str * define) :=
  fold_left (fun m it => match it with IDefine d => sput m (d_name d) d | _ => m end) items [].
Definition collect_declares (items : list item) : list (str * option fnsig) :=
  fold_left (fun m it => match it with IDeclare n s => sput m n s | _ => m end) items [].
(** main.rs 365-392: [collect] of the application's stack sizes, then [extend] by each object of compiler_builtins. *)
Definition collect_sizes (objects : list (list (str * N))) : list (str * N) :=
  fold_left (fun m kv => sput m (fst kv) (snd kv)) (concat objects) [].

(** main.rs 1516-1530 [Target] and 353-361. *)
Inductive target := Thumbv6m | Thumbv7m | OtherTarget.
Definition is_thumb (t : target) : bool := match t with Thumbv6m | Thumbv7m => true | OtherTarget => false end.
Definition is_v7 (t : target) : bool := match t with Thumbv7m => true | _ => false end.
Definition classify_target (t : str) : target :=
  if str_eqb t (lit "thumbv6m-none-eabi") then Thumbv6m
  else if str_eqb t (lit "thumbv7m-none-eabi") || str_eqb t (lit "thumbv7em-none-eabi") || str_eqb t (lit "thumbv7em-none-eabihf")
  then Thumbv7m
  else OtherTarget.

(** An element of [symbols.defined] ([stack_sizes::Function]: names and size of the symbols at one address) (main.rs 396, 460). *)
Record symbol := mkSym { sy_names : list str; sy_size : N }.

(** main.rs 398-405: `(k & !1, v)`. *)
Definition clear_thumb (t : target) (defined : list (N * symbol)) : list (N * symbol) :=
  if is_thumb t then fold_left (fun m kv => bput m (N.ldiff (fst kv) 1) (snd kv)) defined [] else defined.

(** Everything the construction of the graph reads.  main.rs 336-419: the maps and the symbols that the rest of [run] reads. *)
Record prog := mkProg {
  pg_target : target;
  pg_defines : list (str * define);           (* in iteration order *)
  pg_declares : list (str * option fnsig);
  pg_sizes : list (str * N);
  pg_defined : list (N * symbol);             (* sorted by address, thumb bit cleared *)
  pg_undefined : list str;                    (* without versions *)
  pg_tags : list (N * tag);                   (* sorted by address, main.rs 774-792 *)
  pg_text : option (N * str)                  (* address and contents of .text *)
}.

(** main.rs 774-792: the tags among the symbols (value, name) of .symtab; the sort is stable. *)
Definition tag_of (s : N * str) : option (N * tag) :=
  if starts_with (lit "$d") (snd s) then Some ((fst s mod 2 ^ 32)%N, TData)
  else if starts_with (lit "$t") (snd s) then Some ((fst s mod 2 ^ 32)%N, TThumb)
  else None.
Fixpoint insert_tag (t : N * tag) (l : list (N * tag)) : list (N * tag) :=
  match l with
  | [] => [t]
  | u :: l' => if (fst t <? fst u)%N then t :: l else u :: insert_tag t l'
  end.
Fixpoint somes {A} (l : list (option A)) : list A :=
  match l with [] => [] | Some x :: l' => x :: somes l' | None :: l' => somes l' end.
Definition collect_tags (symtab : list (N * str)) : list (N * tag) :=
  fold_left (fun l t => insert_tag t l) (somes (map tag_of symtab)) [].

(** main.rs 1488-1494 [Indirect]. *)
Record icall := mkInd { ic_called : bool; ic_callers : list nat; ic_callees : list nat }.
(** `indirects.entry(sig).or_default().callees.insert(idx)` (main.rs 528-532, 538). *)
Fixpoint add_candidate (m : list (fnsig * icall)) (sig : fnsig) (idx : nat) : list (fnsig * icall) :=
  match m with
  | [] => [(sig, mkInd false [] [idx])]
  | (s, i) :: m' =>
      if sig_eqb s sig then (s, mkInd (ic_called i) (ic_callers i) (ninsert (ic_callees i) idx)) :: m'
      else (s, i) :: add_candidate m' sig idx
  end.
(** main.rs 753-758: the effect of an indirect call on all entries. *)
Definition note_call (m : list (fnsig * icall)) (sig : fnsig) (caller : nat) : list (fnsig * icall) :=
  map (fun e => if sig_loose (fst e) sig
                then (fst e, mkInd true (ninsert (ic_callers (snd e)) caller) (ic_callees (snd e))) else e) m.

(** * Real nodes: main.rs 456-545 *)

(** main.rs 463-476. *)
Definition is_tag_name (name : str) : bool :=
  str_eqb name (lit "$a") || starts_with (lit "$a.") name || str_eqb name (lit "$x") || starts_with (lit "$x.") name.
Definition untagged (sym : symbol) : list str := filter (fun n => negb (is_tag_name n)) (sy_names sym).
(** main.rs 478-488. *)
Definition canonical (sizes : list (str * N)) (names : list str) : outcome str :=
  match names with
  | [] => Panic "index out of bounds: names[0]"
  | [n] => Ret n
  | n :: _ :: _ => match find (shas sizes) names with Some needle => Ret needle | None => Ret n end
  end.

(** main.rs 518. *)
Definition formatter : ty := TAlias (lit "core::fmt::Formatter").
(** main.rs 515-526: `fn(&_, &mut fmt::Formatter) -> fmt::Result`; the pattern of 972-976 and 1019-1022 is the same. *)
Definition fmt_receiver (sig : fnsig) : option ty :=
  match inputs sig, output sig with
  | [TPtr r; TPtr f], Some o => if ty_eqb f formatter && ty_eqb o (TInt 1) then Some r else None
  | _, _ => None
  end.

(** main.rs 420-459: the variables of the loop main.rs 460-545. *)
Record nodes := mkNodes {
  n_g : graph node;
  n_indices : list (str * nat);
  n_aliases : list (str * str);
  n_addr2name : list (N * str);
  n_ambiguous : list (str * nat);
  n_indirects : list (fnsig * icall);
  n_fmts : list nat;
  n_info : bool;        (* has_stack_usage_info *)
  n_untyped : bool      (* has_untyped_symbols *)
}.
(** main.rs 420-458. *)
Definition nodes0 : nodes := mkNodes empty_graph [] [] [] [] [] [] false false.

(** main.rs 514, 533-537: the first definition, else the first declared signature, of one of the names. *)
Definition first_some {A} (l : list (option A)) : option A :=
  match somes l with [] => None | x :: _ => Some x end.
Definition def_of (defines : list (str * define)) (names : list str) : option define := first_some (map (sget defines) names).
Definition decl_of (declares : list (str * option fnsig)) (names : list str) : option fnsig :=
  first_some (map (fun n => match sget declares n with Some s => s | None => None end) names).

(** main.rs 460-545: one address. *)
Definition add_real (demangle : str -> str) (p : prog) (s : nodes) (x : N * symbol) : outcome nodes :=
  let names := untagged (snd x) in
  let* canonical_name := canonical (pg_sizes p) names in
  let aliases := fold_left (fun m n => sput m n canonical_name) names (n_aliases s) in
  let addr2name := bput (n_addr2name s) (fst x) canonical_name in
  let stack := sget (pg_sizes p) canonical_name in
  let info := match stack with Some _ => true | None => n_info s end in
  let* ambiguous := note_name demangle (n_ambiguous s) canonical_name in
  let '(g, idx) := add_node (n_g s) (new_node canonical_name stack false) in
  let indices := sput (n_indices s) canonical_name idx in
  match def_of (pg_defines p) names with
  | Some def =>
      let fmts := match fmt_receiver (d_sig def) with Some _ => ninsert (n_fmts s) idx | None => n_fmts s end in
      Ret (mkNodes g indices aliases addr2name ambiguous (add_candidate (n_indirects s) (d_sig def) idx) fmts info (n_untyped s))
  | None =>
      match decl_of (pg_declares p) names with
      | Some sig =>
          Ret (mkNodes g indices aliases addr2name ambiguous (add_candidate (n_indirects s) sig idx) (n_fmts s) info (n_untyped s))
      | None =>
          Ret (mkNodes g indices aliases addr2name ambiguous (n_indirects s) (n_fmts s) info
                 (if is_outlined_function canonical_name then n_untyped s else true))
      end
  end.
Definition real_nodes (demangle : str -> str) (p : prog) : outcome nodes := ofold (add_real demangle p) (pg_defined p) nodes0.

(** * Calls in the LLVM IR: main.rs 547-764 *)

(** [e_seen] is the map [edges] (caller -> set of callees), as a set of pairs.  main.rs 546-549: the variables of the loop main.rs 551-765. *)
Record edgest := mkEdges {
  e_g : graph node;
  e_indices : list (str * nat);
  e_indirects : list (fnsig * icall);
  e_seen : list (nat * nat);
  e_defined : list str;
  e_asm : list str       (* fns_containing_asm *)
}.
(** main.rs 618, 746. *)
Definition pmem (e : nat * nat) (l : list (nat * nat)) : bool :=
  existsb (fun x => Nat.eqb (fst x) (fst e) && Nat.eqb (snd x) (snd e)) l.
(** main.rs 592, 619, 748. *)
Definition e_set_g (s : edgest) (g : graph node) : edgest := mkEdges g (e_indices s) (e_indirects s) (e_seen s) (e_defined s) (e_asm s).
(** main.rs 617-622, 747-750, 923-927, 943-947: an edge, unless it was added before. *)
Definition add_once (caller callee : nat) (x : graph node * list (nat * nat)) : graph node * list (nat * nat) :=
  let '(g, seen) := x in
  if pmem (caller, callee) seen then (g, seen) else (add_edge g caller callee, seen ++ [(caller, callee)]).
Definition call_once (caller callee : nat) (s : edgest) : edgest :=
  let '(g, seen) := add_once caller callee (e_g s, e_seen s) in
  mkEdges g (e_indices s) (e_indirects s) seen (e_defined s) (e_asm s).

(** main.rs 586-590, 739-742: a node for a symbol that is not in the graph. *)
Definition add_unknown (sym : str) (s : edgest) : edgest * nat :=
  let '(g, idx) := add_node (e_g s) (new_node sym None false) in
  (mkEdges g (sput (e_indices s) sym idx) (e_indirects s) (e_seen s) (e_defined s) (e_asm s), idx).

(** main.rs 632-678: what the memory intrinsics may be lowered to. *)
Definition memcpy_names : list str := map lit ["memcpy"; "__aeabi_memcpy"; "__aeabi_memcpy4"]%string.
Definition memset_names : list str :=
  map lit ["memset"; "__aeabi_memset"; "__aeabi_memset4"; "memclr"; "__aeabi_memclr"; "__aeabi_memclr4"]%string.
(** main.rs 681-697. *)
Definition lowered_prefixes : list str :=
  map lit ["llvm.abs."; "llvm.bswap."; "llvm.ctlz."; "llvm.cttz."; "llvm.sadd.with.overflow."; "llvm.smul.with.overflow.";
           "llvm.ssub.with.overflow."; "llvm.uadd.sat."; "llvm.uadd.with.overflow."; "llvm.umax."; "llvm.umin.";
           "llvm.umul.with.overflow."; "llvm.usub.sat."; "llvm.usub.with.overflow."; "llvm.vector.reduce.";
           "llvm.x86.sse2.pmovmskb."]%string.

(** main.rs 595-717: what is done with a callee, before it is looked up. *)
Inductive callee_class := CSkip | CMem (names : list str) | CBug | CFunction.
Definition classify (thumb : bool) (func : str) : callee_class :=
  if smem func (map lit ["llvm.dbg.value"; "llvm.dbg.declare"; "llvm.assume"; "llvm.trap"]%string) then CSkip
  else if starts_with (lit "llvm.lifetime.start") func || starts_with (lit "llvm.lifetime.end") func then CSkip
  else if thumb && starts_with (lit "llvm.") func then CSkip
  else if starts_with (lit "llvm.memcpy.") func then CMem memcpy_names
  else if starts_with (lit "llvm.memset.") func || starts_with (lit "llvm.memmove.") func then CMem memset_names
  else if existsb (fun pre => starts_with pre func) lowered_prefixes || str_eqb func (lit "llvm.x86.sse2.pause") then CSkip
  else if str_eqb func (lit "llvm.experimental.noalias.scope.decl") then CSkip
  else if starts_with (lit "llvm.") func then CBug
  else CFunction.

(** main.rs 566-761: one statement of the function with node [caller] and name [canonical_name]. *)
Definition exec_stmt (p : prog) (aliases : list (str * str)) (canonical_name : str) (caller : nat) (s : edgest) (st : stmt)
  : outcome edgest :=
  match st with
  | Asm _ => Ret (mkEdges (e_g s) (e_indices s) (e_indirects s) (e_seen s) (e_defined s) (sinsert (e_asm s) canonical_name))
  | BitcastCall None => Panic "BUG? unnamed symbol is being invoked"
  | BitcastCall (Some sym) =>
      let '(s, callee) := match sget (e_indices s) sym with Some idx => (s, idx) | None => add_unknown sym s end in
      Ret (e_set_g s (add_edge (e_g s) caller callee))
  | DirectCall func =>
      match classify (is_thumb (pg_target p)) func with
      | CSkip => Ret s
      | CMem names =>
          Ret (fold_left (fun s n => match sget (e_indices s) n with Some callee => call_once caller callee s | None => s end) names s)
      | CBug => Panic "BUG: unhandled llvm intrinsic"
      | CFunction =>
          if str_eqb func (lit "memcmp") && negb (shas (e_indices s) func) then Ret s
          else
            let* (s, callee) :=
              match sget aliases func with
              | Some canon =>
                  match sget (e_indices s) canon with Some idx => Ret (s, idx) | None => Panic "no entry found for key" end
              | None =>
                  if negb (smem func (pg_undefined p)) then Panic "BUG: callee is unknown"
                  else match sget (e_indices s) func with
                       | Some idx => Ret (s, idx)
                       | None => Ret (add_unknown func s)
                       end
              end in
            Ret (call_once caller callee s)
      end
  | IndirectCall sig =>
      Ret (mkEdges (e_g s) (e_indices s) (note_call (e_indirects s) sig caller) (e_seen s) (e_defined s) (e_asm s))
  | SComment | Label | Other => Ret s
  end.

(** main.rs 552-764: one definition. *)
Definition exec_define (p : prog) (aliases : list (str * str)) (s : edgest) (d : define) : outcome edgest :=
  match sget aliases (d_name d) with
  | None => Ret s
  | Some canonical_name =>
      let s := mkEdges (e_g s) (e_indices s) (e_indirects s) (e_seen s) (sinsert (e_defined s) canonical_name) (e_asm s) in
      match sget (e_indices s) canonical_name with
      | None => Panic "no entry found for key"
      | Some caller => ofold (exec_stmt p aliases canonical_name caller) (d_stmts d) s
      end
  end.
Definition ir_edges (p : prog) (n : nodes) : outcome edgest :=
  ofold (exec_define p (n_aliases n)) (map snd (pg_defines p))
    (mkEdges (n_g n) (n_indices n) (n_indirects n) [] [] []).

(** * Machine code: main.rs 766-953 *)

(** main.rs 803-816: size of a symbol. *)
Definition code_size (tags : list (N * tag)) (address : N) (sym : symbol) : outcome N :=
  let size := (sy_size sym mod 2 ^ 32)%N in
  if (size =? 0)%N then
    let* needle := find_tag tags address in
    match needle with
    | Some k =>
        match nth_error tags k with
        | Some (start, TThumb) =>
            match nth_error tags (S k) with
            | Some (tend, TThumb) => Ret ((tend + 2 ^ 32 - start) mod 2 ^ 32)%N
            | _ => Ret size
            end
        | _ => Ret size
        end
    | None => Ret size
    end
  else Ret size.

(** `&text[start..end]` (main.rs 820). *)
Definition slice (s : str) (start len : N) : outcome str :=
  if (start + len <=? N.of_nat (length s))%N then Ret (firstn (N.to_nat len) (skipn (N.to_nat start) s))
  else Panic "range end index out of range".

(** main.rs 827-897: the local usage of a function, from LLVM's (in the graph) and ours.  *)
Definition settle_local (asm outlined : bool) (local : M_stack.local) (a : st) : outcome M_stack.local :=
  let* _ :=
    match stack a with
    | Some k => if Bool.eqb (negb (k =? 0)%N) (modifies_sp a) then Ret tt else Panic "BUG: our analysis is inconsistent"
    | None => Ret tt
    end in
  match local with
  | LExact llvm =>
      let* llvm' :=
        match stack a with
        | Some k =>
            if negb (llvm =? k)%N && asm then Ret k
            else if outlined then (if (llvm =? 0)%N && negb (k =? llvm)%N then Ret k else Ret llvm)
            else if (llvm =? k)%N then Ret llvm else Panic "BUG: LLVM's result does not match our analysis"
        | None => Ret llvm
        end in
      if Bool.eqb (negb (llvm' =? 0)%N) (modifies_sp a) then Ret (LExact llvm')
      else Panic "BUG: LLVM's result does not match our analysis"
  | LUnknown =>
      match stack a with
      | Some k => Ret (LExact k)
      | None => if negb (modifies_sp a) then Ret (LExact 0) else Ret LUnknown
      end
  end.

(** main.rs 855, 869, 891, 895. *)
Definition set_node_local (g : graph node) (i : nat) (l : M_stack.local) : graph node :=
  mkG (upd_nth (gnodes g) i (fun nd => set_local nd l)) (gedges g).

(** Lookups that panic (main.rs 919-924, 937-942). *)
Definition node_at (indices : list (str * nat)) (addr2name : list (N * str)) (addr : N) : outcome nat :=
  match bget addr2name addr with
  | None => Panic "BUG? no symbol at address"
  | Some name => match sget indices name with Some i => Ret i | None => Panic "no entry found for key" end
  end.

(** [i64] to [u64]. *)
Definition as_u64 (z : Z) : N := Z.to_N (z mod 2 ^ 64).
(** main.rs 917-929: target of a BL. *)
Definition bl_addr (address : N) (offset : Z) : N := as_u64 (Z.of_N address + offset).
(** main.rs 932: target of a B; [i32] addition wraps. *)
Definition b_addr (address : N) (offset : Z) : N := Z.to_N ((Z.of_N address + offset) mod 2 ^ 32).

(** main.rs 917-929. *)
Definition add_bl (indices : list (str * nat)) (addr2name : list (N * str)) (caller : nat) (address : N)
    (x : graph node * list (nat * nat)) (offset : Z) : outcome (graph node * list (nat * nat)) :=
  let* callee := node_at indices addr2name (bl_addr address offset) in
  Ret (add_once caller callee x).
(** main.rs 931-949. *)
Definition add_b (indices : list (str * nat)) (addr2name : list (N * str)) (caller : nat) (address size : N)
    (x : graph node * list (nat * nat)) (offset : Z) : outcome (graph node * list (nat * nat)) :=
  let addr := b_addr address offset in
  if ((address <=? addr) && (addr <? (address + size) mod 2 ^ 32))%N then Ret x
  else
    let* callee := node_at indices addr2name addr in
    Ret (add_once caller callee x).

(** main.rs 798-950: one symbol. *)
Definition exec_code (p : prog) (n : nodes) (e : edgest) (stext : N) (text : str)
    (x : graph node * list (nat * nat)) (s : N * symbol) : outcome (graph node * list (nat * nat)) :=
  let address := (fst s mod 2 ^ 32)%N in
  match sy_names (snd s) with
  | [] => Panic "index out of bounds: names[0]"
  | name :: _ =>
      match sget (n_aliases n) name with
      | None => Panic "no entry found for key"
      | Some canonical_name =>
          let* size := code_size (pg_tags p) address (snd s) in
          let* code := slice text ((address + 2 ^ 32 - stext) mod 2 ^ 32)%N size in
          let* a := analyze code address (is_v7 (pg_target p)) (pg_tags p) in
          match sget (e_indices e) canonical_name with
          | None => Panic "no entry found for key"
          | Some caller =>
              let '(g, seen) := x in
              let* local := get_local g caller in
              let* local := settle_local (smem canonical_name (e_asm e)) (is_outlined_function canonical_name) local a in
              let g := set_node_local g caller local in
              let g :=
                if negb (smem canonical_name (e_defined e)) && indirect a then
                  let '(g, callee) := add_node g (new_node (lit "?") None false) in add_edge g caller callee
                else g in
              let* x := ofold (add_bl (e_indices e) (n_addr2name n) caller address) (bls a) (g, seen) in
              ofold (add_b (e_indices e) (n_addr2name n) caller address size) (bs a) x
          end
      end
  end.

(** main.rs 770-953. *)
Definition machine_edges (p : prog) (n : nodes) (e : edgest) : outcome (graph node) :=
  if is_thumb (pg_target p) then
    match pg_text p with
    | None => Ret (e_g e)
    | Some (stext, text) =>
        let* (g, _) := ofold (exec_code p n e (stext mod 2 ^ 32) text) (pg_defined p) (e_g e, e_seen e) in Ret g
    end
  else Ret (e_g e).

(** * Indirect calls: main.rs 955-1065 *)

(** main.rs 970-985. *)
Definition maybe_void (sig : fnsig) : option str :=
  match fmt_receiver sig with Some (TAlias r) => Some r | _ => None end.
(** main.rs 987-1009. *)
Definition one_true_void (sigs : list fnsig) : option str :=
  let all_maybe_void := somes (map maybe_void sigs) in
  if smem (lit "fmt::Void") all_maybe_void then Some (lit "fmt::Void")
  else match filter (starts_with (lit "core::fmt::Void")) all_maybe_void with
       | v :: _ => Some v
       | [] => match all_maybe_void with [v] => Some v | _ => None end
       end.
(** main.rs 1016-1040: callees and label of a signature. *)
Definition special_fmt (void : option str) (sig : fnsig) : bool :=
  match void with
  | Some v => match fmt_receiver sig with Some r => ty_eqb r (TAlias v) | None => false end
  | None => false
  end.
Definition canonical_sig (void : option str) (sig : fnsig) : fnsig :=
  if special_fmt void sig && negb (match void with Some v => str_eqb v (lit "fmt::Void") | None => false end)
  then {| inputs := TAlias (lit "fmt::Void") :: tl (inputs sig); output := output sig |}
  else sig.

(** The iteration orders of the map [indirects] (main.rs 971 and 1011) and of the sets in it (1048, 1062). *)
Record orders := mkOrders {
  o_sigs : list (fnsig * icall) -> list (fnsig * icall);
  o_callers : fnsig -> list nat -> list nat;
  o_callees : fnsig -> list nat -> list nat
}.

(** main.rs 1011-1065: one signature. *)
Definition add_indirect (o : orders) (untyped : bool) (fmts : list nat) (void : option str) (g : graph node) (e : fnsig * icall)
  : graph node :=
  let '(sig, ind) := e in
  if negb (ic_called ind) then g
  else
    let callees := if special_fmt void sig then fmts else ic_callees ind in
    let name := show_sig (canonical_sig void sig) ++ lit "*" in
    let '(g, call) := add_node g (new_node name (Some 0%N) true) in
    let g := fold_left (fun g caller => add_edge g caller call) (o_callers o sig (ic_callers ind)) g in
    let g := if untyped then let '(g, extern_sym) := add_node g (new_node (lit "?") None false) in add_edge g call extern_sym
             else g in
    fold_left (fun g callee => add_edge g call callee) (o_callees o sig callees) g.
Definition indirect_edges (o : orders) (untyped : bool) (fmts : list nat) (indirects : list (fnsig * icall)) (g : graph node) : graph node :=
  let l := o_sigs o indirects in
  let void := one_true_void (map fst l) in
  fold_left (add_indirect o untyped fmts void) l g.

(** * The whole construction *)
(** main.rs 420-1065: what the rest of [run] uses. *)
Record built := mkBuilt { b_g : graph node; b_indices : list (str * nat); b_ambiguous : list (str * nat); b_info : bool }.
(** main.rs 420-1065. *)
Definition build (demangle : str -> str) (o : orders) (p : prog) : outcome built :=
  let* _ := default_methods demangle (map fst (pg_defines p)) in
  let* n := real_nodes demangle p in
  let* e := ir_edges p n in
  let* g := machine_edges p n e in
  Ret (mkBuilt (indirect_edges o (n_untyped n) (n_fmts n) (e_indirects e) g) (e_indices e) (n_ambiguous n) (n_info n)).
