(** Model of a debug build: the same code, with the arithmetic checks and the [debug_assert!]s that a release build leaves out.

    Only the functions that contain an operation that can fail, or that call one of them, are repeated here; the other
    functions are those of the release model.  Not repeated, because their operands cannot be large enough: `i32` and `u16` shifts
    and additions on fields of an instruction (thumb.rs 133-563, at most 26 bits), `start + size as usize` (main.rs 818, two
    `u32` in a 64-bit `usize`), `address as i64 + i64::from(offset)` (main.rs 918), `needle + 1` (an index of a [Vec] plus one), the counters of
    [ambiguous] (main.rs 508, [u32], at most one per symbol).  main.rs 1503 and 1507 are guarded. *)
From Verif Require Import M_base M_stack M_graph M_analysis M_filter M_names M_thumb M_ty M_parse M_render M_build M_run.

(** What the checks print (main.rs 817-818, 1443-1463, thumb.rs 144, 160, 288, 355, 404, 424, 438, 451, 480, 513, 544, 561). *)
Definition m_add : string := "attempt to add with overflow".
(** main.rs 811, 817, thumb.rs 71. *)
Definition m_sub : string := "attempt to subtract with overflow".
(** thumb.rs 144, 160, 480, 513, 544. *)
Definition m_mul : string := "attempt to multiply with overflow".
(** main.rs 495. *)
Definition m_taken : string := "assertion failed: _out.is_none()".
(** main.rs 1202. *)
Definition m_done : string := "assertion failed: g[node].max.is_none()".

(** Checked operations (the range of `i32`, thumb.rs 52). *)
Definition in_i32 (z : Z) : bool := ((- 2 ^ 31 <=? z) && (z <? 2 ^ 31))%Z.
(** main.rs 932, thumb.rs 144, 160, 480, 513, 544. *)
Definition add_i32 (a b : Z) : outcome Z := if in_i32 (a + b) then Ret (a + b)%Z else Panic m_add.
(** thumb.rs 144, 160, 480, 513, 544. *)
Definition mul_i32 (a b : Z) : outcome Z := if in_i32 (a * b) then Ret (a * b)%Z else Panic m_mul.
(** main.rs 934, thumb.rs 54. *)
Definition add_u32 (a b : N) : outcome N := if (a + b <? 2 ^ 32)%N then Ret (a + b)%N else Panic m_add.
(** thumb.rs 54. *)
Definition mul_u32 (a b : N) : outcome N := if (a * b <? 2 ^ 32)%N then Ret (a * b)%N else Panic m_mul.
(** main.rs 811, 817, thumb.rs 71. *)
Definition sub_u32 (a b : N) : outcome N := if (b <=? a)%N then Ret (a - b)%N else Panic m_sub.
(** main.rs 1443-1463, thumb.rs 288, 355, 404, 424, 438, 451, 561. *)
Definition add_u64 (a b : N) : outcome N := if (a + b <? two64)%N then Ret (a + b)%N else Panic m_add.

(** * thumb.rs *)

(** thumb.rs 286-289, 353-356, 402-405, 422-425, 436-439, 449-452, 559-562: `*stack += ...` *)
Definition lower_sp_d (n : N) (s : st) : outcome st :=
  let* stack' := match stack s with Some k => let* k := add_u64 k n in Ret (Some k) | None => Ret None end in
  Ret (mkSt (bls s) (bs s) (indirect s) true stack').

(** thumb.rs 144, 160, 480, 513, 544: `imm32 += 2 * i + 4` *)
Definition advance_d (imm i : Z) : outcome Z :=
  let* a := mul_i32 2 i in let* b := add_i32 a 4 in add_i32 imm b.

(** thumb.rs 144-150, 161-166, 480-486, 513-519 *)
Definition push_b_d (imm : Z) (i : Z) (len : Z) (s : st) : outcome st :=
  let* imm32 := advance_d imm i in
  Ret (mkSt (bls s) (bs s ++ [imm32]) (indirect s) (modifies_sp s)
       (if ((0 <=? imm32) && (imm32 <? len))%Z then None else stack s)).
(** thumb.rs 541-546 *)
Definition push_bl_d (imm : Z) (i : Z) (s : st) : outcome st :=
  let* imm32 := advance_d imm i in
  Ret (mkSt (bls s ++ [imm32]) (bs s) (indirect s) (modifies_sp s) (stack s)).

(** The bodies of the 16-bit branches (see [exec16]). *)
Definition exec16_d (k : kind) (h : hword) (i : Z) (len : Z) (s : st) : outcome st :=
  match k with
  | K16 => Ret s
  | KBT1 =>
      let cond := N.land (w1 h) 15 in
      if (cond =? 14)%N then Panic "UDF" else
      if (cond =? 15)%N then Panic "SVC" else
      push_b_d (sign_extend (Z.shiftl (Z.of_N (w0 h)) 1) 9) i len s
  | KBT2 =>
      let imm11 := Z.lor (Z.shiftl (Z.of_N (N.land (w1 h) 7)) 8) (Z.of_N (w0 h)) in
      push_b_d (sign_extend (Z.shiftl imm11 1) 12) i len s
  | KBlx => Ret (set_indirect s)
  | KBx =>
      let rm := N.land (N.shiftr (w0 h) 3) 15 in
      Ret (if (rm =? 14)%N then s else set_indirect s)
  | KPush =>
      let m := N.land (w1 h) 1 in
      let register := N.lor (N.shiftl m 14) (w0 h) in
      lower_sp_d (4 * count_ones register) s
  | KSubSp =>
      let imm7 := N.land (w0 h) 127 in
      lower_sp_d (N.shiftl imm7 2) s
  end.

(** thumb.rs 388-568: the 32-bit part (see [exec32]). *)
Definition exec32_d (v7 : bool) (first second : hword) (i : Z) (len : Z) (s : st) : outcome st :=
  let sp := 13%N in
  let* b := match2 v7 first "0b11101_00_100_x_0_xxxx" second "0b0_x_0_xxxxxxxxxxxxx" in
  if b then
    if (N.land (w0 first) 15 =? sp)%N then
      let register_list := N.lor (N.shiftl (N.land (w1 second) 31) 8) (w0 second) in
      let m := N.land (N.shiftr (w1 second) 6) 1 in
      lower_sp_d (4 * count_ones (N.lor (N.shiftl m 14) register_list)) s
    else Ret s
  else
  let* b := match2 v7 first "0b11110_x_0_1101_x_1101" second "0b0_xxx_xxxx_xxxxxxxx" in
  if b then
    if (N.land (w1 second) 15 =? sp)%N then
      let imm8 := w0 second in
      let imm3 := N.land (N.shiftr (w1 second) 4) 7 in
      let ibit := N.land (N.shiftr (w1 first) 2) 1 in
      let imm32 := thumb_expand_imm (N.lor (N.lor (N.shiftl ibit 11) (N.shiftl imm3 8)) imm8) in
      lower_sp_d imm32 s
    else Ret s
  else
  let* b := match2 v7 first "0b1110_110_1_0_x_1_0_1101" second "0bxxxx_1011_xxxxxxxx" in
  if b then lower_sp_d (N.shiftl (N.land (w0 second) 255) 2) s else
  let* b := match2 v7 first "0b1110_110_1_0_x_1_0_1101" second "0bxxxx_1010_xxxxxxxx" in
  if b then lower_sp_d (N.shiftl (N.land (w0 second) 255) 2) s else
  let* b := match2 v7 first "0b11110_x_xxxxxxxxxx" second "0b10_x_0_x_xxxxxxxxxxx" in
  if b then
    let cond := N.lor (N.shiftl (N.land (w1 first) 3) 2) (N.shiftr (w0 first) 6) in
    if (N.shiftr cond 1 =? 7)%N then Ret s else
    let imm6 := Z.of_N (N.land (w0 first) 63) in
    let imm21 :=
      Z.lor (Z.lor (Z.lor (Z.lor (Z.shiftl (b2z (sign_bit first)) 20)
                                 (Z.shiftl (b2z (j1_bit second)) 19))
                          (Z.shiftl (b2z (j2_bit second)) 18))
                   (Z.shiftl imm6 12)) (Z.shiftl (low11 second) 1) in
    push_b_d (sign_extend imm21 21) i len s
  else
  let* b := match2 v7 first "0b11110_x_xxxxxxxxxx" second "0b10_x_1_x_xxxxxxxxxxx" in
  if b then
    let imm := imm25 (sign_bit first) (j1_bit second) (j2_bit second)
                     (low10_add first) (low11_add second) in
    push_b_d (sign_extend imm 25) i len s
  else
  let* b := match2 true first "0b11110_x_xxxxxxxxxx" second "0b11_x_1_x_xxxxxxxxxxx" in
  if b then
    let imm := imm25 (sign_bit first) (j1_bit second) (j2_bit second) (low10 first) (low11 second) in
    push_bl_d (sign_extend imm 25) i s
  else
  let* b := match2 true first "0b11111_0000100_xxxx" second "0bxxxx_1x01_xxxxxxxx" in
  if b then
    if (N.land (w0 first) 15 =? sp)%N then lower_sp_d (N.land (w0 second) 255) s else Ret s
  else Ret s.

(** thumb.rs 54-82; line 69: `end - start`. *)
Definition at_tag_d (tags : list (N * tag)) (start : N) : outcome step :=
  let* needle := find_tag tags start in
  match needle with
  | None => Ret Decode
  | Some k =>
      match nth_error tags k with
      | Some (_, TData) =>
          match nth_error tags (S k) with
          | Some (tend, TThumb) => let* d := sub_u32 tend start in Ret (SkipHalfwords (d / 2 - 1)%N)
          | Some (_, TData) => Panic "BUG: expected a thumb tag but found another data tag"
          | None => Ret Stop
          end
      | Some (_, TThumb) => Ret Decode
      | None => Panic "index out of bounds"
      end
  end.

(** thumb.rs 52: [next] of the iterator `0i32..` returns its counter and adds one to it. *)
Definition next_d (i : N) : outcome N := let* z := add_i32 (Z.of_N i) 1 in Ret (Z.to_N z).

(** thumb.rs 53-571: the loop; line 54: `address + 2 * i as u32`. *)
Fixpoint aloop_d (v7 : bool) (address : N) (tags : list (N * tag)) (len : Z)
                 (hs : list hword) (i : N) (skip : N) (s : st) {struct hs} : outcome st :=
  match hs with
  | [] => Ret s
  | first :: rest =>
      let* i1 := next_d i in
      if (skip =? 0)%N then
        let* b := mul_u32 2 i in
        let* start := add_u32 address b in
        let* a := at_tag_d tags start in
        match a with
        | Stop => Ret s
        | SkipHalfwords n => aloop_d v7 address tags len rest i1 n s
        | Decode =>
            let* k := chain v7 first rules16 in
            match k with
            | Some k =>
                let* s' := exec16_d k first (Z.of_N i) len s in
                aloop_d v7 address tags len rest i1 0 s'
            | None =>
                match rest with
                | [] => Panic "BUG: unknown instruction"
                | second :: rest' =>
                    let* i2 := next_d i1 in
                    let* s' := exec32_d v7 first second (Z.of_N i) len s in
                    aloop_d v7 address tags len rest' i2 0 s'
                end
            end
        end
      else aloop_d v7 address tags len rest i1 (N.pred skip) s
  end.
Definition analyze_d (bytes : str) (address : N) (v7 : bool) (tags : list (N * tag)) : outcome st :=
  aloop_d v7 address tags (Z.of_nat (length bytes)) (chunks2 bytes) 0 0 st0.

(** * The call graph: main.rs 456-953 *)

(** main.rs 494-495: [debug_assert!(_out.is_none())]. *)
Definition add_real_d (demangle : str -> str) (p : prog) (s : nodes) (x : N * symbol) : outcome nodes :=
  let* _ := canonical (pg_sizes p) (untagged (snd x)) in
  match bget (n_addr2name s) (fst x) with
  | Some _ => Panic m_taken
  | None => add_real demangle p s x
  end.
Definition real_nodes_d (demangle : str -> str) (p : prog) : outcome nodes := ofold (add_real_d demangle p) (pg_defined p) nodes0.

(** main.rs 803-816; line 810: `end.0 - start.0`. *)
Definition code_size_d (tags : list (N * tag)) (address : N) (sym : symbol) : outcome N :=
  let size := (sy_size sym mod 2 ^ 32)%N in
  if (size =? 0)%N then
    let* needle := find_tag tags address in
    match needle with
    | Some k =>
        match nth_error tags k with
        | Some (start, TThumb) =>
            match nth_error tags (S k) with
            | Some (tend, TThumb) => sub_u32 tend start
            | _ => Ret size
            end
        | _ => Ret size
        end
    | None => Ret size
    end
  else Ret size.

(** main.rs 931-949; line 932: `(address as i32 + offset) as u32`, line 934: `address + size`, evaluated if `addr >= address`. *)
Definition add_b_d (indices : list (str * nat)) (addr2name : list (N * str)) (caller : nat) (address size : N)
    (x : graph node * list (nat * nat)) (offset : Z) : outcome (graph node * list (nat * nat)) :=
  let* z := add_i32 (wrap32 (Z.of_N address)) offset in
  let addr := Z.to_N (z mod 2 ^ 32) in
  let* inside := if (address <=? addr)%N then let* e := add_u32 address size in Ret (addr <? e)%N else Ret false in
  if inside then Ret x
  else
    let* callee := node_at indices addr2name addr in
    Ret (add_once caller callee x).

(** main.rs 798-950; line 817: `address - stext`. *)
Definition exec_code_d (p : prog) (n : nodes) (e : edgest) (stext : N) (text : str)
    (x : graph node * list (nat * nat)) (s : N * symbol) : outcome (graph node * list (nat * nat)) :=
  let address := (fst s mod 2 ^ 32)%N in
  match sy_names (snd s) with
  | [] => Panic "index out of bounds: names[0]"
  | name :: _ =>
      match sget (n_aliases n) name with
      | None => Panic "no entry found for key"
      | Some canonical_name =>
          let* size := code_size_d (pg_tags p) address (snd s) in
          let* start := sub_u32 address stext in
          let* code := slice text start size in
          let* a := analyze_d code address (is_v7 (pg_target p)) (pg_tags p) in
          match sget (e_indices e) canonical_name with
          | None => Panic "no entry found for key"
          | Some caller =>
              let '(g, seen) := x in
              let* local := get_local g caller in
              let* local := settle_local (smem canonical_name (e_asm e)) (is_outlined_function canonical_name) local a in
              let g := set_node_local g caller local in
              let g :=
                if negb (smem canonical_name (e_defined e)) && indirect a then
                  let '(g, callee) := add_node g (new_node (lit "?") None false) in add_edge g caller callee
                else g in
              let* x := ofold (add_bl (e_indices e) (n_addr2name n) caller address) (bls a) (g, seen) in
              ofold (add_b_d (e_indices e) (n_addr2name n) caller address size) (bs a) x
          end
      end
  end.
(** main.rs 770-953. *)
Definition machine_edges_d (p : prog) (n : nodes) (e : edgest) : outcome (graph node) :=
  if is_thumb (pg_target p) then
    match pg_text p with
    | None => Ret (e_g e)
    | Some (stext, text) =>
        let* (g, _) := ofold (exec_code_d p n e (stext mod 2 ^ 32) text) (pg_defined p) (e_g e, e_seen e) in Ret g
    end
  else Ret (e_g e).

(** main.rs 337-1065. *)
Definition build_d (demangle : str -> str) (o : orders) (p : prog) : outcome built :=
  let* _ := default_methods demangle (map fst (pg_defines p)) in
  let* n := real_nodes_d demangle p in
  let* e := ir_edges p n in
  let* g := machine_edges_d p n e in
  Ret (mkBuilt (indirect_edges o (n_untyped n) (n_fmts n) (e_indirects e) g) (e_indices e) (n_ambiguous n) (n_info n)).

(** * The maxima: main.rs 1135-1215, 1440-1464 *)

(** main.rs 1440-1451. *)
Definition add_local_d (m : maxv) (l : M_stack.local) : outcome maxv :=
  match m, l with
  | MExact a, LExact b => let* c := add_u64 a b in Ret (MExact c)
  | MExact a, LUnknown => Ret (MLower a)
  | MLower a, LExact b => let* c := add_u64 a b in Ret (MLower c)
  | MLower a, LUnknown => Ret (MLower a)
  end.
(** main.rs 1453-1464. *)
Definition add_max_d (m k : maxv) : outcome maxv :=
  match m, k with
  | MExact a, MExact b => let* c := add_u64 a b in Ret (MExact c)
  | MExact a, MLower b => let* c := add_u64 a b in Ret (MLower c)
  | MLower a, MExact b => let* c := add_u64 a b in Ret (MLower c)
  | MLower a, MLower b => let* c := add_u64 a b in Ret (MLower c)
  end.

(** main.rs 1149-1181. *)
Definition process_cycle_d (g : graph node) (scc : list nat) : outcome (graph node) :=
  let* locals := map_outcome (get_local g) scc in
  match max_of (map local_into_max locals) with
  | None => Panic "UNREACHABLE"
  | Some scc_local0 =>
    let scc_local :=
      match scc_local0 with
      | MExact n => if N.eqb n 0 then scc_local0 else MLower n
      | MLower _ => scc_local0
      end in
    let* neighbors :=
      map_outcome (get_max g)
        (filter (fun neighbor => negb (mem neighbor scc)) (flat_map (out_nbrs g) scc)) in
    let* m := match max_of neighbors with
              | Some mx => add_max_d mx scc_local
              | None => Ret scc_local
              end in
    Ret (fold_left (fun g inode => set_node_max g inode m) scc g)
  end.
(** main.rs 1183-1195 and 1204-1213. *)
Definition process_single_d (g : graph node) (inode : nat) : outcome (graph node) :=
  let* neighbors := map_outcome (get_max g) (out_nbrs g inode) in
  let* l := get_local g inode in
  let* m := match max_of neighbors with
            | Some mx => add_local_d mx l
            | None => Ret (local_into_max l)
            end in
  Ret (set_node_max g inode m).
(** main.rs 1141-1197. *)
Fixpoint process_sccs_d (g : graph node) (sccs : list (list nat)) (cycles : list (list nat))
  : outcome (graph node * list (list nat)) :=
  match sccs with
  | [] => Ret (g, rev cycles)
  | scc :: rest =>
    match scc with
    | [] => Panic "index out of bounds: scc[0]"
    | first :: _ =>
      if is_a_cycle g scc first then
        let* g' := process_cycle_d g scc in process_sccs_d g' rest (scc :: cycles)
      else
        let* g' := process_single_d g first in process_sccs_d g' rest cycles
    end
  end.
(** main.rs 1200-1214; line 1202: [debug_assert!(g[node].max.is_none())]. *)
Definition assert_new (g : graph node) (v : nat) : outcome unit :=
  match nth_error (gnodes g) v with
  | Some nd => match nmax nd with Some _ => Panic m_done | None => Ret tt end
  | None => Panic "Graph::index: node index out of bounds"
  end.
Fixpoint process_topo_d (g : graph node) (order : list nat) : outcome (graph node) :=
  match order with
  | [] => Ret g
  | v :: rest => let* _ := assert_new g v in let* g' := process_single_d g v in process_topo_d g' rest
  end.
Definition cyclic_pass_d (g : graph node) : outcome (graph node * list (list nat)) :=
  match kosaraju_scc g with
  | Some sccs => process_sccs_d g sccs []
  | None => Fuel
  end.
Definition acyclic_pass_d (g : graph node) : outcome (graph node * list (list nat)) :=
  match topo_reversed g with
  | Some order => let* g' := process_topo_d g order in Ret (g', [])
  | None => Fuel
  end.
(** main.rs 1135-1215. *)
Definition max_stack_d (has_stack_usage_info : bool) (g : graph node) : outcome (graph node * list (list nat)) :=
  if negb has_stack_usage_info then Ret (g, [])
  else
    match is_cyclic_directed g with
    | None => Fuel
    | Some true => cyclic_pass_d g
    | Some false => acyclic_pass_d g
    end.

(** * The report: main.rs 337-1226 *)
Definition finish_d (demangle : str -> str) (start : option str) (b : built) : outcome (graph node * list (list nat)) :=
  let* g := filter_start demangle (b_indices b) start (b_g b) in
  let* (g, cycles) := max_stack_d (b_info b) g in
  let* g := shorten demangle (b_ambiguous b) g in
  Ret (g, cycles).
Definition report_d (demangle : str -> str) (o : orders) (start : option str) (p : prog) : outcome (graph node * list (list nat)) :=
  let* b := build_d demangle o p in finish_d demangle start b.
(** main.rs 1228-1231. *)
Definition output_d (demangle : str -> str) (o : orders) (start : option str) (f : format) (p : prog) : outcome str :=
  let* (g, cycles) := report_d demangle o start p in
  Ret (match f with Dot => dot demangle g cycles | Top => top demangle g end).
