(** Reference vocabulary for the Thumb decoder, written from the ARMv7-M and ARMv6-M Architecture
    Reference Manuals (DDI 0403E, DDI 0419D) and not from the Rust code: instruction encodings as
    numbers and bit fields. *)
From Verif Require Import M_base M_thumb.
Local Open Scope N_scope.

(** Bits [hi:lo] of a halfword. *)
Definition fld (w hi lo : N) : N := (w / 2 ^ lo) mod 2 ^ (hi - lo + 1).

(** The two bytes of a halfword in memory (little endian). *)
Definition hw (w : N) : hword := (ascii_of_N (w mod 256), ascii_of_N (w / 256)).
Definition hw_bytes (w : N) : str := [ascii_of_N (w mod 256); ascii_of_N (w / 256)].

(** An instruction is one or two halfwords.  A5.1: it is 32 bits long iff bits [15:11] of the first
    halfword are 0b11101, 0b11110 or 0b11111. *)
Inductive instr := I16 (w : N) | I32 (w v : N).
Definition wide (w : N) : bool := 29 <=? w / 2 ^ 11.
Definition isize (i : instr) : N := match i with I16 _ => 2 | I32 _ _ => 4 end.
Definition ibytes (i : instr) : str :=
  match i with I16 w => hw_bytes w | I32 w v => hw_bytes w ++ hw_bytes v end.

(** A5.2 (both manuals): the 16-bit encodings to which an instruction is assigned.  The miscellaneous
    group 0b1011 is A5.2.5; CBZ / CBNZ, IT and the unassigned hints (which execute as NOP) exist in
    ARMv7-M only. *)
Definition cbz (w : N) : bool := (fld w 15 12 =? 11) && (fld w 10 10 =? 0) && (fld w 8 8 =? 1).
Definition bkpt (w : N) : bool := fld w 15 8 =? 190.                              (* 0b1011_1110 *)
Definition alloc16 (v7 : bool) (w : N) : bool :=
  if fld w 15 8 =? 71 then fld w 2 0 =? 0                                     (* BX, BLX: 0b01000111 *)
  else if fld w 15 12 =? 11 then                                              (* miscellaneous *)
    let op := fld w 11 5 in
    if fld w 11 8 =? 0 then true                                              (* ADD, SUB (SP) *)
    else if cbz w then v7                                                     (* CBZ, CBNZ *)
    else if fld w 11 8 =? 2 then true                                         (* SXTH .. UXTB *)
    else if fld w 10 9 =? 2 then true                                         (* PUSH, POP *)
    else if op =? 51 then fld w 3 2 =? 0                                      (* CPS: 0b0110011 *)
    else if fld w 11 8 =? 10 then negb (fld w 7 6 =? 2)                       (* REV, REV16, REVSH *)
    else if fld w 11 8 =? 14 then true                                        (* BKPT *)
    else if fld w 11 8 =? 15 then                                             (* IT, hints *)
      v7 || ((fld w 3 0 =? 0) && (fld w 7 4 <=? 4))
    else false
  else true.

(** Two's complement value of an [n]-bit number. *)
Definition sext (n : N) (x : N) : Z :=
  if x <? 2 ^ (n - 1) then Z.of_N x else (Z.of_N x - 2 ^ Z.of_N n)%Z.

Definition lnot1 (b : N) : N := 1 - b.
Definition lxor1 (a b : N) : N := (a + b) mod 2.

(** A7.7.18 BL, T1 *)
Definition is_bl (w v : N) : bool := (fld w 15 11 =? 30) && (fld v 15 14 =? 3) && (fld v 12 12 =? 1).
(** imm32 = SignExtend(S:I1:I2:imm10:imm11:'0'), I1 = NOT(J1 EOR S), I2 = NOT(J2 EOR S) *)
Definition imm_24 (w v : N) : Z :=
  let s := fld w 10 10 in
  let i1 := lnot1 (lxor1 (fld v 13 13) s) in
  let i2 := lnot1 (lxor1 (fld v 11 11) s) in
  sext 25 (s * 2 ^ 24 + i1 * 2 ^ 23 + i2 * 2 ^ 22 + fld w 9 0 * 2 ^ 12 + fld v 10 0 * 2).
Definition call_imm (i : instr) : option Z :=
  match i with I32 w v => if is_bl w v then Some (imm_24 w v) else None | I16 _ => None end.

(** A7.7.12 B, T1 to T4; T3 and T4 exist in ARMv7-M only. *)
Definition is_b1 (w : N) : bool := (fld w 15 12 =? 13) && (fld w 11 8 <? 14).
Definition is_b2 (w : N) : bool := fld w 15 11 =? 28.
Definition is_b3 (w v : N) : bool :=
  (fld w 15 11 =? 30) && (fld v 15 14 =? 2) && (fld v 12 12 =? 0) && negb (fld w 9 7 =? 7).
Definition is_b4 (w v : N) : bool := (fld w 15 11 =? 30) && (fld v 15 14 =? 2) && (fld v 12 12 =? 1).
(** T3: imm32 = SignExtend(S:J2:J1:imm6:imm11:'0') *)
Definition imm_t3 (w v : N) : Z :=
  sext 21 (fld w 10 10 * 2 ^ 20 + fld v 11 11 * 2 ^ 19 + fld v 13 13 * 2 ^ 18
           + fld w 5 0 * 2 ^ 12 + fld v 10 0 * 2).
Definition branch_imm (v7 : bool) (i : instr) : option Z :=
  match i with
  | I16 w =>
      if is_b1 w then Some (sext 9 (fld w 7 0 * 2))
      else if is_b2 w then Some (sext 12 (fld w 10 0 * 2))
      else None
  | I32 w v =>
      if v7 && is_b3 w v then Some (imm_t3 w v)
      else if v7 && is_b4 w v then Some (imm_24 w v)
      else None
  end.

(** What the decoder computes for T3 instead: SignExtend(S:J1:J2:imm6:imm11:'0').  Differs from [imm_t3]
    only when J1 <> J2, that is for targets more than 256 KiB away. *)
Definition imm_t3_swapped (w v : N) : Z :=
  sext 21 (fld w 10 10 * 2 ^ 20 + fld v 13 13 * 2 ^ 19 + fld v 11 11 * 2 ^ 18
           + fld w 5 0 * 2 ^ 12 + fld v 10 0 * 2).
Definition branch_recorded (v7 : bool) (i : instr) : option Z :=
  match i with
  | I32 w v => if v7 && is_b3 w v then Some (imm_t3_swapped w v) else branch_imm v7 i
  | I16 _ => branch_imm v7 i
  end.

(** CBZ / CBNZ (A7.7.21): imm32 = ZeroExtend(i:imm5:'0'). *)
Definition cbz_imm (v7 : bool) (i : instr) : option Z :=
  match i with
  | I16 w => if v7 && cbz w then Some (Z.of_N (fld w 9 9 * 64 + fld w 7 3 * 2)) else None
  | I32 _ _ => None
  end.

(** A7.7.19 BLX (register) and A7.7.20 BX other than `bx lr`. *)
Definition is_indirect (i : instr) : bool :=
  match i with
  | I16 w => (fld w 15 7 =? 143) || (fld w 15 7 =? 142) && negb (fld w 6 3 =? 14)
  | I32 _ _ => false
  end.

(** Number of 1 bits among the low [n] bits. *)
Fixpoint bits (n : nat) (w : N) : N :=
  match n with O => 0 | S n => w mod 2 + bits n (w / 2) end.

(** A5.3.2 ThumbExpandImm *)
Definition arm_expand_imm (imm12 : N) : N :=
  if fld imm12 11 10 =? 0 then
    let b := fld imm12 7 0 in
    match fld imm12 9 8 with
    | 0 => b
    | 1 => b * 2 ^ 16 + b
    | 2 => b * 2 ^ 24 + b * 2 ^ 8
    | _ => b * 2 ^ 24 + b * 2 ^ 16 + b * 2 ^ 8 + b
    end
  else
    let x := 128 + fld imm12 6 0 in
    let r := fld imm12 11 7 in
    x / 2 ^ r + (x mod 2 ^ r) * 2 ^ (32 - r).

(** By how much an instruction of one of the listed kinds lowers SP; [None]: not such an instruction.
    PUSH T1 / SUB (SP minus immediate) T1. *)
Definition is_push (w : N) : bool := fld w 15 9 =? 90.                            (* 0b1011010 *)
Definition is_sub1 (w : N) : bool := fld w 15 7 =? 353.                           (* 0b101100001 *)
(** STMDB T1 with base SP (A7.7.157); bit 5 of the first halfword is W, the write back. *)
Definition is_stmdb_sp (w v : N) : bool :=
  (fld w 15 6 =? 932) && (fld w 4 4 =? 0) && (fld w 3 0 =? 13) && (fld v 15 15 =? 0) && (fld v 13 13 =? 0).
(** SUB (SP minus immediate) T2 and T3 with destination SP (A7.7.173). *)
Definition is_sub2 (w v : N) : bool :=
  (fld w 15 11 =? 30) && (fld w 9 5 =? 13) && (fld w 3 0 =? 13) && (fld v 15 15 =? 0) && (fld v 11 8 =? 13).
Definition is_sub3 (w v : N) : bool :=
  (fld w 15 11 =? 30) && (fld w 9 0 =? 685) && (fld v 15 15 =? 0) && (fld v 11 8 =? 13).
(** i:imm3:imm8 *)
Definition imm12_of (w v : N) : N := fld w 10 10 * 2 ^ 11 + fld v 14 12 * 2 ^ 8 + fld v 7 0.
(** VPUSH T1, T2 (A7.7.249). *)
Definition is_vpush (w v : N) : bool :=
  (fld w 15 7 =? 474) && (fld w 5 0 =? 45) && (fld v 11 9 =? 5).
(** STR (immediate) T4 with base SP, U = 0, W = 1 (A7.7.161). *)
Definition is_str_sp (w v : N) : bool :=
  (w =? 63565) && (fld v 11 11 =? 1) && (fld v 9 9 =? 0) && (fld v 8 8 =? 1).

Definition sp_drop (v7 : bool) (i : instr) : option N :=
  match i with
  | I16 w =>
      if is_push w then Some (4 * bits 9 (fld w 8 0))
      else if is_sub1 w then Some (4 * fld w 6 0)
      else None
  | I32 w v =>
      if negb v7 then None
      else if is_stmdb_sp w v && (fld w 5 5 =? 1) then Some (4 * (bits 13 (fld v 12 0) + fld v 14 14))
      else if is_sub2 w v then Some (arm_expand_imm (imm12_of w v))
      else if is_sub3 w v then Some (imm12_of w v)
      else if is_vpush w v then Some (4 * fld v 7 0)
      else if is_str_sp w v then Some (fld v 7 0)
      else None
  end.

(** Instructions the theorems range over: assigned 16-bit encodings other than BKPT, and on ARMv7-M any
    32-bit word; the 32-bit instructions of ARMv6-M all have 0b11110 in bits [15:11] (A5.3). *)
Definition instr_ok (v7 : bool) (i : instr) : bool :=
  match i with
  | I16 w => (w <? 2 ^ 16) && negb (wide w) && alloc16 v7 w && negb (bkpt w)
  | I32 w v => (w <? 2 ^ 16) && (v <? 2 ^ 16) && wide w && (v7 || (fld w 15 11 =? 30))
  end.

(** The encodings on which the decoder departs from the manual (see the [_refuted] theorems). *)
Definition t3_swapped (v7 : bool) (i : instr) : bool :=
  match i with I32 w v => v7 && is_b3 w v && negb (fld v 13 13 =? fld v 11 11) | I16 _ => false end.
Definition stack_quirk (v7 : bool) (i : instr) : bool :=
  match i with
  | I32 w v => v7 && (is_sub3 w v
                      || is_stmdb_sp w v && (fld w 5 5 =? 0)
                      || is_sub2 w v && (fld (imm12_of w v) 11 8 =? 1) && negb (fld v 7 0 =? 0))
  | I16 _ => false
  end.

(** What the decoder counts for an instruction: STMDB with and without write back, SUBW not at all, 0x0000XY00 for 0x00XY00XY, and
    the STR of ARMv7-M on ARMv6-M too. *)
Definition counted_imm (imm12 : N) : N := if fld imm12 11 8 =? 1 then fld imm12 7 0 * 2 ^ 8 else arm_expand_imm imm12.
Definition counted (v7 : bool) (i : instr) : option N :=
  match i with
  | I16 _ => sp_drop v7 i
  | I32 w v =>
      if v7 && is_stmdb_sp w v then Some (4 * (bits 13 (fld v 12 0) + fld v 14 14))
      else if v7 && is_sub2 w v then Some (counted_imm (imm12_of w v))
      else if v7 && is_vpush w v then Some (4 * fld v 7 0)
      else if is_str_sp w v then Some (fld v 7 0)
      else None
  end.
(** The encodings for which it counts less than the instruction allocates. *)
Definition lost (v7 : bool) (i : instr) : bool :=
  match i with
  | I32 w v => v7 && (is_sub3 w v || is_sub2 w v && (fld (imm12_of w v) 11 8 =? 1) && negb (fld v 7 0 =? 0))
  | I16 _ => false
  end.

(** A function: instructions and literal pools. *)
Inductive item := Ins (i : instr) | Pool (ws : list N).
Definition item_bytes (x : item) : str :=
  match x with Ins i => ibytes i | Pool ws => flat_map hw_bytes ws end.
Definition item_size (x : item) : N :=
  match x with Ins i => isize i | Pool ws => 2 * N.of_nat (length ws) end.
Definition encode (l : list item) : str := flat_map item_bytes l.
Definition size (l : list item) : N := fold_right (fun x n => item_size x + n) 0 l.

(** The instructions of a function with their offsets from its start. *)
Fixpoint placed (pos : N) (l : list item) : list (N * instr) :=
  match l with
  | [] => []
  | Ins i :: l => (pos, i) :: placed (pos + isize i) l
  | x :: l => placed (pos + item_size x) l
  end.

(** Architectural branch targets, as offsets from the start of the function. *)
Definition target (imm : instr -> option Z) (p : N * instr) : list Z :=
  match imm (snd p) with Some z => [(Z.of_N (fst p) + 4 + z)%Z] | None => [] end.
Definition targets (imm : instr -> option Z) (l : list item) : list Z :=
  flat_map (target imm) (placed 0 l).

Definition inside (n : N) (z : Z) : bool := ((0 <=? z) && (z <? Z.of_N n))%Z.

(** Total of the stack pointer decrements. *)
Definition total_drop (v7 : bool) (l : list item) : N :=
  fold_right (fun p n => match sp_drop v7 (snd p) with Some d => d + n | None => n end) 0 (placed 0 l).
Definition some_drop (v7 : bool) (l : list item) : bool :=
  existsb (fun p => match sp_drop v7 (snd p) with Some _ => true | None => false end) (placed 0 l).

(** Total of what the decoder counts. *)
Definition total_counted (v7 : bool) (ps : list (N * instr)) : N :=
  fold_right (fun p n => match counted v7 (snd p) with Some d => d + n | None => n end) 0 ps.
Definition some_counted (v7 : bool) (ps : list (N * instr)) : bool :=
  existsb (fun p => match counted v7 (snd p) with Some _ => true | None => false end) ps.

(** Mapping symbols (`$d`, `$t`) describe the layout: addresses increase; no data symbol at an
    instruction; a data symbol at the start of each pool, followed by the thumb symbol at its end, or,
    for the last pool of the function, by a later thumb symbol or by nothing. *)
Definition pool_tag (tags : list (N * tag)) (a e : N) (last : bool) : Prop :=
  exists k, nth_error tags k = Some (a, TData) /\
    match nth_error tags (S k) with
    | Some (t, TThumb) => t = e \/ last = true /\ e <= t
    | Some (_, TData) => False
    | None => last = true
    end.
Fixpoint tagged (tags : list (N * tag)) (a : N) (l : list item) : Prop :=
  match l with
  | [] => True
  | x :: l' =>
      match x with
      | Ins _ => ~ In (a, TData) tags
      | Pool ws => ws <> [] /\ pool_tag tags a (a + item_size x) (match l' with [] => true | _ => false end)
      end /\ tagged tags (a + item_size x) l'
  end.
Definition increasing (tags : list (N * tag)) : Prop :=
  forall i j a b x y, (i < j)%nat ->
    nth_error tags i = Some (a, x) -> nth_error tags j = Some (b, y) -> a < b /\ b < 2 ^ 32.

(** A function of the model's domain: valid instructions, mapping symbols as above, within the
    address space and less than 2^30 bytes long. *)
Definition item_ok (v7 : bool) (x : item) : Prop :=
  match x with Ins i => instr_ok v7 i = true | Pool ws => forall w, In w ws -> w < 2 ^ 16 end.
Definition function_ok (v7 : bool) (address : N) (tags : list (N * tag)) (l : list item) : Prop :=
  (forall x, In x l -> item_ok v7 x) /\ increasing tags /\ tagged tags address l /\
  address + size l <= 2 ^ 32 /\ size l < 2 ^ 30.

(** * Any byte string *)
(** What the mapping symbols say about an address, given what the search finds there: instructions, a pool up to the next thumb
    symbol, a pool with no symbol after it.  (A data symbol followed by another one says nothing.) *)
Inductive mark := MCode | MPool (e : N) | MLast.
Inductive marked (tags : list (N * tag)) (a : N) : mark -> Prop :=
| mk_none : find_tag tags a = Ret None -> marked tags a MCode
| mk_thumb k b : find_tag tags a = Ret (Some k) -> nth_error tags k = Some (b, TThumb) -> marked tags a MCode
| mk_pool k b e : find_tag tags a = Ret (Some k) -> nth_error tags k = Some (b, TData) ->
    nth_error tags (S k) = Some (e, TThumb) -> marked tags a (MPool e)
| mk_last k b : find_tag tags a = Ret (Some k) -> nth_error tags k = Some (b, TData) ->
    nth_error tags (S k) = None -> marked tags a MLast.

(** The length of a pool from [a] to [e], in whole halfwords, at least one. *)
Definition pool_len (a e : N) : N := 2 * N.max 1 (((e + 2 ^ 32 - a) mod 2 ^ 32) / 2).

(** A halfword taken for an instruction on its own: assigned to a 16-bit instruction other than BKPT.  Any other halfword is taken
    for the first one of a 32-bit instruction. *)
Definition alone (v7 : bool) (w : N) : bool := negb (wide w) && alloc16 v7 w && negb (bkpt w).

(** [sweep v7 address tags pos bytes l]: reading [bytes], found [pos] bytes after [address], from one end to the other gives the
    instructions [l]. *)
Inductive sweep (v7 : bool) (address : N) (tags : list (N * tag)) : N -> str -> list (N * instr) -> Prop :=
| sw_end pos bytes : (length bytes < 2)%nat -> sweep v7 address tags pos bytes []
| sw_last pos bytes : marked tags ((address + pos) mod 2 ^ 32) MLast -> sweep v7 address tags pos bytes []
| sw_pool pos bytes e n l : (2 <= length bytes)%nat -> marked tags ((address + pos) mod 2 ^ 32) (MPool e) ->
    n = pool_len ((address + pos) mod 2 ^ 32) e ->
    sweep v7 address tags (pos + n) (skipn (N.to_nat n) bytes) l -> sweep v7 address tags pos bytes l
| sw_narrow pos w bytes l : marked tags ((address + pos) mod 2 ^ 32) MCode -> w < 2 ^ 16 -> alone v7 w = true ->
    sweep v7 address tags (pos + 2) bytes l -> sweep v7 address tags pos (hw_bytes w ++ bytes) ((pos, I16 w) :: l)
| sw_wide pos w v bytes l : marked tags ((address + pos) mod 2 ^ 32) MCode -> w < 2 ^ 16 -> v < 2 ^ 16 -> alone v7 w = false ->
    sweep v7 address tags (pos + 4) bytes l ->
    sweep v7 address tags pos (hw_bytes w ++ hw_bytes v ++ bytes) ((pos, I32 w v) :: l).

(** The reading cannot go on: a data symbol is followed by another one, or the last halfword is not an instruction. *)
Inductive stuck (v7 : bool) (address : N) (tags : list (N * tag)) : N -> str -> string -> Prop :=
| sk_data pos bytes k b e : (2 <= length bytes)%nat -> find_tag tags ((address + pos) mod 2 ^ 32) = Ret (Some k) ->
    nth_error tags k = Some (b, TData) -> nth_error tags (S k) = Some (e, TData) ->
    stuck v7 address tags pos bytes "BUG: expected a thumb tag but found another data tag"
| sk_cut pos w rest : marked tags ((address + pos) mod 2 ^ 32) MCode -> w < 2 ^ 16 -> alone v7 w = false -> (length rest < 2)%nat ->
    stuck v7 address tags pos (hw_bytes w ++ rest) "BUG: unknown instruction"
| sk_pool pos bytes e n msg : (2 <= length bytes)%nat -> marked tags ((address + pos) mod 2 ^ 32) (MPool e) ->
    n = pool_len ((address + pos) mod 2 ^ 32) e ->
    stuck v7 address tags (pos + n) (skipn (N.to_nat n) bytes) msg -> stuck v7 address tags pos bytes msg
| sk_narrow pos w bytes msg : marked tags ((address + pos) mod 2 ^ 32) MCode -> w < 2 ^ 16 -> alone v7 w = true ->
    stuck v7 address tags (pos + 2) bytes msg -> stuck v7 address tags pos (hw_bytes w ++ bytes) msg
| sk_wide pos w v bytes msg : marked tags ((address + pos) mod 2 ^ 32) MCode -> w < 2 ^ 16 -> v < 2 ^ 16 -> alone v7 w = false ->
    stuck v7 address tags (pos + 4) bytes msg -> stuck v7 address tags pos (hw_bytes w ++ hw_bytes v ++ bytes) msg.

(** What a list of instructions amounts to, in a function of [len] bytes. *)
Record amounts (v7 : bool) (len : N) (l : list (N * instr)) (s : st) : Prop := {
  am_bls : bls s = flat_map (target call_imm) l;
  am_bs : bs s = flat_map (target (branch_recorded v7)) l;
  am_ind : indirect s = existsb (fun p => is_indirect (snd p)) l;
  am_mod : modifies_sp s = some_counted v7 l;
  am_stack : stack s = if existsb (inside len) (flat_map (target (branch_recorded v7)) l) then None
                       else Some (total_counted v7 l) }.

(** Two functions that differ only in the contents of their pools. *)
Definition same_item (x y : item) : Prop :=
  match x, y with
  | Ins i, Ins j => i = j
  | Pool a, Pool b => length a = length b
  | _, _ => False
  end.

(** An instruction word agrees with a pattern of 16 characters, most significant bit first. *)
Definition agrees (w : N) (pattern : str) : Prop :=
  forall k, (k < 16)%nat ->
    (nth_error pattern k = Some "0"%char -> N.testbit w (15 - N.of_nat k) = false) /\
    (nth_error pattern k = Some "1"%char -> N.testbit w (15 - N.of_nat k) = true).
Definition pattern_ok (pattern : str) : Prop :=
  length pattern = 16%nat /\ forall c, In c pattern -> c = "0"%char \/ c = "1"%char \/ c = "x"%char.
