(** Model of thumb.rs: the decoder that looks for calls, branches and stack pointer updates.

    Bytes are [ascii]; machine integers are [N] or [Z], with the wrap-around of the release build
    written out where the Rust code relies on it. *)
From Verif Require Import M_base.

(** thumb.rs 623-630 *)
Inductive tag := TData | TThumb.

(** One element of `bytes.chunks_exact(2)` (thumb.rs 52): [fst] is `first[0]`, [snd] is `first[1]`. *)
Definition hword := (ascii * ascii)%type.
Definition w0 (h : hword) : N := code (fst h).
Definition w1 (h : hword) : N := code (snd h).

(** thumb.rs 52. *)
Fixpoint chunks2 (s : str) : list hword :=
  match s with
  | a :: b :: s' => (a, b) :: chunks2 s'
  | _ => []
  end.

(** [u8::from_str_radix(s, 2)] on at most 8 bytes: an optional `+`, then at least one binary digit.
    Eight digits cannot overflow. *)
Definition bin_digit (c : ascii) : option N :=
  if Ascii.eqb c "0" then Some 0%N else if Ascii.eqb c "1" then Some 1%N else None.
Fixpoint bin_digits (s : str) (acc : N) : option N :=
  match s with
  | [] => Some acc
  | c :: s' => match bin_digit c with Some d => bin_digits s' (2 * acc + d)%N | None => None end
  end.
Definition parse_bin (s : str) : option N :=
  match s with
  | [] => None
  | c :: s' =>
      if Ascii.eqb c "+" then match s' with [] => None | _ => bin_digits s' 0%N end
      else bin_digits s 0%N
  end.

(** [str::replace] of one byte by another (thumb.rs 577-586). *)
Definition replace_byte (a b : ascii) (s : str) : str := map (fun c => if Ascii.eqb c a then b else c) s.

(** thumb.rs 577-585: mask and value of eight pattern characters. *)
Definition pat_mask (s : str) : option N := parse_bin (replace_byte "x" "0" (replace_byte "0" "1" s)).
Definition pat_value (s : str) : option N := parse_bin (replace_byte "x" "0" s).

(** thumb.rs 574-591 `matches` *)
Definition matches (h : hword) (pattern : str) : outcome bool :=
  if negb (starts_with (lit "0b") pattern) then Panic "assertion failed: pattern.starts_with" else
  let pattern := filter (fun c => negb (Ascii.eqb c "_")) (skipn 2 pattern) in
  if negb (length pattern =? 16) then Panic "assertion failed: pattern.len()" else
  match pat_mask (firstn 8 pattern), pat_value (firstn 8 pattern),
        pat_mask (skipn 8 pattern), pat_value (skipn 8 pattern) with
  | Some mask1, Some value1, Some mask2, Some value2 =>
      Ret ((N.land (w1 h) mask1 =? value1)%N && (N.land (w0 h) mask2 =? value2)%N)
  | _, _, _, _ => Panic "BUG"
  end.

(** [i32] wrap-around. *)
Definition wrap32 (z : Z) : Z := ((z + 2 ^ 31) mod 2 ^ 32 - 2 ^ 31)%Z.

(** thumb.rs 593-596 `sign_extend`; [nbits <= 32] at every call. *)
Definition sign_extend (x : Z) (nbits : Z) : Z :=
  let shift := (32 - nbits)%Z in Z.shiftr (wrap32 (Z.shiftl x shift)) shift.

(** [u32::rotate_right] *)
Definition rotr32 (x n : N) : N :=
  let n := (n mod 32)%N in
  (N.lor (N.shiftr x n) (N.shiftl x (32 - n)) mod 2 ^ 32)%N.

(** thumb.rs 598-621 `thumb_expand_imm` *)
Definition thumb_expand_imm (imm12 : N) : N :=
  (if N.shiftr imm12 10 =? 0 then
     let sel := N.land (N.shiftr imm12 8) 3 in
     let imm8 := N.land imm12 255 in
     if sel =? 0 then imm8
     else if sel =? 1 then N.shiftl imm8 8
     else if sel =? 2 then N.lor (N.shiftl imm8 24) (N.shiftl imm8 8)
     else N.lor (N.lor (N.lor (N.shiftl imm8 24) (N.shiftl imm8 16)) (N.shiftl imm8 8)) imm8
   else
     rotr32 (N.lor (N.shiftl 1 7) (N.land imm12 127)) (N.shiftr imm12 7))%N.

(** [count_ones] *)
(** thumb.rs 288, 404. *)
Fixpoint pos_ones (p : positive) : N :=
  match p with xH => 1 | xO p => pos_ones p | xI p => N.succ (pos_ones p) end%N.
(** thumb.rs 288, 404. *)
Definition count_ones (n : N) : N := match n with N0 => 0%N | Npos p => pos_ones p end.

(** What a branch of the 16-bit `if`/`else if` chain does; [K16] is `continue`. *)
Inductive kind := K16 | KBT1 | KBT2 | KBlx | KBx | KPush | KSubSp.

(** One link of the chain: is it guarded by `v7 &&`, its pattern, its body. *)
Record rule := mkRule { r_v7 : bool; r_pat : string; r_kind : kind }.

(** thumb.rs 84-384, in source order. *)
Definition rules16 : list rule :=
  [
     mkRule false "0b010000_0101_xxx_xxx" K16;  (* thumb.rs 84: A7.7.2 ADC (register) - T1 *)
     mkRule false "0b000_11_1_0_xxx_xxx_xxx" K16;  (* thumb.rs 87: A7.7.3 ADD (immediate) - T1 *)
     mkRule false "0b001_10_xxx_xxxxxxxx" K16;  (* thumb.rs 90: A7.7.3 ADD (immediate) - T2 *)
     mkRule false "0b000_11_0_0_xxx_xxx_xxx" K16;  (* thumb.rs 93: A7.7.4 ADD (register) - T1 *)
     mkRule false "0b010001_00_x_xxxx_xxx" K16;  (* thumb.rs 96: A7.7.4 ADD (register) - T2 *)
     mkRule false "0b1010_1_xxx_xxxxxxxx" K16;  (* thumb.rs 99: A7.7.5 ADD (SP plus immediate) - T1 *)
     mkRule false "0b1011_0000_0_xxxxxxx" K16;  (* thumb.rs 102: A7.7.5 ADD (SP plus immediate) - T2 *)
     mkRule false "0b01000100_x_1101_xxx" K16;  (* thumb.rs 105: A7.7.6 ADD (SP plus register) - T1 *)
     mkRule false "0b01000100_1_xxxx_101" K16;  (* thumb.rs 108: A7.7.6 ADD (SP plus register) - T2 *)
     mkRule false "0b1010_0_xxx_xxxxxxxx" K16;  (* thumb.rs 111: A7.7.7 ADR - T1 *)
     mkRule false "0b010000_0000_xxx_xxx" K16;  (* thumb.rs 114: A7.7.9 AND (register) - T1 *)
     mkRule false "0b000_10_xxxxx_xxx_xxx" K16;  (* thumb.rs 117: A7.7.10 ASR (immediate) - T1 *)
     mkRule false "0b010000_0100_xxx_xxx" K16;  (* thumb.rs 120: A7.7.11 ASR (register) - T1 *)
     mkRule false "0b1101_1110_xxxxxxxx" K16;  (* thumb.rs 123: A7.7.191 UDF - T1 *)
     mkRule false "0b1101_1111_xxxxxxxx" K16;  (* thumb.rs 128: A7.7.175 SVC - T1 *)
     mkRule false "0b1101_xxxx_xxxxxxxx" KBT1;  (* thumb.rs 133: A7.7.12 B - T1 *)
     mkRule false "0b11100_xxxxxxxxxxx" KBT2;  (* thumb.rs 152: A7.7.12 B - T2 *)
     mkRule false "0b010000_1110_xxx_xxx" K16;  (* thumb.rs 168: A7.7.16 BIC (register) - T1 *)
     mkRule false "0b1010_1110_xxxxxxxx" K16;  (* thumb.rs 171: A7.7.17 BKPT - T1 *)
     mkRule false "0b010001_11_1_xxxx_000" KBlx;  (* thumb.rs 174: A7.7.19 BLX (register) - T1 *)
     mkRule false "0b010001_11_0_xxxx_000" KBx;  (* thumb.rs 177: A7.7.20 BX - T1 *)
     mkRule true  "0b1011_x_0_x_1_xxxxx_xxx" K16;  (* thumb.rs 185: A7.7.21 CBNZ, CBZ - T1 *)
     mkRule false "0b010000_1011_xxx_xxx" K16;  (* thumb.rs 188: A7.7.26 CMN (register) - T1 *)
     mkRule false "0b001_01_xxx_xxxxxxxx" K16;  (* thumb.rs 191: A7.7.27 CMP (immediate) - T1 *)
     mkRule false "0b010000_1010_xxx_xxx" K16;  (* thumb.rs 194: A7.7.28 CMP (register) - T1 *)
     mkRule false "0b010001_01_x_xxxx_xxx" K16;  (* thumb.rs 197: A7.7.28 CMP (register) - T2 *)
     mkRule false "0b1011_0110_011_x_00_xx" K16;  (* thumb.rs 200: A7.7.29 CPS - T1 *)
     mkRule false "0b010000_0001_xxx_xxx" K16;  (* thumb.rs 203: A7.7.35 EOR (register) - T1 *)
     mkRule true  "0b1011_1111_xxxx_xxxx" K16;  (* thumb.rs 206: A7.7.37 IT - T1 *)
     mkRule false "0b1100_1_xxx_xxxxxxxx" K16;  (* thumb.rs 209: A7.7.40 LDM, LDMIA, LDMFD - T1 *)
     mkRule false "0b011_0_1_xxxxx_xxx_xxx" K16;  (* thumb.rs 212: A7.7.42 LDR (immediate) - T1 *)
     mkRule false "0b1001_1_xxx_xxxxxxxx" K16;  (* thumb.rs 215: A7.7.42 LDR (immediate) - T2 *)
     mkRule false "0b01001_xxx_xxxxxxxx" K16;  (* thumb.rs 218: A7.7.43 LDR (literal) - T1 *)
     mkRule false "0b0101_100_xxx_xxx_xxx" K16;  (* thumb.rs 221: A7.7.44 LDR (register) - T1 *)
     mkRule false "0b011_1_1_xxxxx_xxx_xxx" K16;  (* thumb.rs 224: A7.7.45 LDRB (immediate) - T1 *)
     mkRule false "0b0101_110_xxx_xxx_xxx" K16;  (* thumb.rs 227: A7.7.47 LDRB (register) - T1 *)
     mkRule false "0b1000_1_xxxxx_xxx_xxx" K16;  (* thumb.rs 230: A7.7.54 LDRH (immediate) - T1 *)
     mkRule false "0b0101_101_xxx_xxx_xxx" K16;  (* thumb.rs 233: A7.7.56 LDRH (register) - T1 *)
     mkRule false "0b0101_011_xxx_xxx_xxx" K16;  (* thumb.rs 236: A7.7.60 LDRSB (register) - T1 *)
     mkRule false "0b0101_111_xxx_xxx_xxx" K16;  (* thumb.rs 239: A7.7.64 LDRSH (register) - T1 *)
     mkRule false "0b000_00_xxxxx_xxx_xxx" K16;  (* thumb.rs 242: A7.7.67 LSL (immediate) - T1 *)
     mkRule false "0b010000_0010_xxx_xxx" K16;  (* thumb.rs 245: A7.7.68 LSL (register) - T1 *)
     mkRule false "0b000_01_xxxxx_xxx_xxx" K16;  (* thumb.rs 248: A7.7.69 LSR (immediate) - T1 *)
     mkRule false "0b010000_0011_xxx_xxx" K16;  (* thumb.rs 251: A7.7.70 LSR (register) - T1 *)
     mkRule false "0b001_00_xxx_xxxxxxxx" K16;  (* thumb.rs 254: A7.7.75 MOV (immediate) - T1 *)
     mkRule false "0b010001_10_x_xxxx_xxx" K16;  (* thumb.rs 257: A7.7.76 MOV (register) - T1 *)
     mkRule false "0b000_00_00000_xxx_xxx" K16;  (* thumb.rs 260: A7.7.76 MOV (register) - T2 *)
     mkRule false "0b010000_1101_xxx_xxx" K16;  (* thumb.rs 263: A7.7.83 MUL - T1 *)
     mkRule false "0b010000_1111_xxx_xxx" K16;  (* thumb.rs 266: A7.7.85 MVN (register) - T1 *)
     mkRule false "0b1011_1111_0000_0000" K16;  (* thumb.rs 269: A7.7.87 NOP - T1 (in ARMv7-M-ARM) *)
     mkRule false "0b010000_1100_xxx_xxx" K16;  (* thumb.rs 273: A7.7.91 ORR (register) - T1 *)
     mkRule false "0b1011_1_10_x_xxxxxxxx" K16;  (* thumb.rs 276: A7.7.98 POP - T1 *)
     mkRule false "0b1011_0_10_x_xxxxxxxx" KPush;  (* thumb.rs 279: A7.7.99 PUSH - T1 *)
     mkRule false "0b1011_1010_00_xxx_xxx" K16;  (* thumb.rs 292: A7.7.111 REV - T1 *)
     mkRule false "0b1011_1010_01_xxx_xxx" K16;  (* thumb.rs 295: A7.7.112 REV16 - T1 *)
     mkRule false "0b1011_1010_11_xxx_xxx" K16;  (* thumb.rs 298: A7.7.113 REVSH - T1 *)
     mkRule false "0b010000_0111_xxx_xxx" K16;  (* thumb.rs 301: A7.7.115 ROR (register) - T1 *)
     mkRule false "0b010000_1001_xxx_xxx" K16;  (* thumb.rs 304: A7.7.117 RSB (immediate) - T1 *)
     mkRule false "0b010000_0110_xxx_xxx" K16;  (* thumb.rs 307: A7.7.123 SBC (register) - T1 *)
     mkRule false "0b1011_1111_0100_0000" K16;  (* thumb.rs 310: A7.7.127 SEV - T1 *)
     mkRule false "0b1100_0_xxx_xxxxxxxx" K16;  (* thumb.rs 313: A7.7.156 STM, STMIA, STMEA - T1 *)
     mkRule false "0b011_0_0_xxxxx_xxx_xxx" K16;  (* thumb.rs 316: A7.7.158 STR (immediate) - T1 *)
     mkRule false "0b1001_0_xxx_xxxxxxxx" K16;  (* thumb.rs 319: A7.7.158 STR (immediate) - T2 *)
     mkRule false "0b0101_000_xxx_xxx_xxx" K16;  (* thumb.rs 322: A7.7.159 STR (register) - T1 *)
     mkRule false "0b011_1_0_xxxxx_xxx_xxx" K16;  (* thumb.rs 325: A7.7.160 STRB (immediate) - T1 *)
     mkRule false "0b0101_010_xxx_xxx_xxx" K16;  (* thumb.rs 328: A7.7.161 STRB (register) - T1 *)
     mkRule false "0b1000_0_xxxxx_xxx_xxx" K16;  (* thumb.rs 331: A7.7.167 STRH (immediate) - T1 *)
     mkRule false "0b0101_001_xxx_xxx_xxx" K16;  (* thumb.rs 334: A7.7.168 STRH (register) - T1 *)
     mkRule false "0b000_11_1_1_xxx_xxx_xxx" K16;  (* thumb.rs 337: A7.7.171 SUB (immediate) - T1 *)
     mkRule false "0b001_11_xxx_xxxxxxxx" K16;  (* thumb.rs 340: A7.7.171 SUB (immediate) - T2 *)
     mkRule false "0b000_11_0_1_xxx_xxx_xxx" K16;  (* thumb.rs 343: A7.7.172 SUB (register) - T1 *)
     mkRule false "0b1011_0000_1_xxxxxxx" KSubSp;  (* thumb.rs 346: A7.7.173 SUB (SP minus immediate) - T1 *)
     mkRule false "0b1011_0010_01_xxx_xxx" K16;  (* thumb.rs 359: A7.7.179 SXTB - T1 *)
     mkRule false "0b1011_0010_00_xxx_xxx" K16;  (* thumb.rs 362: A7.7.181 SXTH - T1 *)
     mkRule false "0b010000_1000_xxx_xxx" K16;  (* thumb.rs 365: A7.7.186 TST (register) - T1 *)
     mkRule false "0b1011_0010_11_xxx_xxx" K16;  (* thumb.rs 368: A7.7.218 UXTB - T1 *)
     mkRule false "0b1011_0010_10_xxx_xxx" K16;  (* thumb.rs 371: A7.7.220 UXTH - T1 *)
     mkRule false "0b1011_1111_0010_0000" K16;  (* thumb.rs 374: A7.7.258 WFE - T1 *)
     mkRule false "0b1011_1111_0011_0000" K16;  (* thumb.rs 377: A7.7.259 WFI - T1 *)
     mkRule false "0b1011_1111_0001_0000" K16  (* thumb.rs 380: A7.7.260 YIELD - T1 *)
  ].

(** The chain itself: the first link whose guard and pattern hold.  [None] is the final `else`
    (thumb.rs 383). *)
(** thumb.rs 84-383. *)
Fixpoint chain (v7 : bool) (h : hword) (rs : list rule) : outcome (option kind) :=
  match rs with
  | [] => Ret None
  | r :: rs' =>
      let* b := (if r_v7 r && negb v7 then Ret false else matches h (lit (r_pat r))) in
      if b then Ret (Some (r_kind r)) else chain v7 h rs'
  end.

(** The mutable locals of `analyze` (thumb.rs 36-51). *)
Record st := mkSt {
  bls : list Z;
  bs : list Z;
  indirect : bool;
  modifies_sp : bool;
  stack : option N }.
Definition st0 : st := mkSt [] [] false false (Some 0%N).

(** `modifies_sp = true; if let Some(stack) = stack.as_mut() { *stack += n }` *)
(** thumb.rs 282-288, 349-355, 396-404, 414-424, 432-438, 445-451, 555-561. *)
Definition lower_sp (n : N) (s : st) : st :=
  mkSt (bls s) (bs s) (indirect s) true
       (match stack s with Some k => Some ((k + n) mod two64)%N | None => None end).

(** thumb.rs 176, 183. *)
Definition set_indirect (s : st) : st := mkSt (bls s) (bs s) true (modifies_sp s) (stack s).

(** thumb.rs 140-151 (also 159-167, 475-487, 508-520): [imm] is the sign extended immediate. *)
Definition push_b (imm : Z) (i : Z) (len : Z) (s : st) : st :=
  let imm32 := wrap32 (imm + (2 * i + 4)) in
  mkSt (bls s) (bs s ++ [imm32]) (indirect s) (modifies_sp s)
       (if ((0 <=? imm32) && (imm32 <? len))%Z then None else stack s).

(** thumb.rs 541-546 *)
Definition push_bl (imm : Z) (i : Z) (s : st) : st :=
  mkSt (bls s ++ [wrap32 (imm + (2 * i + 4))]) (bs s) (indirect s) (modifies_sp s) (stack s).

(** The bodies of the 16-bit branches. *)
Definition exec16 (k : kind) (h : hword) (i : Z) (len : Z) (s : st) : outcome st :=
  match k with
  | K16 => Ret s
  | KBT1 =>                                                   (* thumb.rs 133-151 *)
      let cond := N.land (w1 h) 15 in
      if (cond =? 14)%N then Panic "UDF" else
      if (cond =? 15)%N then Panic "SVC" else
      Ret (push_b (sign_extend (Z.shiftl (Z.of_N (w0 h)) 1) 9) i len s)
  | KBT2 =>                                                   (* thumb.rs 152-167 *)
      let imm11 := Z.lor (Z.shiftl (Z.of_N (N.land (w1 h) 7)) 8) (Z.of_N (w0 h)) in
      Ret (push_b (sign_extend (Z.shiftl imm11 1) 12) i len s)
  | KBlx => Ret (set_indirect s)                              (* thumb.rs 174-176 *)
  | KBx =>                                                    (* thumb.rs 177-184 *)
      let rm := N.land (N.shiftr (w0 h) 3) 15 in
      Ret (if (rm =? 14)%N then s else set_indirect s)
  | KPush =>                                                  (* thumb.rs 279-291 *)
      let m := N.land (w1 h) 1 in
      let register := N.lor (N.shiftl m 14) (w0 h) in
      Ret (lower_sp (4 * count_ones register) s)
  | KSubSp =>                                                 (* thumb.rs 346-358 *)
      let imm7 := N.land (w0 h) 127 in
      Ret (lower_sp (N.shiftl imm7 2) s)
  end.

(** `if b { 1 } else { 0 }` *)
Definition b2z (b : bool) : Z := if b then 1%Z else 0%Z.

(** thumb.rs 495-510 and 525-540: the 25-bit immediate of B (T4) and BL. *)
Definition imm25 (s j1 j2 : bool) (imm10 imm11 : Z) : Z :=
  let i1 := b2z (negb (xorb j1 s)) in
  let i2 := b2z (negb (xorb j2 s)) in
  Z.lor (Z.lor (Z.lor (Z.lor (Z.shiftl (b2z s) 24) (Z.shiftl i1 23)) (Z.shiftl i2 22))
               (Z.shiftl imm10 12)) (Z.shiftl imm11 1).

(** thumb.rs 465, 494, 526. *)
Definition sign_bit (h : hword) : bool := (N.land (N.shiftr (w1 h) 2) 1 =? 1)%N.
(** thumb.rs 467, 496, 528. *)
Definition j1_bit (h : hword) : bool := negb (N.land (w1 h) 32 =? 0)%N.
(** thumb.rs 468, 497, 529. *)
Definition j2_bit (h : hword) : bool := negb (N.land (w1 h) 8 =? 0)%N.
(** thumb.rs 154, 469, 530. *)
Definition low11 (h : hword) : Z := Z.lor (Z.shiftl (Z.of_N (N.land (w1 h) 7)) 8) (Z.of_N (w0 h)).
(** thumb.rs 495, 498 use `+` where 527, 530 use `|`; the operands have no bit in common. *)
Definition low11_add (h : hword) : Z := (Z.shiftl (Z.of_N (N.land (w1 h) 7)) 8 + Z.of_N (w0 h))%Z.
Definition low10 (h : hword) : Z := Z.lor (Z.shiftl (Z.of_N (N.land (w1 h) 3)) 8) (Z.of_N (w0 h)).
Definition low10_add (h : hword) : Z := (Z.shiftl (Z.of_N (N.land (w1 h) 3)) 8 + Z.of_N (w0 h))%Z.

(** `v7 && matches(first, p) && matches(second, q)` *)
Definition match2 (guard : bool) (first : hword) (p : string) (second : hword) (q : string)
  : outcome bool :=
  if guard then
    let* a := matches first (lit p) in
    if a then matches second (lit q) else Ret false
  else Ret false.

(** thumb.rs 388-568: the 32-bit part. *)
Definition exec32 (v7 : bool) (first second : hword) (i : Z) (len : Z) (s : st) : outcome st :=
  let sp := 13%N in
  (* 388-406: STMDB *)
  let* b := match2 v7 first "0b11101_00_100_x_0_xxxx" second "0b0_x_0_xxxxxxxxxxxxx" in
  if b then
    if (N.land (w0 first) 15 =? sp)%N then
      let register_list := N.lor (N.shiftl (N.land (w1 second) 31) 8) (w0 second) in
      let m := N.land (N.shiftr (w1 second) 6) 1 in
      Ret (lower_sp (4 * count_ones (N.lor (N.shiftl m 14) register_list)) s)
    else Ret s
  else
  (* 407-426: SUB (SP minus immediate), T2 *)
  let* b := match2 v7 first "0b11110_x_0_1101_x_1101" second "0b0_xxx_xxxx_xxxxxxxx" in
  if b then
    if (N.land (w1 second) 15 =? sp)%N then
      let imm8 := w0 second in
      let imm3 := N.land (N.shiftr (w1 second) 4) 7 in
      let ibit := N.land (N.shiftr (w1 first) 2) 1 in
      let imm32 := thumb_expand_imm (N.lor (N.lor (N.shiftl ibit 11) (N.shiftl imm3 8)) imm8) in
      Ret (lower_sp imm32 s)
    else Ret s
  else
  (* 427-439: VPUSH T1 *)
  let* b := match2 v7 first "0b1110_110_1_0_x_1_0_1101" second "0bxxxx_1011_xxxxxxxx" in
  if b then Ret (lower_sp (N.shiftl (N.land (w0 second) 255) 2) s) else
  (* 440-452: VPUSH T2 *)
  let* b := match2 v7 first "0b1110_110_1_0_x_1_0_1101" second "0bxxxx_1010_xxxxxxxx" in
  if b then Ret (lower_sp (N.shiftl (N.land (w0 second) 255) 2) s) else
  (* 453-487: B T3 *)
  let* b := match2 v7 first "0b11110_x_xxxxxxxxxx" second "0b10_x_0_x_xxxxxxxxxxx" in
  if b then
    let cond := N.lor (N.shiftl (N.land (w1 first) 3) 2) (N.shiftr (w0 first) 6) in
    if (N.shiftr cond 1 =? 7)%N then Ret s else
    let imm6 := Z.of_N (N.land (w0 first) 63) in
    let imm21 :=
      Z.lor (Z.lor (Z.lor (Z.lor (Z.shiftl (b2z (sign_bit first)) 20)
                                 (Z.shiftl (b2z (j1_bit second)) 19))
                          (Z.shiftl (b2z (j2_bit second)) 18))
                   (Z.shiftl imm6 12)) (Z.shiftl (low11 second) 1) in
    Ret (push_b (sign_extend imm21 21) i len s)
  else
  (* 488-520: B T4 *)
  let* b := match2 v7 first "0b11110_x_xxxxxxxxxx" second "0b10_x_1_x_xxxxxxxxxxx" in
  if b then
    let imm := imm25 (sign_bit first) (j1_bit second) (j2_bit second)
                     (low10_add first) (low11_add second) in
    Ret (push_b (sign_extend imm 25) i len s)
  else
  (* 521-546: BL *)
  let* b := match2 true first "0b11110_x_xxxxxxxxxx" second "0b11_x_1_x_xxxxxxxxxxx" in
  if b then
    let imm := imm25 (sign_bit first) (j1_bit second) (j2_bit second) (low10 first) (low11 second) in
    Ret (push_bl (sign_extend imm 25) i s)
  else
  (* 547-563: STR T4 *)
  let* b := match2 true first "0b11111_0000100_xxxx" second "0bxxxx_1x01_xxxxxxxx" in
  if b then
    if (N.land (w0 first) 15 =? sp)%N then Ret (lower_sp (N.land (w0 second) 255) s) else Ret s
  else Ret s.

(** [slice::binary_search_by] with a comparison on the address (Rust 1.66 to 1.80; with distinct
    addresses every version returns the same index).  [size] shrinks at every step, so [fuel] =
    length + 1 is enough. *)
Fixpoint bsearch (fuel : nat) (tags : list (N * tag)) (a : N) (left right : nat) : outcome (option nat) :=
  match fuel with
  | O => Fuel
  | S fuel =>
      if left <? right then
        let mid := left + (right - left) / 2 in
        match nth_error tags mid with
        | None => Panic "index out of bounds"
        | Some (b, _) =>
            if (b =? a)%N then Ret (Some mid)
            else if (b <? a)%N then bsearch fuel tags a (S mid) right
            else bsearch fuel tags a left mid
        end
      else Ret None
  end.
Definition find_tag (tags : list (N * tag)) (a : N) : outcome (option nat) :=
  bsearch (S (length tags)) tags a 0 (length tags).

(** What thumb.rs 54-82 decides at the start of an instruction. *)
Inductive step := Decode | SkipHalfwords (n : N) | Stop.

(** thumb.rs 54-82; [SkipHalfwords n]: skip `first`, then [n] more halfwords. *)
Definition at_tag (tags : list (N * tag)) (start : N) : outcome step :=
  let* needle := find_tag tags start in
  match needle with
  | None => Ret Decode
  | Some k =>
      match nth_error tags k with
      | Some (_, TData) =>
          match nth_error tags (S k) with
          | Some (tend, TThumb) =>
              Ret (SkipHalfwords (((tend + 2 ^ 32 - start) mod 2 ^ 32) / 2 - 1)%N)
          | Some (_, TData) => Panic "BUG: expected a thumb tag but found another data tag"
          | None => Ret Stop
          end
      | Some (_, TThumb) => Ret Decode
      | None => Panic "index out of bounds"
      end
  end.

(** thumb.rs 53-571: the loop.  [i] is the halfword index, [skip] the number of `halfwords.next()`
    calls of line 71 still to make. *)
Fixpoint aloop (v7 : bool) (address : N) (tags : list (N * tag)) (len : Z)
               (hs : list hword) (i : N) (skip : N) (s : st) {struct hs} : outcome st :=
  match hs with
  | [] => Ret s
  | first :: rest =>
      if (skip =? 0)%N then
        let start := ((address + 2 * i) mod 2 ^ 32)%N in
        let* a := at_tag tags start in
        match a with
        | Stop => Ret s
        | SkipHalfwords n => aloop v7 address tags len rest (N.succ i) n s
        | Decode =>
            let* k := chain v7 first rules16 in
            match k with
            | Some k =>
                let* s' := exec16 k first (Z.of_N i) len s in
                aloop v7 address tags len rest (N.succ i) 0 s'
            | None =>
                match rest with
                | [] => Panic "BUG: unknown instruction"
                | second :: rest' =>
                    let* s' := exec32 v7 first second (Z.of_N i) len s in
                    aloop v7 address tags len rest' (N.succ (N.succ i)) 0 s'
                end
            end
        end
      else aloop v7 address tags len rest (N.succ i) (N.pred skip) s
  end.

(** thumb.rs 6-572 `analyze` *)
Definition analyze (bytes : str) (address : N) (v7 : bool) (tags : list (N * tag)) : outcome st :=
  aloop v7 address tags (Z.of_nat (length bytes)) (chunks2 bytes) 0 0 st0.
