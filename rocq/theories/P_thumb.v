(** Properties C23 - C29: the machine code analysis of thumb.rs. *)
From Verif Require Import M_base M_thumb S_thumb X_thumb L_thumb5 L_thumb6.
Local Open Scope N_scope.

(** C23: whatever surrounds them, the calls recorded are exactly the BL instructions of the function, in
    order, each with its architectural target; the analysis of a valid function never panics. *)
Theorem C23_bl_targets : forall v7 address tags l, function_ok v7 address tags l ->
  exists s, analyze (encode l) address v7 tags = Ret s /\
    bls s = targets call_imm l /\ indirect s = existsb (fun p => is_indirect (snd p)) (placed 0 l).
Proof. exact bl_targets. Qed.
Print Assumptions C23_bl_targets.
Example C23_case : function_ok true 256 ex_tags ex_fn /\ targets call_imm ex_fn = [(-562)%Z].
Proof. split; [exact ex_ok | reflexivity]. Qed.

(** C24 (partial: T3 branches with J1 <> J2, i.e. further than 256 KiB, are recorded wrongly; all other
    branches of all four encodings are recorded with their architectural target). *)
Theorem C24_b_targets_partial : forall v7 address tags l s, function_ok v7 address tags l ->
  analyze (encode l) address v7 tags = Ret s ->
  bs s = targets (branch_recorded v7) l /\
  (forall i, t3_swapped v7 i = false -> branch_recorded v7 i = branch_imm v7 i) /\
  ((forall i, In (Ins i) l -> t3_swapped v7 i = false) -> bs s = targets (branch_imm v7) l).
Proof. exact b_targets. Qed.
Print Assumptions C24_b_targets_partial.
Example C24_case : function_ok true 256 ex_tags ex_fn /\ targets (branch_imm true) ex_fn = [1054%Z] /\
  (forall i, In (Ins i) ex_fn -> t3_swapped true i = false).
Proof.
  split; [exact ex_ok|]. split; [reflexivity|]. intros i Hi.
  repeat (destruct Hi as [Hi | Hi]; [injection Hi as <- || discriminate Hi; reflexivity|]). destruct Hi.
Qed.

Theorem C24_refuted : exists l s, function_ok true 0 [] l /\ analyze (encode l) 0 true [] = Ret s /\
  bs s <> targets (branch_imm true) l.
Proof. exact t3_wrong. Qed.
Print Assumptions C24_refuted.

(** C25 (partial: all assigned 16-bit encodings except BKPT, and all 32-bit encodings). *)
Theorem C25_in_step_partial : forall v7 w, w < 2 ^ 16 -> alloc16 v7 w = true -> bkpt w = false ->
  (chain v7 (hw w) rules16 = Ret None <-> wide w = true) /\
  (wide w = false -> exists k, chain v7 (hw w) rules16 = Ret (Some k)).
Proof. exact in_step. Qed.
Print Assumptions C25_in_step_partial.
(** Exactly the half words of 32-bit instructions, BKPT and what the architecture leaves unassigned are taken for 32-bit instructions. *)
Theorem C25_step_of_every_half_word : forall v7 w, w < 2 ^ 16 ->
  (chain v7 (hw w) rules16 = Ret None <-> wide w = true \/ alloc16 v7 w = false \/ bkpt w = true) /\
  (chain v7 (hw w) rules16 <> Ret None -> exists k, chain v7 (hw w) rules16 = Ret (Some k)).
Proof. exact width_exact. Qed.
Print Assumptions C25_step_of_every_half_word.
Example C25_case : alloc16 false 0xdf00 = true /\ bkpt 0xdf00 = false /\ wide 0xdf00 = false.
Proof. repeat split; reflexivity. Qed.

(** BKPT is taken for the first half of a 32-bit instruction: a call behind it is lost. *)
Theorem C25_refuted : exists l s,
  (forall x, In x l -> match x with Ins (I16 w) => w < 2 ^ 16 /\ wide w = false /\ alloc16 true w = true
                                  | Ins (I32 w v) => w < 2 ^ 16 /\ v < 2 ^ 16 /\ wide w = true
                                  | Pool _ => False end) /\
  analyze (encode l) 0 true [] = Ret s /\ bls s = [] /\ targets call_imm l = [1114%Z].
Proof. exact bkpt_desync. Qed.
Print Assumptions C25_refuted.

(** C26, exactly: what is reported for a function of the model's domain is the total of what the decoder counts, unless a branch is
    taken to stay in the function; and it counts what an instruction allocates except for those of [stack_quirk]. *)
Theorem C26_stack_exact : forall v7 address tags l, function_ok v7 address tags l ->
  exists s, analyze (encode l) address v7 tags = Ret s /\
    (stack s = if existsb (inside (size l)) (targets (branch_recorded v7) l) then None else Some (total_counted v7 (placed 0 l))) /\
    modifies_sp s = some_counted v7 (placed 0 l) /\
    (forall i, In (Ins i) l -> (counted v7 i = sp_drop v7 i <-> stack_quirk v7 i = false)).
Proof. exact stack_exact. Qed.
Print Assumptions C26_stack_exact.
(** It never reports less than what is allocated, except for SUBW and 0x00XY00XY. *)
Theorem C26_never_less_partial : forall v7 address tags l s n, function_ok v7 address tags l ->
  (forall i, In (Ins i) l -> lost v7 i = false) ->
  analyze (encode l) address v7 tags = Ret s ->
  (stack s = Some n -> total_drop v7 l <= n) /\ (some_drop v7 l = true -> modifies_sp s = true).
Proof. exact never_less. Qed.
Print Assumptions C26_never_less_partial.
Example C26_exact_case : function_ok true 0 [] [Ins (I32 0xe90d 0x41f0); Ins (I32 0xf6ad 0x0d08)] /\
  total_counted true (placed 0 [Ins (I32 0xe90d 0x41f0); Ins (I32 0xf6ad 0x0d08)]) = 24 /\
  stack_quirk true (I32 0xe90d 0x41f0) = true /\ lost true (I32 0xe90d 0x41f0) = false /\ lost true (I32 0xf6ad 0x0d08) = true.
Proof. split; [apply plain_ok; reflexivity|]. repeat split; reflexivity. Qed.

(** C26 (partial: without the three encodings of [stack_quirk] and far T3 branches). *)
Theorem C26_stack_total_partial : forall v7 address tags l, function_ok v7 address tags l ->
  (forall i, In (Ins i) l -> t3_swapped v7 i = false /\ stack_quirk v7 i = false) ->
  existsb (inside (size l)) (targets (branch_imm v7) l) = false ->
  exists s, analyze (encode l) address v7 tags = Ret s /\
            stack s = Some (total_drop v7 l) /\ modifies_sp s = some_drop v7 l.
Proof. exact straight_stack. Qed.
Print Assumptions C26_stack_total_partial.
Example C26_case : function_ok true 256 ex_tags ex_fn /\
  (forall i, In (Ins i) ex_fn -> t3_swapped true i = false /\ stack_quirk true i = false) /\
  existsb (inside (size ex_fn)) (targets (branch_imm true) ex_fn) = false /\ total_drop true ex_fn = 540.
Proof.
  split; [exact ex_ok|]. split; [|split; reflexivity]. intros i Hi.
  repeat (destruct Hi as [Hi | Hi]; [injection Hi as <- || discriminate Hi; split; reflexivity|]). destruct Hi.
Qed.

(** `subw sp, sp, #2056`: not seen at all. *)
Theorem C26_subw_refuted : exists l s, function_ok true 0 [] l /\ targets (branch_imm true) l = [] /\
  analyze (encode l) 0 true [] = Ret s /\ stack s = Some 0 /\ modifies_sp s = false /\ total_drop true l = 2056.
Proof. exact subw_missed. Qed.
Print Assumptions C26_subw_refuted.
(** `stmdb sp, {r4-r8, lr}` without write back is counted. *)
Theorem C26_stmdb_refuted : exists l s, function_ok true 0 [] l /\ targets (branch_imm true) l = [] /\
  analyze (encode l) 0 true [] = Ret s /\ stack s = Some 24 /\ total_drop true l = 0.
Proof. exact stmdb_no_writeback. Qed.
Print Assumptions C26_stmdb_refuted.
(** `sub.w sp, sp, #0x00040004` is counted as 1024. *)
Theorem C26_imm_refuted : exists l s, function_ok true 0 [] l /\ targets (branch_imm true) l = [] /\
  analyze (encode l) 0 true [] = Ret s /\ stack s = Some 1024 /\ total_drop true l = 262148.
Proof. exact modified_imm_wrong. Qed.
Print Assumptions C26_imm_refuted.

(** C27: for every byte string, a reported non-zero usage comes with `modifies SP`, and a recorded branch
    into the function cancels the report. *)
Theorem C27_consistent : forall bytes address v7 tags s, analyze bytes address v7 tags = Ret s ->
  (forall n, stack s = Some n -> n <> 0 -> modifies_sp s = true) /\
  (forall z, In z (bs s) -> (0 <= z < Z.of_nat (length bytes))%Z -> stack s = None).
Proof. exact L_thumb4.analyze_consistent. Qed.
Print Assumptions C27_consistent.
Example C27_case : exists s, analyze (encode ex_fn) 256 true ex_tags = Ret s /\ stack s = Some 540.
Proof. eexists. split; [vm_compute; reflexivity | reflexivity]. Qed.

(** C27, the equivalence (partial: functions in which no instruction lowers SP by zero). *)
Theorem C27_iff_partial : forall v7 address tags l s n, function_ok v7 address tags l ->
  (forall i, In (Ins i) l -> stack_quirk v7 i = false /\ sp_drop v7 i <> Some 0) ->
  analyze (encode l) address v7 tags = Ret s -> stack s = Some n ->
  (n <> 0 <-> modifies_sp s = true).
Proof. exact stack_iff. Qed.
Print Assumptions C27_iff_partial.
Example C27_iff_case : function_ok true 256 ex_tags ex_fn /\
  (forall i, In (Ins i) ex_fn -> stack_quirk true i = false /\ sp_drop true i <> Some 0).
Proof.
  split; [exact ex_ok|]. intros i Hi.
  repeat (destruct Hi as [Hi | Hi]; [first [discriminate Hi | injection Hi as <-; split; [reflexivity | vm_compute; discriminate]]|]). destruct Hi.
Qed.

(** C27, giving up on branches within the function (B instructions; CBZ / CBNZ are refuted below). *)
Theorem C27_gives_up_partial : forall v7 address tags l s, function_ok v7 address tags l ->
  (forall i, In (Ins i) l -> t3_swapped v7 i = false) ->
  (exists z, In z (targets (branch_imm v7) l) /\ inside (size l) z = true) ->
  analyze (encode l) address v7 tags = Ret s -> stack s = None.
Proof. exact branch_gives_up. Qed.
Print Assumptions C27_gives_up_partial.
Example C27_gives_up_case : function_ok true 0 [] [Ins (I16 0xb580); Ins (I16 0xe7fd)] /\
  In 0%Z (targets (branch_imm true) [Ins (I16 0xb580); Ins (I16 0xe7fd)]).
Proof. split; [apply plain_ok; reflexivity | left; reflexivity]. Qed.

(** `sub sp, #0`: usage zero but SP modified; the assertion at main.rs 828-837 fires. *)
Theorem C27_iff_refuted : exists l s, function_ok false 0 [] l /\
  analyze (encode l) 0 false [] = Ret s /\ stack s = Some 0 /\ modifies_sp s = true.
Proof. exact sub_zero. Qed.
Print Assumptions C27_iff_refuted.
(** A CBZ within the function does not stop the report. *)
Theorem C27_cbz_refuted : exists l s, function_ok true 0 [] l /\
  (exists z, In z (targets (cbz_imm true) l) /\ inside (size l) z = true) /\
  analyze (encode l) 0 true [] = Ret s /\ stack s = Some 12.
Proof. exact cbz_ignored. Qed.
Print Assumptions C27_cbz_refuted.

(** C28: functions that differ only in the contents of their literal pools are analysed alike. *)
Theorem C28_pools_ignored : forall v7 address tags l l', function_ok v7 address tags l ->
  Forall2 same_item l l' -> (forall x, In x l' -> item_ok v7 x) ->
  analyze (encode l) address v7 tags = analyze (encode l') address v7 tags.
Proof. exact pools_ignored. Qed.
Print Assumptions C28_pools_ignored.
Example C28_case : function_ok true 256 ex_tags ex_fn /\ Forall2 same_item ex_fn ex_fn' /\
  (forall x, In x ex_fn' -> item_ok true x) /\ encode ex_fn <> encode ex_fn'.
Proof.
  split; [exact ex_ok|]. split; [repeat constructor|]. split; [exact (proj1 ex_ok')|]. vm_compute. discriminate.
Qed.

(** C29: the pattern matcher agrees with the bits, for every halfword and every pattern. *)
Theorem C29_matches : forall a b q, pattern_ok (filter (fun c => negb (Ascii.eqb c "_")) q) ->
  exists r, matches (a, b) (lit "0b" ++ q) = Ret r /\
    (r = true <-> agrees (256 * N_of_ascii b + N_of_ascii a) (filter (fun c => negb (Ascii.eqb c "_")) q)).
Proof. exact matches_agrees. Qed.
Print Assumptions C29_matches.
Example C29_case : pattern_ok (filter (fun c => negb (Ascii.eqb c "_")) (lit "10_x_0_x_xxxxxxxxxxx")) /\
  matches ("000"%char, "128"%char) (lit "0b10_x_0_x_xxxxxxxxxxx") = Ret true.
Proof.
  split; [split; [reflexivity|] | vm_compute; reflexivity].
  intros c Hc. cbn in Hc. repeat (destruct Hc as [<- | Hc]; [auto|]). destruct Hc.
Qed.
