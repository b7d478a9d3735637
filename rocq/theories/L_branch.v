(** Machine code of any form: what is recorded for branches becomes edges (C62, C63 without restriction). *)
From Verif Require Import M_base M_stack M_graph M_analysis M_filter M_names M_thumb M_ty M_parse M_build M_run S_names S_graph S_filter S_sig S_build S_run S_thumb S_machine L_base L_thumb4 L_thumb5 L_build1 L_build3 L_build4 L_build5 L_build6 L_build7 L_run L_report L_machine.
Local Open Scope N_scope.

Lemma recorded_range w x imm : branch_recorded w x = Some imm -> (-2 ^ 26 < imm < 2 ^ 26)%Z.
Proof.
  destruct x as [a|a v]; cbn [branch_recorded]; [apply branch_range|]. destruct (w && is_b3 a v); [|apply branch_range]. intros H. injection H as <-. unfold imm_t3_swapped.
  pose proof (fld_lt a 10 10) as F1. pose proof (fld_lt v 13 13) as F2. pose proof (fld_lt v 11 11) as F3. pose proof (fld_lt a 5 0) as F4. pose proof (fld_lt v 10 0) as F5.
  change (2 ^ (10 - 10 + 1)) with 2 in F1. change (2 ^ (11 - 11 + 1)) with 2 in F3. change (2 ^ (13 - 13 + 1)) with 2 in F2. change (2 ^ (5 - 0 + 1)) with 64 in F4. change (2 ^ (10 - 0 + 1)) with 2048 in F5.
  match goal with |- context [sext 21 ?y] => pose proof (sext_range 21 y) as [A B]; assert (y < 2 ^ 26) end.
  { change (2 ^ 26) with 67108864. change (2 ^ 20) with 1048576. change (2 ^ 19) with 524288. change (2 ^ 18) with 262144. change (2 ^ 12) with 4096. lia. }
  change (2 ^ Z.of_N 21)%Z with 2097152%Z in A. change (2 ^ 26)%Z with 67108864%Z. change (2 ^ 26) with 67108864 in H. lia.
Qed.

Section Machine.
Variables (p : prog) (lay : nat -> list S_thumb.item).
Hypothesis La : layout p lay.
Local Notation v7 := (is_v7 (pg_target p)).

Record decoded_all (i : nat) (addr : N) (a : st) : Prop := {
  da_an : analysed p i addr (size (lay i)) a;
  da_bls : bls a = targets call_imm (lay i);
  da_bs : bs a = targets (branch_recorded v7) (lay i);
  da_sp : modifies_sp a = some_counted v7 (placed 0 (lay i));
  da_stack : stack a = if existsb (inside (size (lay i))) (targets (branch_recorded v7) (lay i)) then None else Some (total_counted v7 (placed 0 (lay i)));
  da_ok : forall x, In x (lay i) -> item_ok v7 x;
  da_addr : addr + size (lay i) <= 2 ^ 32 /\ size (lay i) < 2 ^ 30
}.
Lemma decode_all i addr sym : nth_error (pg_defined p) i = Some (addr, sym) -> exists a, decoded_all i addr a.
Proof.
  intros Hi. destruct (la_code p lay La i addr sym Hi) as [stext [text [sym' [T [Hi' [Ex [By Ok]]]]]]]. rewrite Hi in Hi'. injection Hi' as <-.
  assert (L : addr < 2 ^ 32) by (apply (la_32 p lay La addr sym); exact (nth_error_In _ _ Hi)).
  destruct (analyze_ok _ _ _ _ Ok) as [a [Ea [B Bs _ M S]]]. exists a.
  constructor; try assumption.
  - split; [exact (la_thumb p lay La)|]. exists stext, text, (addr, sym), (encode (lay i)). cbn [fst snd]. split; [exact T|]. split; [exact Hi|]. split; [rewrite N.mod_small by exact L; reflexivity|].
    split; [exact Ex|]. split; [exact By | exact Ea].
  - exact (proj1 Ok).
  - destruct Ok as [_ [_ [_ Z]]]. exact Z.
Qed.
Lemma placed_pos_all i addr a pos x : decoded_all i addr a -> In (pos, x) (placed 0 (lay i)) -> pos < 2 ^ 30.
Proof. intros D I. apply placed_end in I. pose proof (da_addr _ _ _ D). lia. Qed.

Section Built.
Variables (demangle : str -> str) (o : orders) (b : built).
Hypotheses (W : wf_prog p) (Fo : fair o) (E : build demangle o p = Ret b).

(** A BL instruction goes to the start of a function of the symbol table... *)
Lemma call_target_all i addr sym pos x imm : nth_error (pg_defined p) i = Some (addr, sym) -> In (pos, x) (placed 0 (lay i)) -> call_imm x = Some imm ->
  exists j, at_address p j (dest addr pos imm) /\ jumps p i j.
Proof.
  intros Hi I C. destruct (decode_all i addr sym Hi) as [a D]. pose proof (in_targets call_imm (lay i) pos x imm I C) as T. rewrite <- (da_bls _ _ _ D) in T.
  assert (Tx : pg_text p <> None) by (destruct (da_an _ _ _ D) as [_ [x1 [x2 [x3 [x4 [K _]]]]]]; rewrite K; discriminate).
  assert (Li : (i < length (pg_defined p))%nat) by (apply nth_error_Some; rewrite Hi; discriminate).
  destruct (checked_code _ _ _ _ W E i (la_thumb p lay La) Tx Li) as [addr' [size' [a' [A' [B _]]]]]. destruct (analysed_fun p i _ _ _ _ _ _ (da_an _ _ _ D) A') as [<- [<- <-]].
  destruct (B _ T) as [j J]. unfold bl_target, bl_addr in J.
  assert (Q : dest addr pos imm = Z.to_N ((Z.of_N addr + (Z.of_N pos + 4 + imm)) mod 2 ^ 64)).
  { unfold dest. replace (Z.of_N addr + Z.of_N pos + 4 + imm)%Z with (Z.of_N addr + (Z.of_N pos + 4 + imm))%Z by lia.
    destruct J as [s' J]. apply nth_error_In in J. apply (la_32 p lay La) in J. set (y := (Z.of_N addr + (Z.of_N pos + 4 + imm))%Z) in *.
    pose proof (Z.mod_pos_bound y (2 ^ 64) ltac:(lia)) as P. assert (P' : (y mod 2 ^ 64 < 2 ^ 32)%Z) by (change (2 ^ 32) with 4294967296 in J; lia).
    f_equal. rewrite <- (Z.mod_small (y mod 2 ^ 64) (2 ^ 32)) by lia. change (2 ^ 64)%Z with (2 ^ 32 * 2 ^ 32)%Z. rewrite Z.rem_mul_r by lia.
    rewrite (Z.mul_comm (2 ^ 32)), Z.mod_add by lia. rewrite Z.mod_mod by lia. reflexivity. }
  exists j. split; [rewrite Q; exact J|]. exists addr, (size (lay i)), a. split; [exact (da_an _ _ _ D)|]. left. exists (Z.of_N pos + 4 + imm)%Z. split; [exact T | exact J].
Qed.
(** ... and so does a branch out of the function. *)
Lemma tail_target_all i addr sym pos x imm : nth_error (pg_defined p) i = Some (addr, sym) -> In (pos, x) (placed 0 (lay i)) -> branch_recorded v7 x = Some imm ->
  inside (size (lay i)) (Z.of_N pos + 4 + imm) = false -> exists j, at_address p j (dest addr pos imm) /\ jumps p i j.
Proof.
  intros Hi I C O. destruct (decode_all i addr sym Hi) as [a D]. pose proof (in_targets (branch_recorded v7) (lay i) pos x imm I C) as T. rewrite <- (da_bs _ _ _ D) in T.
  assert (Tx : pg_text p <> None) by (destruct (da_an _ _ _ D) as [_ [x1 [x2 [x3 [x4 [K _]]]]]]; rewrite K; discriminate).
  assert (Li : (i < length (pg_defined p))%nat) by (apply nth_error_Some; rewrite Hi; discriminate).
  assert (L : addr < 2 ^ 32) by (apply (la_32 p lay La addr sym); exact (nth_error_In _ _ Hi)).
  assert (Lv : leaves addr (size (lay i)) (Z.to_N ((Z.of_N addr + (Z.of_N pos + 4 + imm)) mod 2 ^ 32))).
  { apply leaves_outside; [exact L | exact (proj1 (da_addr _ _ _ D)) | exact (proj2 (da_addr _ _ _ D)) | | exact O]. pose proof (recorded_range _ _ _ C). pose proof (placed_pos_all _ _ _ _ _ D I). lia. }
  destruct (checked_code _ _ _ _ W E i (la_thumb p lay La) Tx Li) as [addr' [size' [a' [A' [_ B]]]]]. destruct (analysed_fun p i _ _ _ _ _ _ (da_an _ _ _ D) A') as [<- [<- <-]].
  destruct (B _ T Lv) as [j J]. exists j. unfold dest. replace (Z.of_N addr + Z.of_N pos + 4 + imm)%Z with (Z.of_N addr + (Z.of_N pos + 4 + imm))%Z by lia.
  split; [exact J|]. exists addr, (size (lay i)), a. split; [exact (da_an _ _ _ D)|]. right. exists (Z.of_N pos + 4 + imm)%Z. split; [exact T|]. split; [exact J | exact Lv].
Qed.
Theorem recorded_edges i addr sym pos x imm : nth_error (pg_defined p) i = Some (addr, sym) -> In (pos, x) (placed 0 (lay i)) ->
  call_imm x = Some imm \/ (branch_recorded v7 x = Some imm /\ inside (size (lay i)) (Z.of_N pos + 4 + imm) = false) ->
  exists j, at_address p j (dest addr pos imm) /\ In (i, j) (gedges (b_g b)).
Proof.
  intros Hi I C. assert (Li : (i < length (pg_defined p))%nat) by (apply nth_error_Some; rewrite Hi; discriminate).
  assert (K : exists j, at_address p j (dest addr pos imm) /\ jumps p i j).
  { destruct C as [C|[C O]]; [exact (call_target_all i addr sym pos x imm Hi I C) | exact (tail_target_all i addr sym pos x imm Hi I C O)]. }
  destruct K as [j [J1 J2]]. exists j. split; [exact J1|]. exact (jumps_edge p demangle o b W Fo E i j Li (at_lt p _ _ J1) J2).
Qed.
Theorem jumps_recorded i j addr sym : nth_error (pg_defined p) i = Some (addr, sym) -> addr + size (lay i) < 2 ^ 32 -> jumps p i j ->
  exists pos x imm, In (pos, x) (placed 0 (lay i)) /\ at_address p j (dest addr pos imm) /\
    (call_imm x = Some imm \/ (branch_recorded v7 x = Some imm /\ inside (size (lay i)) (Z.of_N pos + 4 + imm) = false)).
Proof.
  intros Hi Le [addr' [size' [a' [A' J]]]]. destruct (decode_all i addr sym Hi) as [a D]. destruct (analysed_fun p i _ _ _ _ _ _ (da_an _ _ _ D) A') as [<- [<- <-]].
  assert (Q : forall pos imm, dest addr pos imm = Z.to_N ((Z.of_N addr + (Z.of_N pos + 4 + imm)) mod 2 ^ 32)) by (intros pos imm; unfold dest; do 2 f_equal; lia).
  destruct J as [[off [T J]]|[off [T [J Lv]]]].
  - rewrite (da_bls _ _ _ D) in T. apply in_targets_inv in T. destruct T as [pos [x [imm [T1 [T2 ->]]]]]. exists pos, x, imm. split; [exact T1|]. split; [rewrite Q, <- (dest_64 p lay La _ _ _ J); exact J | left; exact T2].
  - rewrite (da_bs _ _ _ D) in T. apply in_targets_inv in T. destruct T as [pos [x [imm [T1 [T2 ->]]]]]. exists pos, x, imm. split; [exact T1|]. split; [rewrite Q; exact J|]. right. split; [exact T2|].
    exact (leaves_inside _ _ _ Le Lv).
Qed.
(** The usage of a function for which LLVM gives no size is what its instructions are counted for. *)
Theorem own_usage_all i n addr sym : chosen p i n -> nth_error (pg_defined p) i = Some (addr, sym) -> ~ sized p n ->
  exists l, nth_error (gnodes (b_g b)) i = Some (mkNode n l None false) /\
    (existsb (inside (size (lay i))) (targets (branch_recorded v7) (lay i)) = false -> l = LExact (total_counted v7 (placed 0 (lay i)))) /\
    (existsb (inside (size (lay i))) (targets (branch_recorded v7) (lay i)) = true -> some_counted v7 (placed 0 (lay i)) = false -> l = LExact 0) /\
    (existsb (inside (size (lay i))) (targets (branch_recorded v7) (lay i)) = true -> some_counted v7 (placed 0 (lay i)) = true -> l = LUnknown) /\
    ((forall x, In (Ins x) (lay i) -> stack_quirk v7 x = false) ->
       total_counted v7 (placed 0 (lay i)) = total_drop v7 (lay i) /\ some_counted v7 (placed 0 (lay i)) = some_drop v7 (lay i)) /\
    ((forall x, In (Ins x) (lay i) -> lost v7 x = false) -> total_drop v7 (lay i) <= total_counted v7 (placed 0 (lay i))).
Proof.
  intros C Hi Ns. destruct (decode_all i addr sym Hi) as [a D]. destruct D as [A _ _ M S Ok _].
  destruct (build_spec _ _ _ _ W Fo E) as [ks [void [G _]]]. assert (Li : (i < length (pg_defined p))%nat) by (apply nth_error_Some; rewrite Hi; discriminate).
  pose proof (go_real _ _ _ _ G i Li) as Ki. destruct (show_at _ _ _ _ G _ _ Ki) as [nd [Hn No]]. inversion No as [i' n' l C' U| | | |]; subst.
  rewrite (chosen_fun p _ _ _ C' C) in *. exists l. split; [exact Hn|].
  assert (Us : forall l', usage p i l' -> l = l') by (intros l' U'; exact (usage_fun p i _ _ W U U')).
  assert (Lz : llvm_size p i None) by (exists n; split; assumption).
  assert (Fr : forall P Q R T V : Prop, P -> Q -> R -> T -> V -> P /\ Q /\ R /\ T /\ V) by tauto.
  apply Fr; [intros B | intros B Z.. | exact (total_quirk v7 (lay i) Ok) | intros Q; exact (proj1 (total_lost v7 (lay i) Ok Q))]; apply Us; rewrite B in S; clear B Fr.
  - eapply us_ours; eassumption.
  - eapply us_untouched; try eassumption. congruence.
  - eapply us_unknown; try eassumption. congruence.
Qed.
End Built.
End Machine.
