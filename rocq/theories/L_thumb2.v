(** Thumb decoder, part 2: the effect of one instruction. *)
From Verif Require Import M_base M_thumb S_thumb L_base L_thumb.
Local Open Scope N_scope.

Lemma fld_bit w n : fld w n n = 0 \/ fld w n n = 1.
Proof. pose proof (fld_lt w n n). rewrite N.sub_diag in H. change (2 ^ (0 + 1)) with 2 in H. lia. Qed.

(** * Sign extension *)
Lemma sign_extend_spec x n : (0 < n <= 32)%Z -> (0 <= x < 2 ^ n)%Z ->
  sign_extend x n = (if x <? 2 ^ (n - 1) then x else x - 2 ^ n)%Z.
Proof.
  intros Hn Hx. unfold sign_extend. rewrite Z.shiftl_mul_pow2, Z.shiftr_div_pow2 by lia.
  set (p := (2 ^ (32 - n))%Z).
  assert (Hp : (0 < p)%Z) by (apply Z.pow_pos_nonneg; lia).
  assert (E1 : (2 ^ 32 = 2 ^ n * p)%Z) by (unfold p; rewrite <- Z.pow_add_r by lia; f_equal; lia).
  assert (E2 : (2 ^ 31 = 2 ^ (n - 1) * p)%Z) by (unfold p; rewrite <- Z.pow_add_r by lia; f_equal; lia).
  assert (E3 : (2 ^ n = 2 * 2 ^ (n - 1))%Z).
  { replace n with (Z.succ (n - 1)) at 1 by lia. rewrite Z.pow_succ_r by lia. reflexivity. }
  unfold wrap32. rewrite E1, E2. set (m := (2 ^ (n - 1))%Z) in *.
  rewrite <- Z.mul_add_distr_r, Z.mul_mod_distr_r by nia.
  rewrite <- Z.mul_sub_distr_r, Z.div_mul by lia.
  destruct (Z.ltb_spec x m).
  - rewrite Z.mod_small by lia. lia.
  - rewrite E3 in *. replace (x + m)%Z with (x - m + 1 * (2 * m))%Z by lia.
    rewrite Z.mod_add by lia. rewrite Z.mod_small by lia. lia.
Qed.

Lemma b2z_eqb1 x : (x = 0 \/ x = 1) -> b2z (x =? 1) = Z.of_N x.
Proof. intros [-> | ->]; reflexivity. Qed.

Lemma sext_spec n x : 0 < n -> n <= 32 -> x < 2 ^ n -> sign_extend (Z.of_N x) (Z.of_N n) = sext n x.
Proof.
  intros H0 Hn Hx. rewrite sign_extend_spec.
  - unfold sext. replace (2 ^ (Z.of_N n - 1))%Z with (Z.of_N (2 ^ (n - 1))) by (rewrite N2Z.inj_pow; f_equal; lia).
    destruct (N.ltb_spec x (2 ^ (n - 1))); destruct (Z.ltb_spec (Z.of_N x) (Z.of_N (2 ^ (n - 1)))); lia.
  - lia.
  - split; [lia|]. replace (2 ^ Z.of_N n)%Z with (Z.of_N (2 ^ n)) by (rewrite N2Z.inj_pow; reflexivity). lia.
Qed.

Lemma lxor1_spec a b : (a = 0 \/ a = 1) -> (b = 0 \/ b = 1) ->
  b2z (negb (xorb (a =? 1) (b =? 1))) = Z.of_N (lnot1 (lxor1 a b)).
Proof. intros [-> | ->] [-> | ->]; reflexivity. Qed.

Lemma bits5 s a b c d : (s = 0 \/ s = 1) -> (a = 0 \/ a = 1) -> (b = 0 \/ b = 1) -> c < 2 ^ 10 -> d < 2 ^ 11 ->
  Z.lor (Z.lor (Z.lor (Z.lor (Z.shiftl (Z.of_N s) 24) (Z.shiftl (Z.of_N a) 23)) (Z.shiftl (Z.of_N b) 22))
               (Z.shiftl (Z.of_N c) 12)) (Z.shiftl (Z.of_N d) 1)
  = Z.of_N (s * 2 ^ 24 + a * 2 ^ 23 + b * 2 ^ 22 + c * 2 ^ 12 + d * 2).
Proof.
  intros Hs Ha Hb Hc Hd. rewrite <- !Z.lor_assoc.
  change (2 ^ 10) with 1024 in Hc. change (2 ^ 11) with 2048 in Hd.
  rewrite (Z.shiftl_mul_pow2 (Z.of_N d)) by lia.
  change (2 ^ 1)%Z with 2%Z.
  rewrite (lor_disjoint (Z.of_N c)) by (change (2 ^ 12)%Z with 4096%Z; lia).
  change (2 ^ 12)%Z with 4096%Z.
  rewrite (lor_disjoint (Z.of_N b)) by (change (2 ^ 22)%Z with 4194304%Z; lia).
  change (2 ^ 22)%Z with 4194304%Z.
  rewrite (lor_disjoint (Z.of_N a)) by (change (2 ^ 23)%Z with 8388608%Z; lia).
  change (2 ^ 23)%Z with 8388608%Z.
  rewrite (lor_disjoint (Z.of_N s)) by (change (2 ^ 24)%Z with 16777216%Z; lia).
  change (2 ^ 24)%Z with 16777216%Z.
  change (2 ^ 24) with 16777216. change (2 ^ 23) with 8388608. change (2 ^ 22) with 4194304. change (2 ^ 12) with 4096.
  lia.
Qed.
Lemma bits5' s a b c d : (s = 0 \/ s = 1) -> (a = 0 \/ a = 1) -> (b = 0 \/ b = 1) -> c < 2 ^ 6 -> d < 2 ^ 11 ->
  Z.lor (Z.lor (Z.lor (Z.lor (Z.shiftl (Z.of_N s) 20) (Z.shiftl (Z.of_N a) 19)) (Z.shiftl (Z.of_N b) 18))
               (Z.shiftl (Z.of_N c) 12)) (Z.shiftl (Z.of_N d) 1)
  = Z.of_N (s * 2 ^ 20 + a * 2 ^ 19 + b * 2 ^ 18 + c * 2 ^ 12 + d * 2).
Proof.
  intros Hs Ha Hb Hc Hd. rewrite <- !Z.lor_assoc.
  change (2 ^ 6) with 64 in Hc. change (2 ^ 11) with 2048 in Hd.
  rewrite (Z.shiftl_mul_pow2 (Z.of_N d)) by lia.
  change (2 ^ 1)%Z with 2%Z.
  rewrite (lor_disjoint (Z.of_N c)) by (change (2 ^ 12)%Z with 4096%Z; lia).
  change (2 ^ 12)%Z with 4096%Z.
  rewrite (lor_disjoint (Z.of_N b)) by (change (2 ^ 18)%Z with 262144%Z; lia).
  change (2 ^ 18)%Z with 262144%Z.
  rewrite (lor_disjoint (Z.of_N a)) by (change (2 ^ 19)%Z with 524288%Z; lia).
  change (2 ^ 19)%Z with 524288%Z.
  rewrite (lor_disjoint (Z.of_N s)) by (change (2 ^ 20)%Z with 1048576%Z; lia).
  change (2 ^ 20)%Z with 1048576%Z.
  change (2 ^ 20) with 1048576. change (2 ^ 19) with 524288. change (2 ^ 18) with 262144. change (2 ^ 12) with 4096.
  lia.
Qed.

Lemma lnot1_bit x : lnot1 (x mod 2) = 0 \/ lnot1 (x mod 2) = 1.
Proof. unfold lnot1. assert (H : x mod 2 < 2) by (apply N.mod_lt; lia). set (r := x mod 2) in *. clearbody r. lia. Qed.

(** The 25-bit immediate. *)
Lemma imm25_spec w v : w < 2 ^ 16 -> v < 2 ^ 16 ->
  sign_extend (imm25 (fld w 10 10 =? 1) (fld v 13 13 =? 1) (fld v 11 11 =? 1)
                     (Z.of_N (fld w 9 0)) (Z.of_N (fld v 10 0))) 25 = imm_24 w v.
Proof.
  intros Hw Hv. unfold imm25. cbv zeta.
  rewrite !lxor1_spec by apply fld_bit. rewrite b2z_eqb1 by apply fld_bit.
  rewrite bits5; [|apply fld_bit|apply lnot1_bit|apply lnot1_bit|apply (fld_lt w 9 0)|apply (fld_lt v 10 0)].
  unfold imm_24. cbv zeta. apply (sext_spec 25); [lia|lia|].
  pose proof (fld_lt w 9 0) as B1. pose proof (fld_lt v 10 0) as B2. change (2 ^ (9 - 0 + 1)) with 1024 in B1.
  change (2 ^ (10 - 0 + 1)) with 2048 in B2.
  pose proof (fld_bit w 10). pose proof (lnot1_bit (fld v 13 13 + fld w 10 10)).
  pose proof (lnot1_bit (fld v 11 11 + fld w 10 10)). unfold lxor1.
  set (i1 := lnot1 ((fld v 13 13 + fld w 10 10) mod 2)) in *. set (i2 := lnot1 ((fld v 11 11 + fld w 10 10) mod 2)) in *.
  clearbody i1 i2.
  change (2 ^ 25) with 33554432.
  change (2 ^ 24) with 16777216. change (2 ^ 23) with 8388608. change (2 ^ 22) with 4194304. change (2 ^ 12) with 4096.
  lia.
Qed.

Lemma imm21_spec w v : w < 2 ^ 16 -> v < 2 ^ 16 ->
  sign_extend
      (Z.lor (Z.lor (Z.lor (Z.lor (Z.shiftl (b2z (fld w 10 10 =? 1)) 20)
                                 (Z.shiftl (b2z (fld v 13 13 =? 1)) 19))
                          (Z.shiftl (b2z (fld v 11 11 =? 1)) 18))
                   (Z.shiftl (Z.of_N (fld w 5 0)) 12)) (Z.shiftl (Z.of_N (fld v 10 0)) 1)) 21 = imm_t3_swapped w v.
Proof.
  intros Hw Hv. rewrite !b2z_eqb1 by apply fld_bit.
  rewrite bits5'; [|apply fld_bit|apply fld_bit|apply fld_bit|apply (fld_lt w 5 0)|apply (fld_lt v 10 0)].
  unfold imm_t3_swapped. apply (sext_spec 21); [lia|lia|].
  pose proof (fld_lt w 5 0) as B1. pose proof (fld_lt v 10 0) as B2. change (2 ^ (5 - 0 + 1)) with 64 in B1.
  change (2 ^ (10 - 0 + 1)) with 2048 in B2.
  pose proof (fld_bit w 10). pose proof (fld_bit v 11). pose proof (fld_bit v 13).
  change (2 ^ 21) with 2097152.
  change (2 ^ 20) with 1048576. change (2 ^ 19) with 524288. change (2 ^ 18) with 262144. change (2 ^ 12) with 4096.
  lia.
Qed.

(** * Bounds of the immediates, and no wrap-around *)
Lemma sext_bound n x : 0 < n -> x < 2 ^ n -> (- 2 ^ (Z.of_N n - 1) <= sext n x < 2 ^ (Z.of_N n - 1))%Z.
Proof.
  intros Hn Hx. unfold sext.
  assert (E : Z.of_N (2 ^ (n - 1)) = (2 ^ (Z.of_N n - 1))%Z) by (rewrite N2Z.inj_pow; f_equal; lia).
  assert (E2 : (2 ^ Z.of_N n = 2 * 2 ^ (Z.of_N n - 1))%Z).
  { replace (Z.of_N n) with (Z.succ (Z.of_N n - 1)) at 1 by lia. apply Z.pow_succ_r. lia. }
  assert (E3 : Z.of_N (2 ^ n) = (2 ^ Z.of_N n)%Z) by (rewrite N2Z.inj_pow; reflexivity).
  destruct (N.ltb_spec x (2 ^ (n - 1))); lia.
Qed.
Lemma imm_24_bound w v : (- 2 ^ 24 <= imm_24 w v < 2 ^ 24)%Z.
Proof.
  unfold imm_24. cbv zeta. apply (sext_bound 25); [lia|].
  pose proof (fld_lt w 9 0) as B1. pose proof (fld_lt v 10 0) as B2. change (2 ^ (9 - 0 + 1)) with 1024 in B1.
  change (2 ^ (10 - 0 + 1)) with 2048 in B2.
  pose proof (fld_bit w 10). pose proof (lnot1_bit (fld v 13 13 + fld w 10 10)).
  pose proof (lnot1_bit (fld v 11 11 + fld w 10 10)). unfold lxor1.
  set (i1 := lnot1 ((fld v 13 13 + fld w 10 10) mod 2)) in *. set (i2 := lnot1 ((fld v 11 11 + fld w 10 10) mod 2)) in *.
  clearbody i1 i2.
  change (2 ^ 25) with 33554432.
  change (2 ^ 24) with 16777216. change (2 ^ 23) with 8388608. change (2 ^ 22) with 4194304. change (2 ^ 12) with 4096.
  lia.
Qed.
Lemma imm_t3_bound w v : (- 2 ^ 24 <= imm_t3_swapped w v < 2 ^ 24)%Z.
Proof.
  assert (H : (- 2 ^ 20 <= imm_t3_swapped w v < 2 ^ 20)%Z).
  { unfold imm_t3_swapped. apply (sext_bound 21); [lia|].
    pose proof (fld_lt w 5 0) as B1. pose proof (fld_lt v 10 0) as B2. change (2 ^ (5 - 0 + 1)) with 64 in B1.
    change (2 ^ (10 - 0 + 1)) with 2048 in B2.
    pose proof (fld_bit w 10). pose proof (fld_bit v 11). pose proof (fld_bit v 13).
    change (2 ^ 21) with 2097152.
    change (2 ^ 20) with 1048576. change (2 ^ 19) with 524288. change (2 ^ 18) with 262144. change (2 ^ 12) with 4096.
    lia. }
  change (2 ^ 24)%Z with 16777216%Z. change (2 ^ 20)%Z with 1048576%Z in H. lia.
Qed.
Lemma sext_small n x : 0 < n -> n <= 24 -> x < 2 ^ n -> (- 2 ^ 24 <= sext n x < 2 ^ 24)%Z.
Proof.
  intros H0 Hn Hx. pose proof (sext_bound n x H0 Hx).
  assert (2 ^ (Z.of_N n - 1) <= 2 ^ 24)%Z by (apply Z.pow_le_mono_r; lia). lia.
Qed.

Lemma wrap32_id z : (- 2 ^ 31 <= z < 2 ^ 31)%Z -> wrap32 z = z.
Proof. intros H. unfold wrap32. rewrite Z.mod_small; lia. Qed.
Lemma target_no_wrap imm i : i < 2 ^ 29 -> (- 2 ^ 24 <= imm < 2 ^ 24)%Z ->
  wrap32 (imm + (2 * Z.of_N i + 4)) = (Z.of_N (2 * i) + 4 + imm)%Z.
Proof.
  intros Hi Hm. change (2 ^ 29) with 536870912 in Hi. change (2 ^ 24)%Z with 16777216%Z in Hm.
  rewrite wrap32_id; [lia|]. change (2 ^ 31)%Z with 2147483648%Z. lia.
Qed.

(** * The effect of one instruction, in terms of the reference *)
Definition eff (v7 : bool) (len : N) (p : N * instr) (s : st) : st :=
  mkSt (bls s ++ target call_imm p)
       (bs s ++ target (branch_recorded v7) p)
       (indirect s || is_indirect (snd p))
       (modifies_sp s || match counted v7 (snd p) with Some _ => true | None => false end)
       (if existsb (inside len) (target (branch_recorded v7) p) then None
        else match stack s with
             | Some k => Some (match counted v7 (snd p) with Some d => (k + d) mod two64 | None => k end)
             | None => None
             end).

Lemma inside_test len z : ((0 <=? z) && (z <? Z.of_N len))%Z = inside len z.
Proof. reflexivity. Qed.

Lemma eff_nop v7 len p s :
  call_imm (snd p) = None -> branch_recorded v7 (snd p) = None -> is_indirect (snd p) = false ->
  counted v7 (snd p) = None -> eff v7 len p s = s.
Proof.
  intros A B C D. unfold eff, target. rewrite A, B, C, D. cbn [existsb]. rewrite !app_nil_r, !orb_false_r.
  destruct s as [x1 x2 x3 x4 x5]. cbn. destruct x5; reflexivity.
Qed.
Lemma eff_b v7 len i s ins imm :
  call_imm ins = None -> branch_recorded v7 ins = Some imm -> is_indirect ins = false -> counted v7 ins = None ->
  i < 2 ^ 29 -> (- 2 ^ 24 <= imm < 2 ^ 24)%Z ->
  push_b imm (Z.of_N i) (Z.of_N len) s = eff v7 len (2 * i, ins) s.
Proof.
  intros A B C D Hi Hm. unfold eff, target, push_b. cbn [snd fst]. rewrite A, B, C, D. cbv zeta.
  rewrite target_no_wrap by assumption. cbn [existsb]. rewrite orb_false_r, app_nil_r, !orb_false_r.
  rewrite inside_test. destruct s as [x1 x2 x3 x4 x5]. cbn.
  destruct (inside len _); [reflexivity|]. destruct x5; reflexivity.
Qed.
Lemma eff_bl v7 len i s ins imm :
  call_imm ins = Some imm -> branch_recorded v7 ins = None -> is_indirect ins = false -> counted v7 ins = None ->
  i < 2 ^ 29 -> (- 2 ^ 24 <= imm < 2 ^ 24)%Z ->
  push_bl imm (Z.of_N i) s = eff v7 len (2 * i, ins) s.
Proof.
  intros A B C D Hi Hm. unfold eff, target, push_bl. cbn [snd fst]. rewrite A, B, C, D.
  rewrite target_no_wrap by assumption. cbn [existsb]. rewrite app_nil_r, !orb_false_r.
  destruct s as [x1 x2 x3 x4 x5]. cbn. destruct x5; reflexivity.
Qed.
Lemma eff_ind v7 len p s :
  call_imm (snd p) = None -> branch_recorded v7 (snd p) = None -> is_indirect (snd p) = true ->
  counted v7 (snd p) = None -> set_indirect s = eff v7 len p s.
Proof.
  intros A B C D. unfold eff, target, set_indirect. rewrite A, B, C, D. cbn [existsb].
  rewrite !app_nil_r, !orb_false_r, orb_true_r.
  destruct s as [x1 x2 x3 x4 x5]. cbn. destruct x5; reflexivity.
Qed.
Lemma eff_sp v7 len p s d :
  call_imm (snd p) = None -> branch_recorded v7 (snd p) = None -> is_indirect (snd p) = false ->
  counted v7 (snd p) = Some d -> lower_sp d s = eff v7 len p s.
Proof.
  intros A B C D. unfold eff, target, lower_sp. rewrite A, B, C, D. cbn [existsb].
  rewrite !app_nil_r, !orb_false_r, orb_true_r.
  destruct s as [x1 x2 x3 x4 x5]. cbn. destruct x5; reflexivity.
Qed.

(** 16-bit instructions. *)
(** Which tests of the reference exclude each other. *)
Lemma excl_form w a b : taut 16 (fimp a (fnot b)) = true ->
  eval (N.testbit w) a = true -> eval (N.testbit w) b = false.
Proof.
  intros H Ha. apply (taut_sound (N.testbit w)) in H. unfold fimp, fnot in H. cbn [eval] in H.
  rewrite Ha in H. destruct (eval _ b); [discriminate | reflexivity].
Qed.
Ltac excl f g Hw := apply (excl_form _ f g); [vm_compute; reflexivity|];
  unfold fand, for_; cbn [eval]; rewrite ?b1_f, ?eval_ffld by reflexivity; assumption.

Definition f_b12 : form := for_ f_b1 (ffld 15 11 28).
Definition f_bx : form := for_ (ffld 15 7 143) (ffld 15 7 142).
Definition f_p1 : form := fand (ffld 15 6 932) (ffld 4 4 0).
Definition f_p3 : form := fand (ffld 15 7 474) (ffld 5 0 45).
Lemma b12_f w : eval (N.testbit w) f_b12 = is_b1 w || is_b2 w.
Proof. unfold f_b12, for_. cbn [eval]. rewrite b1_f, eval_ffld by reflexivity. reflexivity. Qed.
Lemma bx_f w : eval (N.testbit w) f_bx = (fld w 15 7 =? 143) || (fld w 15 7 =? 142).
Proof. unfold f_bx, for_. cbn [eval]. rewrite !eval_ffld by reflexivity. reflexivity. Qed.
Lemma p1_f w : eval (N.testbit w) f_p1 = (fld w 15 6 =? 932) && (fld w 4 4 =? 0).
Proof. unfold f_p1, fand. cbn [eval]. rewrite !eval_ffld by reflexivity. reflexivity. Qed.
Lemma p3_f w : eval (N.testbit w) f_p3 = (fld w 15 7 =? 474) && (fld w 5 0 =? 45).
Proof. unfold f_p3, fand. cbn [eval]. rewrite !eval_ffld by reflexivity. reflexivity. Qed.

Lemma excl_branch w : w < 2 ^ 16 -> is_b1 w || is_b2 w = true ->
  is_indirect (I16 w) = false /\ is_push w = false /\ is_sub1 w = false.
Proof.
  intros Hw Hb. rewrite <- b12_f in Hb.
  pose proof (excl_form w f_b12 f_bx ltac:(vm_compute; reflexivity) Hb) as X1. rewrite bx_f in X1.
  pose proof (excl_form w f_b12 (ffld 15 9 90) ltac:(vm_compute; reflexivity) Hb) as X2.
  pose proof (excl_form w f_b12 (ffld 15 7 353) ltac:(vm_compute; reflexivity) Hb) as X3.
  rewrite eval_ffld in X2, X3 by reflexivity. apply orb_false_iff in X1. destruct X1 as [Xa Xb].
  unfold is_push, is_sub1. cbn [is_indirect]. rewrite Xa, Xb, X2, X3. repeat split.
Qed.
Lemma excl_bx w : w < 2 ^ 16 -> (fld w 15 7 =? 143) || (fld w 15 7 =? 142) = true ->
  is_push w = false /\ is_sub1 w = false.
Proof.
  intros Hw Hb. rewrite <- bx_f in Hb.
  pose proof (excl_form w f_bx (ffld 15 9 90) ltac:(vm_compute; reflexivity) Hb) as X2.
  pose proof (excl_form w f_bx (ffld 15 7 353) ltac:(vm_compute; reflexivity) Hb) as X3.
  rewrite eval_ffld in X2, X3 by reflexivity. split; assumption.
Qed.
Lemma excl_p1 w : w < 2 ^ 16 -> (fld w 15 6 =? 932) && (fld w 4 4 =? 0) = true ->
  (fld w 15 11 =? 30) = false /\ (fld w 15 7 =? 474) && (fld w 5 0 =? 45) = false /\ (w =? 63565) = false.
Proof.
  intros Hw Hb. rewrite <- p1_f in Hb.
  pose proof (excl_form w f_p1 (ffld 15 11 30) ltac:(vm_compute; reflexivity) Hb) as X1.
  pose proof (excl_form w f_p1 f_p3 ltac:(vm_compute; reflexivity) Hb) as X2.
  pose proof (excl_form w f_p1 (ffld 15 0 63565) ltac:(vm_compute; reflexivity) Hb) as X3.
  rewrite eval_ffld in X1, X3 by reflexivity. rewrite p3_f in X2. rewrite whole in X3 by exact Hw. tauto.
Qed.
Lemma excl_p3 w : w < 2 ^ 16 -> (fld w 15 7 =? 474) && (fld w 5 0 =? 45) = true ->
  (fld w 15 11 =? 30) = false /\ (w =? 63565) = false.
Proof.
  intros Hw Hb. rewrite <- p3_f in Hb.
  pose proof (excl_form w f_p3 (ffld 15 11 30) ltac:(vm_compute; reflexivity) Hb) as X1.
  pose proof (excl_form w f_p3 (ffld 15 0 63565) ltac:(vm_compute; reflexivity) Hb) as X3.
  rewrite eval_ffld in X1, X3 by reflexivity. rewrite whole in X3 by exact Hw. tauto.
Qed.
Lemma excl_str w : w < 2 ^ 16 -> (w =? 63565) = true -> (fld w 15 11 =? 30) = false.
Proof. intros Hw Hb. apply N.eqb_eq in Hb. subst w. reflexivity. Qed.
Lemma excl_sub w : w < 2 ^ 16 -> (fld w 9 5 =? 13) = true -> (fld w 9 0 =? 685) = false.
Proof.
  intros Hw Hb. rewrite <- eval_ffld in Hb by reflexivity. rewrite <- eval_ffld by reflexivity.
  revert Hb. apply excl_form. vm_compute. reflexivity.
Qed.
Lemma excl_top w : w < 2 ^ 16 -> (fld w 15 15 =? 0) = true ->
  (fld w 15 14 =? 2) = false /\ (fld w 15 14 =? 3) = false.
Proof.
  intros Hw Hb. rewrite <- eval_ffld in Hb by reflexivity. rewrite <- !eval_ffld by reflexivity.
  split; revert Hb; apply excl_form; vm_compute; reflexivity.
Qed.

Lemma exec16_ok v7 len i w s : w < 2 ^ 16 -> i < 2 ^ 29 ->
  exec16 (spec_kind w) (hw w) (Z.of_N i) (Z.of_N len) s = Ret (eff v7 len (2 * i, I16 w) s).
Proof.
  intros Hw Hi. pose proof (flds_ok w Hw) as F.
  assert (L7 : fld w 7 0 < 256) by apply (fld_lt w 7 0).
  assert (L10 : fld w 10 0 < 2048) by apply (fld_lt w 10 0).
  assert (DB : forall x, Z.shiftl (Z.of_N x) 1 = Z.of_N (x * 2)).
  { intros x. rewrite Z.shiftl_mul_pow2 by lia. change (2 ^ 1)%Z with 2%Z. lia. }
  assert (C1 : is_b1 w = true -> (N.land (w1 (hw w)) 15 =? 14) = false /\ (N.land (w1 (hw w)) 15 =? 15) = false /\
     (sign_extend (Z.shiftl (Z.of_N (w0 (hw w))) 1) 9 = sext 9 (fld w 7 0 * 2))%Z).
  { intros B. rewrite (ft4 _ F), (ft1 _ F), DB. unfold is_b1 in B. apply andb_true_iff in B. destruct B as [_ B].
    apply N.ltb_lt in B. split; [apply N.eqb_neq; lia|]. split; [apply N.eqb_neq; lia|].
    apply (sext_spec 9); [lia|lia|]. change (2 ^ 9) with 512. lia. }
  assert (C2 : (sign_extend (Z.shiftl (Z.lor (Z.shiftl (Z.of_N (N.land (w1 (hw w)) 7)) 8) (Z.of_N (w0 (hw w)))) 1) 12
      = sext 12 (fld w 10 0 * 2))%Z).
  { pose proof (ft13 _ F) as E. unfold low11 in E. rewrite E, DB.
    apply (sext_spec 12); [lia|lia|]. change (2 ^ 12) with 4096. lia. }
  assert (C3 : N.land (N.shiftr (w0 (hw w)) 3) 15 = fld w 6 3) by apply (ft17 _ F).
  assert (C4 : 4 * count_ones (N.lor (N.shiftl (N.land (w1 (hw w)) 1) 14) (w0 (hw w))) = 4 * bits 9 (fld w 8 0))
    by (rewrite (ft19 _ F); reflexivity).
  assert (C5 : N.shiftl (N.land (w0 (hw w)) 127) 2 = 4 * fld w 6 0).
  { rewrite (ft18 _ F), N.shiftl_mul_pow2. change (2 ^ 2) with 4. apply N.mul_comm. }
  unfold spec_kind. destruct (is_b1 w) eqn:B1.
  { destruct (excl_branch w Hw) as [X1 [X2 X3]]; [rewrite B1; reflexivity|].
    destruct (C1 eq_refl) as [C1a [C1b C1c]].
    unfold exec16. rewrite C1a, C1b, C1c. f_equal. apply eff_b; try assumption; try reflexivity.
    - cbn [branch_recorded branch_imm]. rewrite B1. reflexivity.
    - cbn [counted sp_drop]. rewrite X2, X3. reflexivity.
    - apply sext_small; [lia|lia|]. pose proof (fld_lt w 7 0) as L. change (2 ^ (7 - 0 + 1)) with 256 in L.
      change (2 ^ 9) with 512. lia. }
  destruct (is_b2 w) eqn:B2.
  { destruct (excl_branch w Hw) as [X1 [X2 X3]]; [rewrite B1, B2; reflexivity|].
    unfold exec16. rewrite C2. f_equal. apply eff_b; try assumption; try reflexivity.
    - cbn [branch_recorded branch_imm]. rewrite B1, B2. reflexivity.
    - cbn [counted sp_drop]. rewrite X2, X3. reflexivity.
    - apply sext_small; [lia|lia|]. pose proof (fld_lt w 10 0) as L. change (2 ^ (10 - 0 + 1)) with 2048 in L.
      change (2 ^ 12) with 4096. lia. }
  assert (BI : branch_recorded v7 (I16 w) = None) by (cbn [branch_recorded branch_imm]; rewrite B1, B2; reflexivity).
  destruct (fld w 15 7 =? 143) eqn:I1.
  { destruct (excl_bx w Hw) as [X2 X3]; [rewrite I1; reflexivity|].
    unfold exec16. f_equal. apply eff_ind; cbn [snd]; try assumption; try reflexivity.
    - cbn [is_indirect]. rewrite I1. reflexivity.
    - cbn [counted sp_drop]. rewrite X2, X3. reflexivity. }
  destruct (fld w 15 7 =? 142) eqn:I2.
  { destruct (excl_bx w Hw) as [X2 X3]; [rewrite I2; apply orb_true_r|].
    assert (SD : counted v7 (I16 w) = None) by (cbn [counted sp_drop]; rewrite X2, X3; reflexivity).
    unfold exec16. cbv zeta. rewrite C3. f_equal. destruct (fld w 6 3 =? 14) eqn:I3.
    - symmetry. apply eff_nop; cbn [snd]; try assumption; try reflexivity.
      cbn [is_indirect]. rewrite I1, I2, I3. reflexivity.
    - apply eff_ind; cbn [snd]; try assumption; try reflexivity.
      cbn [is_indirect]. rewrite I1, I2, I3. reflexivity. }
  assert (II : is_indirect (I16 w) = false) by (cbn [is_indirect]; rewrite I1, I2; reflexivity).
  destruct (is_push w) eqn:P1.
  { unfold exec16. cbv zeta. rewrite C4. f_equal. apply eff_sp; cbn [snd]; try assumption; try reflexivity.
    cbn [counted sp_drop]. rewrite P1. reflexivity. }
  destruct (is_sub1 w) eqn:P2.
  { unfold exec16. cbv zeta. rewrite C5. f_equal. apply eff_sp; cbn [snd]; try assumption; try reflexivity.
    cbn [counted sp_drop]. rewrite P1, P2. reflexivity. }
  cbn [exec16]. f_equal. symmetry. apply eff_nop; cbn [snd]; try assumption; try reflexivity.
  cbn [counted sp_drop]. rewrite P1, P2. reflexivity.
Qed.

(** 32-bit instructions. *)
Lemma match2_compile g a p b q cpp cq : compile (lit p) = Some cpp -> compile (lit q) = Some cq ->
  match2 g a p b q = Ret (g && ctest a cpp && ctest b cq).
Proof.
  intros Hp Hq. unfold match2. destruct g; [|reflexivity].
  rewrite (matches_compile _ _ _ Hp). cbn [bind andb]. destruct (ctest a cpp); [|reflexivity].
  rewrite (matches_compile _ _ _ Hq). reflexivity.
Qed.
