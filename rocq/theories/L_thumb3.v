(** Thumb decoder, part 3: 32-bit instructions and the loop. *)
From Verif Require Import M_base M_thumb S_thumb L_base L_thumb L_thumb2.
Local Open Scope N_scope.

Lemma imm12_lor w v : N.lor (N.lor (N.shiftl (fld w 10 10) 11) (N.shiftl (fld v 14 12) 8)) (fld v 7 0)
  = imm12_of w v /\ imm12_of w v < 4096.
Proof.
  pose proof (fld_bit w 10) as A. pose proof (fld_lt v 14 12) as B. pose proof (fld_lt v 7 0) as C.
  change (2 ^ (14 - 12 + 1)) with 8 in B. change (2 ^ (7 - 0 + 1)) with 256 in C.
  unfold imm12_of. change (2 ^ 11) with 2048. change (2 ^ 8) with 256. split; [|lia].
  rewrite !N.shiftl_mul_pow2. change (2 ^ 11) with 2048. change (2 ^ 8) with 256.
  assert (L : forall x y k, y < 2 ^ k -> N.lor (x * 2 ^ k) y = x * 2 ^ k + y).
  { intros x y k Hy. apply N2Z.inj. rewrite N2Z.inj_add, N2Z.inj_mul, N2Z.inj_pow.
    rewrite <- lor_disjoint with (n := Z.of_N k); [|lia|].
    - rewrite Z.shiftl_mul_pow2 by lia.
      change (Z.of_N 2 ^ Z.of_N k)%Z with (2 ^ Z.of_N k)%Z.
      replace (Z.of_N x * 2 ^ Z.of_N k)%Z with (Z.of_N (x * 2 ^ k)) by (rewrite N2Z.inj_mul, N2Z.inj_pow; reflexivity).
      destruct (x * 2 ^ k), y; reflexivity.
    - split; [lia|]. replace (2 ^ Z.of_N k)%Z with (Z.of_N (2 ^ k)) by (rewrite N2Z.inj_pow; reflexivity). lia. }
  rewrite <- N.lor_assoc. pose proof (L (fld v 14 12) (fld v 7 0) 8 C) as L1. change (2 ^ 8) with 256 in L1. rewrite L1.
  pose proof (L (fld w 10 10) (fld v 14 12 * 256 + fld v 7 0) 11) as L2. change (2 ^ 11) with 2048 in L2.
  rewrite L2 by lia. lia.
Qed.
Lemma imm12_low w v : v < 2 ^ 16 -> fld (imm12_of w v) 7 0 = fld v 7 0.
Proof.
  intros Hv. unfold imm12_of. unfold fld at 1. change (2 ^ 0) with 1. rewrite N.div_1_r.
  change (2 ^ (7 - 0 + 1)) with 256. change (2 ^ 11) with (8 * 256). change (2 ^ 8) with 256.
  rewrite N.mul_assoc, <- N.mul_add_distr_r, N.add_comm, N.mod_add by lia.
  apply N.mod_small. apply (fld_lt v 7 0).
Qed.

Lemma exec32_ok v7 len i w v s : w < 2 ^ 16 -> v < 2 ^ 16 -> i < 2 ^ 29 ->
  exec32 v7 (hw w) (hw v) (Z.of_N i) (Z.of_N len) s = Ret (eff v7 len (2 * i, I32 w v) s).
Proof.
  intros Hw Hv Hi. unfold exec32.
  pose proof (pats_ok w Hw) as Pw. pose proof (pats_ok v Hv) as Pv.
  pose proof (flds_ok w Hw) as Fw. pose proof (flds_ok v Hv) as Fv.
  rewrite (match2_compile _ _ _ _ _ c1 d1) by reflexivity.
  rewrite (match2_compile _ _ _ _ _ c2 d2) by reflexivity.
  rewrite (match2_compile _ _ _ _ _ c3 d3) by reflexivity.
  rewrite (match2_compile _ _ _ _ _ c3 d4) by reflexivity.
  rewrite (match2_compile _ _ _ _ _ c4 d5) by reflexivity.
  rewrite (match2_compile _ _ _ _ _ c4 d6) by reflexivity.
  rewrite (match2_compile _ _ _ _ _ c4 d7) by reflexivity.
  rewrite (match2_compile _ _ _ _ _ c5 d8) by reflexivity.
  cbn [bind].
  rewrite (pt1 _ Pw), (pt2 _ Pw), (pt3 _ Pw), (pt4 _ Pw), (pt5 _ Pw).
  rewrite (qt1 _ Pv), (qt2 _ Pv), (qt3 _ Pv), (qt4 _ Pv), (qt5 _ Pv), (qt6 _ Pv), (qt7 _ Pv), (qt8 _ Pv).
  pose proof (str_split _ Pw) as SS. pose proof (vpush_split _ Pv) as VS. clear Pw Pv.
  cbv zeta.
  (* STMDB *)
  destruct (v7 && ((fld w 15 6 =? 932) && (fld w 4 4 =? 0)) && ((fld v 15 15 =? 0) && (fld v 13 13 =? 0))) eqn:T1.
  { apply andb_true_iff in T1. destruct T1 as [T1 T1v]. apply andb_true_iff in T1. destruct T1 as [-> T1].
    destruct (excl_p1 w Hw T1) as [X1 [X2 X3]].
    assert (CI : call_imm (I32 w v) = None) by (cbn [call_imm]; unfold is_bl; rewrite X1; reflexivity).
    assert (BI : branch_recorded true (I32 w v) = None)
      by (cbn [branch_recorded branch_imm]; unfold is_b3, is_b4; rewrite X1; reflexivity).
    assert (S2 : is_sub2 w v = false) by (unfold is_sub2; rewrite X1; reflexivity).
    assert (S3 : is_sub3 w v = false) by (unfold is_sub3; rewrite X1; reflexivity).
    assert (VP : is_vpush w v = false) by (unfold is_vpush; rewrite X2; reflexivity).
    assert (ST : is_str_sp w v = false) by (unfold is_str_sp; rewrite X3; reflexivity).
    apply andb_true_iff in T1. destruct T1 as [T1a T1b]. apply andb_true_iff in T1v. destruct T1v as [T1c T1d].
    rewrite (ft3 _ Fw). destruct (fld w 3 0 =? 13) eqn:R.
    - f_equal. rewrite (ft5 _ Fv).
      assert (SB : is_stmdb_sp w v = true) by (unfold is_stmdb_sp; rewrite T1a, T1b, T1c, T1d, R; reflexivity).
      apply eff_sp; try assumption; try reflexivity. cbn [snd counted andb]. rewrite SB. reflexivity.
    - f_equal. symmetry. apply eff_nop; try assumption; try reflexivity.
      cbn [snd counted andb].
      assert (SB : is_stmdb_sp w v = false) by (unfold is_stmdb_sp; rewrite R, !andb_false_r; reflexivity).
      rewrite SB, S2, VP, ST. reflexivity. }
  (* SUB SP, T2 *)
  destruct (v7 && ((fld w 15 11 =? 30) && (fld w 9 5 =? 13) && (fld w 3 0 =? 13)) && (fld v 15 15 =? 0)) eqn:T2.
  { apply andb_true_iff in T2. destruct T2 as [T2 T2d]. apply andb_true_iff in T2. destruct T2 as [-> T2].
    apply andb_true_iff in T2. destruct T2 as [T2 T2c]. apply andb_true_iff in T2. destruct T2 as [T2a T2b].
    destruct (excl_top v Hv T2d) as [Y1 Y2]. pose proof (excl_sub w Hw T2b) as Y3.
    assert (CI : call_imm (I32 w v) = None) by (cbn [call_imm]; unfold is_bl; rewrite Y2, andb_false_r; reflexivity).
    assert (BI : branch_recorded true (I32 w v) = None)
      by (cbn [branch_recorded branch_imm]; unfold is_b3, is_b4; rewrite Y1, andb_false_r; reflexivity).
    assert (SB : is_stmdb_sp w v = false).
    { unfold is_stmdb_sp. destruct ((fld w 15 6 =? 932) && (fld w 4 4 =? 0)) eqn:E; [|reflexivity].
      destruct (excl_p1 w Hw E) as [X1 _]. congruence. }
    assert (S3 : is_sub3 w v = false) by (unfold is_sub3; rewrite Y3, andb_false_r; reflexivity).
    assert (VP : is_vpush w v = false).
    { unfold is_vpush. destruct ((fld w 15 7 =? 474) && (fld w 5 0 =? 45)) eqn:E; [|reflexivity].
      destruct (excl_p3 w Hw E) as [X1 _]. congruence. }
    assert (ST : is_str_sp w v = false).
    { unfold is_str_sp. destruct (w =? 63565) eqn:E; [|reflexivity]. pose proof (excl_str w Hw E). congruence. }
    rewrite (ft4 _ Fv), (ft7 _ Fw), (ft6 _ Fv), (ft1 _ Fv). destruct (fld v 11 8 =? 13) eqn:R.
    - f_equal.
      assert (S2 : is_sub2 w v = true) by (unfold is_sub2; rewrite T2a, T2b, T2c, T2d, R; reflexivity).
      destruct (imm12_lor w v) as [E L]. rewrite E.
      apply eff_sp; try assumption; try reflexivity.
      cbn [snd counted andb]. rewrite SB, S2. f_equal. symmetry. apply expand_imm_counted. exact L.
    - f_equal. symmetry. apply eff_nop; try assumption; try reflexivity.
      assert (S2 : is_sub2 w v = false) by (unfold is_sub2; rewrite R, !andb_false_r; reflexivity).
      cbn [snd counted andb]. rewrite SB, S2, VP, ST. reflexivity. }
  (* VPUSH *)
  assert (VPUSH : v7 = true -> is_vpush w v = true ->
    Ret (lower_sp (N.shiftl (N.land (w0 (hw v)) 255) 2) s) = Ret (eff v7 len (2 * i, I32 w v) s)).
  { intros -> VP. f_equal.
    assert (T3 := VP). unfold is_vpush in T3. apply andb_true_iff in T3. destruct T3 as [T3 _].
    destruct (excl_p3 w Hw T3) as [X1 X2].
    apply eff_sp; try reflexivity.
    - cbn [snd call_imm]; unfold is_bl; rewrite X1; reflexivity.
    - cbn [snd branch_recorded branch_imm]; unfold is_b3, is_b4; rewrite X1; reflexivity.
    - cbn [snd counted andb].
      assert (SB : is_stmdb_sp w v = false).
      { unfold is_stmdb_sp. destruct ((fld w 15 6 =? 932) && (fld w 4 4 =? 0)) eqn:E; [|reflexivity].
        destruct (excl_p1 w Hw E) as [_ [Z _]]. congruence. }
      assert (S2 : is_sub2 w v = false) by (unfold is_sub2; rewrite X1; reflexivity).
      assert (S3 : is_sub3 w v = false) by (unfold is_sub3; rewrite X1; reflexivity).
      rewrite SB, S2, VP. rewrite (ft2 _ Fv), N.shiftl_mul_pow2. f_equal. change (2 ^ 2) with 4. lia. }
  destruct (v7 && ((fld w 15 7 =? 474) && (fld w 5 0 =? 45)) && (fld v 11 8 =? 11)) eqn:T3.
  { apply andb_true_iff in T3. destruct T3 as [T3 T3b]. apply andb_true_iff in T3. destruct T3 as [T3 T3a].
    apply VPUSH; [exact T3|]. unfold is_vpush. rewrite T3a, <- VS, T3b. reflexivity. }
  destruct (v7 && ((fld w 15 7 =? 474) && (fld w 5 0 =? 45)) && (fld v 11 8 =? 10)) eqn:T4.
  { apply andb_true_iff in T4. destruct T4 as [T4 T4b]. apply andb_true_iff in T4. destruct T4 as [T4 T4a].
    apply VPUSH; [exact T4|]. unfold is_vpush. rewrite T4a, <- VS, T4b. apply orb_true_r. }
  clear VPUSH.
  assert (NVP : v7 && is_vpush w v = false).
  { unfold is_vpush. rewrite <- VS. destruct v7; [|reflexivity]. cbn [andb] in *.
    destruct ((fld w 15 7 =? 474) && (fld w 5 0 =? 45)); [|reflexivity]. cbn [andb] in *. rewrite T3, T4. reflexivity. }
  assert (NSB : v7 && is_stmdb_sp w v = false).
  { unfold is_stmdb_sp. destruct v7; [|reflexivity]. cbn [andb] in *.
    destruct ((fld w 15 6 =? 932) && (fld w 4 4 =? 0)); [|reflexivity]. cbn [andb] in *.
    destruct (fld w 3 0 =? 13); [|reflexivity]. cbn [andb]. exact T1. }
  assert (NS2 : v7 && is_sub2 w v = false).
  { unfold is_sub2. destruct v7; [|reflexivity]. cbn [andb] in *.
    destruct ((fld w 15 11 =? 30) && (fld w 9 5 =? 13) && (fld w 3 0 =? 13)); [|reflexivity]. cbn [andb] in *.
    rewrite T2. reflexivity. }
  assert (DROP : counted v7 (I32 w v) = if is_str_sp w v then Some (fld v 7 0) else None).
  { cbn [counted]. rewrite NSB, NS2, NVP. reflexivity. }
  (* facts for words with a branch-like second halfword *)
  assert (BR : forall k, (fld w 15 11 =? 30) = true -> (fld v 15 14 =? k) = true -> k = 2 \/ k = 3 ->
                 counted v7 (I32 w v) = None).
  { intros k Ea Eb Hk. rewrite DROP.
    assert (ST : is_str_sp w v = false).
    { unfold is_str_sp. destruct (w =? 63565) eqn:E; [|reflexivity]. pose proof (excl_str w Hw E). congruence. }
    rewrite ST. reflexivity. }
  (* B T3 *)
  destruct (v7 && (fld w 15 11 =? 30) && ((fld v 15 14 =? 2) && (fld v 12 12 =? 0))) eqn:T5.
  { apply andb_true_iff in T5. destruct T5 as [T5 T5c]. apply andb_true_iff in T5. destruct T5 as [-> T5a].
    apply andb_true_iff in T5c. destruct T5c as [T5b T5c].
    specialize (BR 2 T5a T5b (or_introl eq_refl)).
    assert (N3 : (fld v 15 14 =? 3) = false) by (apply N.eqb_eq in T5b; rewrite T5b; reflexivity).
    assert (N1 : (fld v 12 12 =? 1) = false) by (apply N.eqb_eq in T5c; rewrite T5c; reflexivity).
    assert (CI : call_imm (I32 w v) = None) by (cbn [call_imm]; unfold is_bl; rewrite N3, andb_false_r; reflexivity).
    rewrite (ft8 _ Fw). destruct (fld w 9 7 =? 7) eqn:M.
    - f_equal. symmetry. apply eff_nop; try assumption; try reflexivity.
      cbn [snd branch_recorded branch_imm]. unfold is_b3, is_b4. rewrite M, N1, !andb_false_r. reflexivity.
    - rewrite (ft9 _ Fw), (ft10 _ Fw), (ft11 _ Fv), (ft12 _ Fv), (ft13 _ Fv).
      f_equal.
      assert (B3 : is_b3 w v = true) by (unfold is_b3; rewrite T5a, T5b, T5c, M; reflexivity).
      rewrite imm21_spec by assumption.
      apply eff_b; try assumption; try reflexivity; [|apply imm_t3_bound].
      cbn [branch_recorded branch_imm andb]. rewrite B3. reflexivity. }
  (* B T4 *)
  destruct (v7 && (fld w 15 11 =? 30) && ((fld v 15 14 =? 2) && (fld v 12 12 =? 1))) eqn:T6.
  { apply andb_true_iff in T6. destruct T6 as [T6 T6c]. apply andb_true_iff in T6. destruct T6 as [-> T6a].
    apply andb_true_iff in T6c. destruct T6c as [T6b T6c].
    specialize (BR 2 T6a T6b (or_introl eq_refl)).
    assert (N3 : (fld v 15 14 =? 3) = false) by (apply N.eqb_eq in T6b; rewrite T6b; reflexivity).
    assert (N1 : (fld v 12 12 =? 0) = false) by (apply N.eqb_eq in T6c; rewrite T6c; reflexivity).
    assert (CI : call_imm (I32 w v) = None) by (cbn [call_imm]; unfold is_bl; rewrite N3, andb_false_r; reflexivity).
    rewrite (ft10 _ Fw), (ft11 _ Fv), (ft12 _ Fv), (ft14 _ Fv), (ft16 _ Fw), imm25_spec by assumption.
    f_equal.
    apply eff_b; try assumption; try reflexivity; [|apply imm_24_bound].
    cbn [branch_recorded branch_imm andb]. unfold is_b3, is_b4. rewrite T6a, T6b, T6c, N1. reflexivity. }
  (* BL *)
  cbn [andb].
  destruct ((fld w 15 11 =? 30) && ((fld v 15 14 =? 3) && (fld v 12 12 =? 1))) eqn:T7.
  { apply andb_true_iff in T7. destruct T7 as [T7a T7c]. apply andb_true_iff in T7c. destruct T7c as [T7b T7c].
    specialize (BR 3 T7a T7b (or_intror eq_refl)).
    assert (N2 : (fld v 15 14 =? 2) = false) by (apply N.eqb_eq in T7b; rewrite T7b; reflexivity).
    rewrite (ft10 _ Fw), (ft11 _ Fv), (ft12 _ Fv), (ft13 _ Fv), (ft15 _ Fw), imm25_spec by assumption.
    f_equal.
    apply eff_bl; try assumption; try reflexivity; [| |apply imm_24_bound].
    - cbn [call_imm]. unfold is_bl. rewrite T7a, T7b, T7c. reflexivity.
    - cbn [branch_recorded branch_imm]. unfold is_b3, is_b4. rewrite N2, !andb_false_r. destruct v7; reflexivity. }
  clear BR.
  assert (CI : call_imm (I32 w v) = None).
  { cbn [call_imm]. unfold is_bl. rewrite <- andb_assoc, T7. reflexivity. }
  assert (BI : branch_recorded v7 (I32 w v) = None).
  { cbn [branch_recorded branch_imm]. unfold is_b3, is_b4. destruct v7; [|reflexivity]. cbn [andb] in *.
    rewrite <- !andb_assoc. rewrite T6.
    rewrite (andb_assoc (fld v 15 14 =? 2)), (andb_assoc (fld w 15 11 =? 30)), T5. reflexivity. }
  (* STR *)
  rewrite (ft3 _ Fw).
  destruct ((fld w 15 4 =? 3972) && ((fld v 11 11 =? 1) && (fld v 9 9 =? 0) && (fld v 8 8 =? 1))) eqn:T8.
  { apply andb_true_iff in T8. destruct T8 as [T8a T8b].
    rewrite T8a in SS. cbn [andb] in SS. rewrite SS.
    destruct (w =? 63565) eqn:E.
    - f_equal. rewrite (ft2 _ Fv).
      apply eff_sp; try assumption; try reflexivity.
      cbn [snd]. rewrite DROP.
      assert (ST : is_str_sp w v = true).
      { unfold is_str_sp. rewrite E. exact T8b. }
      rewrite ST. reflexivity.
    - f_equal. symmetry. apply eff_nop; try assumption; try reflexivity. cbn [snd]. rewrite DROP.
      assert (ST : is_str_sp w v = false) by (unfold is_str_sp; rewrite E; reflexivity). rewrite ST. reflexivity. }
  f_equal. symmetry. apply eff_nop; try assumption; try reflexivity. cbn [snd]. rewrite DROP.
  assert (ST : is_str_sp w v = false).
  { unfold is_str_sp. rewrite <- SS. destruct (fld w 15 4 =? 3972); [|reflexivity]. cbn [andb] in *.
    rewrite <- !andb_assoc in *. rewrite T8, andb_false_r. reflexivity. }
  rewrite ST. reflexivity.
Qed.
