(** Thumb decoder, part 6: what is counted, exactly; any byte string. *)
From Verif Require Import M_base M_thumb S_thumb L_base L_thumb L_thumb2 L_thumb3 L_thumb4 L_thumb5 X_thumb.
Local Open Scope N_scope.

Lemma expand_imm_wrong x : x < 4096 -> (fld x 11 8 =? 1) && negb (fld x 7 0 =? 0) = true -> counted_imm x <> arm_expand_imm x.
Proof.
  intros Hx Hq. pose proof sweep_imm as H. rewrite forallb_forall in H.
  specialize (H x (upto_In 4096 0 x (N.le_0_l _) Hx)). unfold check_imm in H. rewrite Hq in H.
  apply andb_true_iff in H. destruct H as [H _]. apply negb_true_iff, N.eqb_neq in H.
  rewrite (proj1 (expand_imm_counted x Hx)) in H. exact H.
Qed.
Lemma counted_iff v7 i : instr_ok v7 i = true -> (counted v7 i = sp_drop v7 i <-> stack_quirk v7 i = false).
Proof.
  intros Hok. split; [|apply counted_quirk; exact Hok]. intros E. destruct i as [w | w v]; [reflexivity|].
  cbn [instr_ok stack_quirk counted sp_drop] in *.
  apply andb_true_iff in Hok. destruct Hok as [Hok H6]. apply andb_true_iff in Hok. destruct Hok as [Hok Hwd].
  apply andb_true_iff in Hok. destruct Hok as [Hw Hv]. apply N.ltb_lt in Hw, Hv.
  destruct v7; [|reflexivity]. cbn [andb negb] in *.
  destruct (is_stmdb_sp w v) eqn:SB.
  - assert (X : (fld w 15 6 =? 932) && (fld w 4 4 =? 0) = true).
    { unfold is_stmdb_sp in SB. rewrite <- !andb_assoc in SB. apply andb_true_iff in SB. destruct SB as [B1 SB].
      apply andb_true_iff in SB. destruct SB as [B2 _]. rewrite B1, B2. reflexivity. }
    destruct (excl_p1 w Hw X) as [X1 [X2 X3]]. unfold is_sub2, is_sub3, is_vpush, is_str_sp in *. rewrite X1, X2, X3 in *. cbn [andb orb] in *.
    destruct (fld_bit w 5) as [F|F]; rewrite F in *; [discriminate E | reflexivity].
  - cbn [andb orb] in *. destruct (is_sub2 w v) eqn:S2.
    + assert (S3 : is_sub3 w v = false).
      { unfold is_sub2 in S2. rewrite <- !andb_assoc in S2. apply andb_true_iff in S2. destruct S2 as [_ S2].
        apply andb_true_iff in S2. destruct S2 as [S2 _]. unfold is_sub3. rewrite (excl_sub w Hw S2), andb_false_r. reflexivity. }
      rewrite S3. cbn [andb orb]. destruct (imm12_lor w v) as [_ L12]. rewrite <- (imm12_low w v Hv).
      destruct ((fld (imm12_of w v) 11 8 =? 1) && negb (fld (imm12_of w v) 7 0 =? 0)) eqn:Q; [|reflexivity].
      exfalso. apply (expand_imm_wrong _ L12 Q). congruence.
    + cbn [andb orb]. rewrite !orb_false_r. destruct (is_sub3 w v) eqn:S3; [|reflexivity]. exfalso.
      assert (X1 : (fld w 15 11 =? 30) = true).
      { unfold is_sub3 in S3. rewrite <- !andb_assoc in S3. apply andb_true_iff in S3. tauto. }
      unfold is_vpush, is_str_sp in E.
      destruct ((fld w 15 7 =? 474) && (fld w 5 0 =? 45)) eqn:V; [destruct (excl_p3 w Hw V); congruence|].
      destruct (w =? 63565) eqn:W; [pose proof (excl_str w Hw W); congruence|]. discriminate E.
Qed.

Lemma stack_exact v7 address tags l : function_ok v7 address tags l ->
  exists s, analyze (encode l) address v7 tags = Ret s /\
    (stack s = if existsb (inside (size l)) (targets (branch_recorded v7) l) then None else Some (total_counted v7 (placed 0 l))) /\
    modifies_sp s = some_counted v7 (placed 0 l) /\
    (forall i, In (Ins i) l -> (counted v7 i = sp_drop v7 i <-> stack_quirk v7 i = false)).
Proof.
  intros H. destruct (analyze_ok _ _ _ _ H) as [s [E [_ _ _ M S]]]. exists s. split; [exact E|]. split; [exact S|]. split; [exact M|].
  intros i Hi. apply counted_iff. exact (proj1 H _ Hi).
Qed.
Lemma never_less v7 address tags l s n : function_ok v7 address tags l ->
  (forall i, In (Ins i) l -> lost v7 i = false) ->
  analyze (encode l) address v7 tags = Ret s ->
  (stack s = Some n -> total_drop v7 l <= n) /\ (some_drop v7 l = true -> modifies_sp s = true).
Proof.
  intros H Q E. destruct (analyze_ok _ _ _ _ H) as [s' [E' [_ _ _ M S]]]. assert (s' = s) by congruence. subst s'.
  destruct (total_lost v7 l (proj1 H) Q) as [T1 T2]. split.
  - intros K. rewrite S in K. destruct (existsb _ _); [discriminate K|]. injection K as <-. exact T1.
  - intros K. rewrite M. exact (T2 K).
Qed.

(** The search finds the symbol at an address, if there is one. *)
Lemma marked_increasing tags a : increasing tags ->
  (marked tags a MCode <-> ~ In (a, TData) tags) /\
  (forall e, marked tags a (MPool e) <-> exists k, nth_error tags k = Some (a, TData) /\ nth_error tags (S k) = Some (e, TThumb)) /\
  (marked tags a MLast <-> exists k, nth_error tags k = Some (a, TData) /\ nth_error tags (S k) = None).
Proof.
  intros Hinc.
  assert (F : forall k b x, find_tag tags a = Ret (Some k) -> nth_error tags k = Some (b, x) -> b = a).
  { intros k b x Hf Hk. destruct (find_tag_spec tags a Hinc) as [[k' [y [E Ek]]] | [E _]]; [|congruence].
    assert (k' = k) by congruence. subst k'. congruence. }
  assert (U : forall k x, find_tag tags a = Ret (Some k) -> nth_error tags k = Some (a, x) -> forall y, In (a, y) tags -> y = x).
  { intros k x Hf Hk y Hy. apply In_nth_error in Hy. destruct Hy as [j Hj]. pose proof (find_tag_at tags a j y Hinc Hj) as K. congruence. }
  split; [|split].
  - split; [|apply marked_code; exact Hinc]. intros M D. inversion M as [E | k b E K | |]; subst.
    + apply In_nth_error in D. destruct D as [j Hj]. pose proof (find_tag_at tags a j TData Hinc Hj). congruence.
    + pose proof (F _ _ _ E K). subst b. pose proof (U _ _ E K _ D). discriminate.
  - intros e. split.
    + intros M. inversion M as [| | k b e' E K L |]; subst. pose proof (F _ _ _ E K). subst b. exists k. split; assumption.
    + intros [k [K L]]. eapply mk_pool; [exact (find_tag_at tags a k _ Hinc K) | exact K | exact L].
  - split.
    + intros M. inversion M as [| | | k b E K L]; subst. pose proof (F _ _ _ E K). subst b. exists k. split; assumption.
    + intros [k [K L]]. eapply mk_last; [exact (find_tag_at tags a k _ Hinc K) | exact K | exact L].
Qed.

(** Two byte strings that cannot be read: `bkpt` at the end, and data symbols in a row. *)
Lemma ends_with_bkpt : stuck true 0 [] 0 (hw_bytes 0xb500 ++ hw_bytes 0xbe00) "BUG: unknown instruction".
Proof.
  apply sk_narrow; [apply mk_none; reflexivity | reflexivity | reflexivity|].
  change (hw_bytes 0xbe00) with (hw_bytes 0xbe00 ++ []). apply sk_cut; [apply mk_none; reflexivity | reflexivity | reflexivity | cbn; lia].
Qed.
Lemma data_in_a_row : stuck true 0 [(2, TData); (4, TData); (6, TThumb)] 0 (hw_bytes 0xb500 ++ hw_bytes 1 ++ hw_bytes 2 ++ hw_bytes 0x4770)
  "BUG: expected a thumb tag but found another data tag".
Proof.
  apply sk_narrow; [apply mk_none; reflexivity | reflexivity | reflexivity|].
  eapply (sk_data _ _ _ _ _ 0 2 4); [cbn; lia | reflexivity | reflexivity | reflexivity].
Qed.
(** `push {lr}; bkpt; bl`, with a data symbol behind: the call is read as part of something else. *)
Lemma reads_bkpt : sweep true 0 [(8, TData)] 0 (hw_bytes 0xb500 ++ hw_bytes 0xbe00 ++ hw_bytes 0xf000 ++ hw_bytes 0xfa2a ++ hw_bytes 0xffff)
  [(0, I16 0xb500); (2, I32 0xbe00 0xf000); (6, I32 0xfa2a 0xffff)].
Proof.
  apply sw_narrow; [apply mk_none; reflexivity | reflexivity | reflexivity|].
  apply sw_wide; [apply mk_none; reflexivity | reflexivity | reflexivity | reflexivity|].
  change (hw_bytes 0xffff) with (hw_bytes 0xffff ++ []).
  apply sw_wide; [apply mk_none; reflexivity | reflexivity | reflexivity | reflexivity|]. apply sw_end. cbn. lia.
Qed.
