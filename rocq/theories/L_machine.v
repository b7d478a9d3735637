(** Machine code: branches become edges, executions are bounded (C62, C63). *)
From Verif Require Import M_base M_stack M_graph M_analysis M_filter M_names M_thumb M_ty M_parse M_build M_run S_names S_graph S_filter S_sig S_build S_run S_thumb S_machine L_base L_thumb4 L_thumb5 L_build1 L_build3 L_build4 L_build5 L_build6 L_build7 L_run L_report.
Local Open Scope N_scope.

(** ** Offsets of instructions *)
Lemma placed_ge l : forall pos q x, In (q, x) (placed pos l) -> pos <= q.
Proof.
  induction l as [|y l IH]; intros pos q x H; cbn [placed] in H; [destruct H|]. destruct y as [i|ws].
  - destruct H as [H|H]; [injection H as <- <-; lia | apply IH in H; lia].
  - apply IH in H. lia.
Qed.
Lemma placed_end l : forall pos q x, In (q, x) (placed pos l) -> q + isize x <= pos + size l.
Proof.
  induction l as [|y l IH]; intros pos q x H; cbn [placed] in H; [destruct H|]. change (size (y :: l)) with (item_size y + size l). destruct y as [i|ws].
  - cbn [item_size]. destruct H as [H|H]; [injection H as <- <-; lia | apply IH in H; lia].
  - apply IH in H. lia.
Qed.
(** Bytes allocated by the instructions before offset [e]. *)
Definition before (v7 : bool) (l : list S_thumb.item) (pos e : N) : N :=
  fold_right (fun q n => if fst q <? e then drop v7 (snd q) + n else n) 0 (placed pos l).
Lemma before_mono v7 l e e' : e <= e' -> forall pos, before v7 l pos e <= before v7 l pos e'.
Proof.
  intros L pos. unfold before. induction (placed pos l) as [|q r IH]; cbn [fold_right]; [lia|].
  destruct (N.ltb_spec (fst q) e), (N.ltb_spec (fst q) e'); lia.
Qed.
Lemma before_step v7 l x q : forall pos, In (q, x) (placed pos l) -> before v7 l pos q + drop v7 x <= before v7 l pos (q + isize x).
Proof.
  unfold before. intros pos. assert (P : 0 < isize x) by (destruct x; reflexivity). revert pos. induction l as [|y l IH]; intros pos H; cbn [placed] in *; [destruct H|].
  assert (Sk : forall pos, before v7 l pos q <= before v7 l pos (q + isize x)) by (intros; apply before_mono; lia).
  destruct y as [i|ws]; [|apply IH; exact H]. cbn [fold_right fst snd]. destruct H as [H|H].
  - injection H as <- <-. rewrite N.ltb_irrefl. rewrite (proj2 (N.ltb_lt _ _)) by lia. specialize (Sk (pos + isize i)). unfold before in Sk. lia.
  - pose proof (placed_ge _ _ _ _ H) as G. specialize (IH _ H). assert (Q : 0 < isize i) by (destruct i; reflexivity). rewrite (proj2 (N.ltb_lt pos q)) by lia. rewrite (proj2 (N.ltb_lt pos (q + isize x))) by lia. lia.
Qed.
Lemma before_total v7 l e : before v7 l 0 e <= total_drop v7 l.
Proof.
  unfold before, total_drop. induction (placed 0 l) as [|q r IH]; cbn [fold_right]; [lia|]. unfold drop in *. destruct (fst q <? e), (sp_drop v7 (snd q)); lia.
Qed.
Lemma no_drop v7 l : some_drop v7 l = false -> total_drop v7 l = 0.
Proof.
  unfold some_drop, total_drop. induction (placed 0 l) as [|q r IH]; cbn [existsb fold_right]; [reflexivity|]. intros H. apply orb_false_iff in H. destruct H as [H1 H2].
  destruct (sp_drop v7 (snd q)); [discriminate H1 | apply IH; exact H2].
Qed.
Lemma some_drop_in v7 l q x : some_drop v7 l = false -> In (q, x) (placed 0 l) -> drop v7 x = 0.
Proof.
  unfold some_drop, drop. intros H I. destruct (sp_drop v7 x) eqn:E; [|reflexivity]. assert (T : existsb (fun p => match sp_drop v7 (snd p) with Some _ => true | None => false end) (placed 0 l) = true).
  { apply existsb_exists. exists (q, x). split; [exact I|]. cbn [snd]. rewrite E. reflexivity. }
  congruence.
Qed.

Section Machine.
Variables (p : prog) (lay : nat -> list S_thumb.item).
Hypothesis La : layout p lay.
Local Notation v7 := (is_v7 (pg_target p)).

(** Functions without branches into themselves only go forward. *)
Lemma straight_bound i pos u : existsb (inside (size (lay i))) (targets (branch_imm v7) (lay i)) = false ->
  frame_at p lay i pos u -> u <= before v7 (lay i) 0 pos.
Proof.
  intros B H. induction H as [|pos u x pos' u' H IH I G Ps L]; [lia|].
  assert (F : pos + isize x <= pos').
  { destruct G as [|imm pos' Gi Ge|imm pos' Gi Ge|pos' Gi Ge].
    - lia.
    - exfalso. assert (T : existsb (inside (size (lay i))) (targets (branch_imm v7) (lay i)) = true); [|congruence].
      apply existsb_exists. exists (Z.of_N pos + 4 + imm)%Z. split.
      + unfold targets. apply in_flat_map. exists (pos, x). split; [exact I|]. unfold target. cbn [fst snd]. rewrite Gi. left. reflexivity.
      + unfold inside. apply andb_true_iff. split; [apply Z.leb_le | apply Z.ltb_lt]; lia.
    - destruct x as [w|w v]; [|discriminate Gi]. cbn [cbz_imm] in Gi. destruct (v7 && cbz w); [|discriminate Gi]. injection Gi as <-. cbn [isize]. lia.
    - destruct x; [discriminate Gi | exact Ge]. }
  pose proof (before_step v7 (lay i) x pos 0 I) as S. pose proof (before_mono v7 (lay i) _ _ F 0) as M. lia.
Qed.

(** ** Distances of branches *)
Lemma fld_lt w hi lo : fld w hi lo < 2 ^ (hi - lo + 1).
Proof. unfold fld. apply N.mod_lt. apply N.pow_nonzero. discriminate. Qed.
Lemma sext_range n x : (-2 ^ Z.of_N n <= sext n x)%Z /\ (sext n x <= Z.of_N x)%Z.
Proof. unfold sext. assert (0 < 2 ^ Z.of_N n)%Z by (apply Z.pow_pos_nonneg; lia). destruct (x <? 2 ^ (n - 1)); lia. Qed.
Lemma branch_range w x imm : branch_imm w x = Some imm -> (-2 ^ 26 < imm < 2 ^ 26)%Z.
Proof.
  assert (R24 : forall w v, (-2 ^ 26 < imm_24 w v < 2 ^ 26)%Z).
  { intros a v. unfold imm_24. cbv zeta.
    pose proof (fld_lt a 10 10) as F1. pose proof (fld_lt a 9 0) as F2. pose proof (fld_lt v 10 0) as F3.
    set (i1 := lnot1 (lxor1 (fld v 13 13) (fld a 10 10))). set (i2 := lnot1 (lxor1 (fld v 11 11) (fld a 10 10))).
    assert (L1 : i1 <= 1) by (unfold i1, lnot1; lia). assert (L2 : i2 <= 1) by (unfold i2, lnot1; lia).
    change (2 ^ (10 - 10 + 1)) with 2 in F1. change (2 ^ (9 - 0 + 1)) with 1024 in F2. change (2 ^ (10 - 0 + 1)) with 2048 in F3.
    match goal with |- context [sext 25 ?y] => pose proof (sext_range 25 y) as [A B]; assert (y < 2 ^ 26) end.
    { change (2 ^ 26) with 67108864. change (2 ^ 24) with 16777216. change (2 ^ 23) with 8388608. change (2 ^ 22) with 4194304. change (2 ^ 12) with 4096. lia. }
    change (2 ^ Z.of_N 25)%Z with 33554432%Z in A. change (2 ^ 26)%Z with 67108864%Z. change (2 ^ 26) with 67108864 in H. lia. }
  assert (R3 : forall w v, (-2 ^ 26 < imm_t3 w v < 2 ^ 26)%Z).
  { intros a v. unfold imm_t3.
    pose proof (fld_lt a 10 10) as F1. pose proof (fld_lt v 11 11) as F2. pose proof (fld_lt v 13 13) as F3. pose proof (fld_lt a 5 0) as F4. pose proof (fld_lt v 10 0) as F5.
    change (2 ^ (10 - 10 + 1)) with 2 in F1. change (2 ^ (11 - 11 + 1)) with 2 in F2. change (2 ^ (13 - 13 + 1)) with 2 in F3. change (2 ^ (5 - 0 + 1)) with 64 in F4. change (2 ^ (10 - 0 + 1)) with 2048 in F5.
    match goal with |- context [sext 21 ?y] => pose proof (sext_range 21 y) as [A B]; assert (y < 2 ^ 26) end.
    { change (2 ^ 26) with 67108864. change (2 ^ 20) with 1048576. change (2 ^ 19) with 524288. change (2 ^ 18) with 262144. change (2 ^ 12) with 4096. lia. }
    change (2 ^ Z.of_N 21)%Z with 2097152%Z in A. change (2 ^ 26)%Z with 67108864%Z. change (2 ^ 26) with 67108864 in H. lia. }
  unfold branch_imm. destruct x as [a|a v].
  - destruct (is_b1 a); [|destruct (is_b2 a); [|discriminate]]; intros H; injection H as <-.
    + pose proof (fld_lt a 7 0) as F1. change (2 ^ (7 - 0 + 1)) with 256 in F1. pose proof (sext_range 9 (fld a 7 0 * 2)) as [A B].
      change (2 ^ Z.of_N 9)%Z with 512%Z in A. change (2 ^ 26)%Z with 67108864%Z. lia.
    + pose proof (fld_lt a 10 0) as F1. change (2 ^ (10 - 0 + 1)) with 2048 in F1. pose proof (sext_range 12 (fld a 10 0 * 2)) as [A B].
      change (2 ^ Z.of_N 12)%Z with 4096%Z in A. change (2 ^ 26)%Z with 67108864%Z. lia.
  - destruct (w && is_b3 a v); [|destruct (w && is_b4 a v); [|discriminate]]; intros H; injection H as <-; [apply R3 | apply R24].
Qed.

(** ** The analysis of each function *)
Record decoded (i : nat) (addr : N) (a : st) : Prop := {
  de_an : analysed p i addr (size (lay i)) a;
  de_bls : bls a = targets call_imm (lay i);
  de_bs : bs a = targets (branch_imm v7) (lay i);
  de_sp : modifies_sp a = some_counted v7 (placed 0 (lay i));
  de_stack : stack a = if existsb (inside (size (lay i))) (targets (branch_imm v7) (lay i)) then None else Some (total_counted v7 (placed 0 (lay i)));
  de_ok : forall x, In x (lay i) -> item_ok v7 x;
  de_addr : addr + size (lay i) <= 2 ^ 32 /\ size (lay i) < 2 ^ 30
}.
Lemma decode i addr sym : near p lay i -> nth_error (pg_defined p) i = Some (addr, sym) -> exists a, decoded i addr a.
Proof.
  intros Ne Hi. destruct (la_code p lay La i addr sym Hi) as [stext [text [sym' [T [Hi' [Ex [By Ok]]]]]]]. rewrite Hi in Hi'. injection Hi' as <-.
  assert (L : addr < 2 ^ 32) by (apply (la_32 p lay La addr sym); exact (nth_error_In _ _ Hi)).
  destruct (analyze_ok _ _ _ _ Ok) as [a [Ea [B Bs _ M S]]]. exists a.
  assert (R : targets (branch_recorded v7) (lay i) = targets (branch_imm v7) (lay i)) by (apply recorded_same; exact Ne).
  constructor.
  - split; [exact (la_thumb p lay La)|]. exists stext, text, (addr, sym), (encode (lay i)). cbn [fst snd]. split; [exact T|]. split; [exact Hi|]. split; [rewrite N.mod_small by exact L; reflexivity|].
    split; [exact Ex|]. split; [exact By | exact Ea].
  - exact B.
  - rewrite <- R. exact Bs.
  - exact M.
  - rewrite S. change (flat_map (target (branch_recorded v7)) (placed 0 (lay i))) with (targets (branch_recorded v7) (lay i)). rewrite R. reflexivity.
  - exact (proj1 Ok).
  - destruct Ok as [_ [_ [_ Z]]]. exact Z.
Qed.
Lemma in_targets imm l pos x z : In (pos, x) (placed 0 l) -> imm x = Some z -> In (Z.of_N pos + 4 + z)%Z (targets imm l).
Proof. intros I E. unfold targets. apply in_flat_map. exists (pos, x). split; [exact I|]. unfold target. cbn [fst snd]. rewrite E. left. reflexivity. Qed.
Lemma in_targets_inv imm l z : In z (targets imm l) -> exists pos x i, In (pos, x) (placed 0 l) /\ imm x = Some i /\ z = (Z.of_N pos + 4 + i)%Z.
Proof.
  unfold targets. intros H. apply in_flat_map in H. destruct H as [[pos x] [I H]]. unfold target in H. cbn [fst snd] in H. destruct (imm x) as [i|] eqn:E; [|destruct H].
  destruct H as [<-|[]]. exists pos, x, i. split; [exact I | split; [exact E | reflexivity]].
Qed.

(** Frames use no more than what is shown for the function. *)
Lemma frame_bound i pos u k : seen p lay i -> promised p lay i -> (i < length (pg_defined p))%nat -> usage p i (LExact k) -> frame_at p lay i pos u -> u <= k.
Proof.
  intros [Ne Lo] Pr Li U H. destruct (nth_error (pg_defined p) i) as [[addr sym]|] eqn:Hi; [|apply nth_error_None in Hi; lia].
  destruct (decode i addr sym Ne Hi) as [a D]. destruct D as [A _ _ M S Ok _].
  destruct (total_lost v7 (lay i) Ok Lo) as [TL SL].
  assert (Str : forall k, stack a = Some k -> u <= k).
  { intros k' E. rewrite S in E. destruct (existsb _ _) eqn:B; [discriminate E|]. injection E as <-. pose proof (straight_bound i pos u B H) as K. pose proof (before_total v7 (lay i) pos). lia. }
  assert (NT : is_thumb (pg_target p) = false \/ pg_text p = None -> False).
  { intros [T|T]; [rewrite (la_thumb p lay La) in T; discriminate T|]. destruct A as [_ [x1 [x2 [x3 [x4 [K _]]]]]]. rewrite K in T. discriminate T. }
  inversion U; subst; try (exfalso; apply NT; assumption);
    match goal with A' : analysed p i _ _ _ |- _ => destruct (analysed_fun p i _ _ _ _ _ _ A A') as [<- [<- <-]] end; try (apply Str; assumption).
  - destruct (N.eq_dec (total_drop v7 (lay i)) k) as [Td|Td].
    + match goal with K : stack a = Some _ |- _ => rewrite S in K; destruct (existsb _ _) eqn:B; [discriminate K|] end. pose proof (straight_bound i pos u B H). pose proof (before_total v7 (lay i) pos). lia.
    + apply (Pr k) with pos; [|exact H]. eapply rl_outlined; eassumption.
  - apply (Pr k) with pos; [|exact H]. match goal with K : stack a = None |- _ => rewrite S in K; destruct (existsb _ _) eqn:B; [|discriminate K] end.
    apply existsb_exists in B. destruct B as [z [B1 B2]]. apply in_targets_inv in B1. destruct B1 as [q [x [imm [B1 [B3 ->]]]]]. exact (rl_branches p lay i k q x imm ltac:(assumption) B1 B3 B2).
  - assert (Z : some_drop v7 (lay i) = false) by (destruct (some_drop v7 (lay i)); [rewrite SL in M by reflexivity; congruence | reflexivity]). clear - H Z. induction H as [|pos u x pos' u' H IH I G Ps L]; [lia|].
    rewrite (some_drop_in _ _ _ _ Z I) in L. lia.
Qed.

(** ** Branches *)
Lemma leaves_outside addr n z : addr < 2 ^ 32 -> addr + n <= 2 ^ 32 -> n < 2 ^ 30 -> (-2 ^ 27 < z < 2 ^ 31)%Z -> inside n z = false ->
  leaves addr n (Z.to_N ((Z.of_N addr + z) mod 2 ^ 32)).
Proof.
  intros L1 L2 L3 [R1 R2] O. unfold inside in O. unfold leaves.
  change (2 ^ 32) with 4294967296 in *. change (2 ^ 30) with 1073741824 in *. change (2 ^ 27)%Z with 134217728%Z in *. change (2 ^ 31)%Z with 2147483648%Z in *. change (2 ^ 32)%Z with 4294967296%Z in *.
  apply andb_false_iff in O. destruct O as [O|O].
  - apply Z.leb_gt in O. destruct (Z_lt_le_dec (Z.of_N addr + z) 0) as [K|K].
    + right. assert (E : ((Z.of_N addr + z) mod 4294967296 = Z.of_N addr + z + 4294967296)%Z) by (symmetry; apply Z.mod_unique with (-1)%Z; lia). rewrite E.
      assert (Y : (addr + n) mod 4294967296 <= addr + n) by (apply N.mod_le; discriminate). lia.
    + left. rewrite Z.mod_small by lia. lia.
  - apply Z.ltb_ge in O. destruct (Z_lt_le_dec (Z.of_N addr + z) 4294967296) as [K|K].
    + right. rewrite Z.mod_small by lia. assert (Y : (addr + n) mod 4294967296 <= addr + n) by (apply N.mod_le; discriminate). lia.
    + left. assert (E : ((Z.of_N addr + z) mod 4294967296 = Z.of_N addr + z - 4294967296)%Z) by (symmetry; apply Z.mod_unique with 1%Z; lia). rewrite E. lia.
Qed.
Lemma placed_pos i addr a pos x : decoded i addr a -> In (pos, x) (placed 0 (lay i)) -> pos < 2 ^ 30.
Proof. intros D I. apply placed_end in I. pose proof (de_addr _ _ _ D). lia. Qed.

Section Built.
Variables (demangle : str -> str) (o : orders) (b : built).
Hypotheses (W : wf_prog p) (Fo : fair o) (E : build demangle o p = Ret b).

(** A BL instruction goes to the start of a function of the symbol table... *)
Lemma call_target i addr sym pos x imm : near p lay i -> nth_error (pg_defined p) i = Some (addr, sym) -> In (pos, x) (placed 0 (lay i)) -> call_imm x = Some imm ->
  exists j, at_address p j (dest addr pos imm) /\ jumps p i j.
Proof.
  intros Ne Hi I C. destruct (decode i addr sym Ne Hi) as [a D]. pose proof (in_targets call_imm (lay i) pos x imm I C) as T. rewrite <- (de_bls _ _ _ D) in T.
  assert (Tx : pg_text p <> None) by (destruct (de_an _ _ _ D) as [_ [x1 [x2 [x3 [x4 [K _]]]]]]; rewrite K; discriminate).
  assert (Li : (i < length (pg_defined p))%nat) by (apply nth_error_Some; rewrite Hi; discriminate).
  destruct (checked_code _ _ _ _ W E i (la_thumb p lay La) Tx Li) as [addr' [size' [a' [A' [B _]]]]]. destruct (analysed_fun p i _ _ _ _ _ _ (de_an _ _ _ D) A') as [<- [<- <-]].
  destruct (B _ T) as [j J]. unfold bl_target, bl_addr in J.
  assert (Q : dest addr pos imm = Z.to_N ((Z.of_N addr + (Z.of_N pos + 4 + imm)) mod 2 ^ 64)).
  { unfold dest. replace (Z.of_N addr + Z.of_N pos + 4 + imm)%Z with (Z.of_N addr + (Z.of_N pos + 4 + imm))%Z by lia.
    destruct J as [s' J]. apply nth_error_In in J. apply (la_32 p lay La) in J. set (y := (Z.of_N addr + (Z.of_N pos + 4 + imm))%Z) in *.
    pose proof (Z.mod_pos_bound y (2 ^ 64) ltac:(lia)) as P. assert (P' : (y mod 2 ^ 64 < 2 ^ 32)%Z) by (change (2 ^ 32) with 4294967296 in J; lia).
    f_equal. rewrite <- (Z.mod_small (y mod 2 ^ 64) (2 ^ 32)) by lia. change (2 ^ 64)%Z with (2 ^ 32 * 2 ^ 32)%Z. rewrite Z.rem_mul_r by lia.
    rewrite (Z.mul_comm (2 ^ 32)), Z.mod_add by lia. rewrite Z.mod_mod by lia. reflexivity. }
  exists j. split; [rewrite Q; exact J|]. exists addr, (size (lay i)), a. split; [exact (de_an _ _ _ D)|]. left. exists (Z.of_N pos + 4 + imm)%Z. split; [exact T | exact J].
Qed.
(** ... and so does a branch out of the function. *)
Lemma tail_target i addr sym pos x imm : near p lay i -> nth_error (pg_defined p) i = Some (addr, sym) -> In (pos, x) (placed 0 (lay i)) -> branch_imm v7 x = Some imm ->
  inside (size (lay i)) (Z.of_N pos + 4 + imm) = false -> exists j, at_address p j (dest addr pos imm) /\ jumps p i j.
Proof.
  intros Ne Hi I C O. destruct (decode i addr sym Ne Hi) as [a D]. pose proof (in_targets (branch_imm v7) (lay i) pos x imm I C) as T. rewrite <- (de_bs _ _ _ D) in T.
  assert (Tx : pg_text p <> None) by (destruct (de_an _ _ _ D) as [_ [x1 [x2 [x3 [x4 [K _]]]]]]; rewrite K; discriminate).
  assert (Li : (i < length (pg_defined p))%nat) by (apply nth_error_Some; rewrite Hi; discriminate).
  assert (L : addr < 2 ^ 32) by (apply (la_32 p lay La addr sym); exact (nth_error_In _ _ Hi)).
  assert (Lv : leaves addr (size (lay i)) (Z.to_N ((Z.of_N addr + (Z.of_N pos + 4 + imm)) mod 2 ^ 32))).
  { apply leaves_outside; [exact L | exact (proj1 (de_addr _ _ _ D)) | exact (proj2 (de_addr _ _ _ D)) | | exact O]. pose proof (branch_range _ _ _ C). pose proof (placed_pos _ _ _ _ _ D I). lia. }
  destruct (checked_code _ _ _ _ W E i (la_thumb p lay La) Tx Li) as [addr' [size' [a' [A' [_ B]]]]]. destruct (analysed_fun p i _ _ _ _ _ _ (de_an _ _ _ D) A') as [<- [<- <-]].
  destruct (B _ T Lv) as [j J]. exists j. unfold dest. replace (Z.of_N addr + Z.of_N pos + 4 + imm)%Z with (Z.of_N addr + (Z.of_N pos + 4 + imm))%Z by lia.
  split; [exact J|]. exists addr, (size (lay i)), a. split; [exact (de_an _ _ _ D)|]. right. exists (Z.of_N pos + 4 + imm)%Z. split; [exact T|]. split; [exact J | exact Lv].
Qed.
(** Both become edges of the call graph. *)
Lemma jumps_edge i j : (i < length (pg_defined p))%nat -> (j < length (pg_defined p))%nat -> jumps p i j -> In (i, j) (gedges (b_g b)).
Proof.
  intros Li Lj J. destruct (build_spec _ _ _ _ W Fo E) as [ks [void [G _]]]. destruct (go_must _ _ _ _ G _ _ (ed_code p _ void i j J)) as [u [v [Ku [Kv I]]]].
  rewrite (real_idx p ks void _ G _ _ Ku), (real_idx p ks void _ G _ _ Kv) in I. exact I.
Qed.
Lemma at_lt j a : at_address p j a -> (j < length (pg_defined p))%nat.
Proof. intros [s H]. apply nth_error_Some. rewrite H. discriminate. Qed.
Theorem branch_edges i addr sym pos x imm : near p lay i -> nth_error (pg_defined p) i = Some (addr, sym) -> In (pos, x) (placed 0 (lay i)) ->
  call_imm x = Some imm \/ (branch_imm v7 x = Some imm /\ inside (size (lay i)) (Z.of_N pos + 4 + imm) = false) ->
  exists j, at_address p j (dest addr pos imm) /\ In (i, j) (gedges (b_g b)).
Proof.
  intros Ne Hi I C. assert (Li : (i < length (pg_defined p))%nat) by (apply nth_error_Some; rewrite Hi; discriminate).
  assert (K : exists j, at_address p j (dest addr pos imm) /\ jumps p i j).
  { destruct C as [C|[C O]]; [exact (call_target i addr sym pos x imm Ne Hi I C) | exact (tail_target i addr sym pos x imm Ne Hi I C O)]. }
  destruct K as [j [J1 J2]]. exists j. split; [exact J1|]. exact (jumps_edge i j Li (at_lt _ _ J1) J2).
Qed.
(** Branches are the only reasons that the machine code gives for an edge. *)
Lemma dest_64 addr off j : at_address p j (Z.to_N ((Z.of_N addr + off) mod 2 ^ 64)) -> Z.to_N ((Z.of_N addr + off) mod 2 ^ 64) = Z.to_N ((Z.of_N addr + off) mod 2 ^ 32).
Proof.
  intros [s' J]. apply nth_error_In in J. apply (la_32 p lay La) in J. set (y := (Z.of_N addr + off)%Z) in *.
  pose proof (Z.mod_pos_bound y (2 ^ 64) ltac:(lia)) as P. assert (P' : (y mod 2 ^ 64 < 2 ^ 32)%Z) by (change (2 ^ 32) with 4294967296 in J; lia).
  f_equal. rewrite <- (Z.mod_small (y mod 2 ^ 64) (2 ^ 32)) by lia. change (2 ^ 64)%Z with (2 ^ 32 * 2 ^ 32)%Z. rewrite Z.rem_mul_r by lia.
  rewrite (Z.mul_comm (2 ^ 32)), Z.mod_add by lia. rewrite Z.mod_mod by lia. reflexivity.
Qed.
Lemma leaves_inside addr n z : addr + n < 2 ^ 32 -> leaves addr n (Z.to_N ((Z.of_N addr + z) mod 2 ^ 32)) -> inside n z = false.
Proof.
  intros L Lv. destruct (inside n z) eqn:I; [exfalso|reflexivity]. unfold inside in I. apply andb_true_iff in I. destruct I as [I1 I2]. apply Z.leb_le in I1. apply Z.ltb_lt in I2.
  unfold leaves in Lv. change (2 ^ 32) with 4294967296 in *. change (2 ^ 32)%Z with 4294967296%Z in *. rewrite Z.mod_small in Lv by lia. rewrite N.mod_small in Lv by lia. destruct Lv; lia.
Qed.
Theorem jumps_branch i j addr sym : near p lay i -> nth_error (pg_defined p) i = Some (addr, sym) -> addr + size (lay i) < 2 ^ 32 -> jumps p i j ->
  exists pos x imm, In (pos, x) (placed 0 (lay i)) /\ at_address p j (dest addr pos imm) /\
    (call_imm x = Some imm \/ (branch_imm v7 x = Some imm /\ inside (size (lay i)) (Z.of_N pos + 4 + imm) = false)).
Proof.
  intros Ne Hi Le [addr' [size' [a' [A' J]]]]. destruct (decode i addr sym Ne Hi) as [a D]. destruct (analysed_fun p i _ _ _ _ _ _ (de_an _ _ _ D) A') as [<- [<- <-]].
  assert (Q : forall pos imm, dest addr pos imm = Z.to_N ((Z.of_N addr + (Z.of_N pos + 4 + imm)) mod 2 ^ 32)) by (intros pos imm; unfold dest; do 2 f_equal; lia).
  destruct J as [[off [T J]]|[off [T [J Lv]]]].
  - rewrite (de_bls _ _ _ D) in T. apply in_targets_inv in T. destruct T as [pos [x [imm [T1 [T2 ->]]]]]. exists pos, x, imm. split; [exact T1|]. split; [rewrite Q, <- (dest_64 _ _ _ J); exact J | left; exact T2].
  - rewrite (de_bs _ _ _ D) in T. apply in_targets_inv in T. destruct T as [pos [x [imm [T1 [T2 ->]]]]]. exists pos, x, imm. split; [exact T1|]. split; [rewrite Q; exact J|]. right. split; [exact T2|].
    exact (leaves_inside _ _ _ Le Lv).
Qed.
(** The usage of a function for which LLVM gives no size is what its instructions are counted for. *)
Theorem own_usage i n addr sym : near p lay i -> chosen p i n -> nth_error (pg_defined p) i = Some (addr, sym) -> ~ sized p n ->
  exists l, nth_error (gnodes (b_g b)) i = Some (mkNode n l None false) /\
    (existsb (inside (size (lay i))) (targets (branch_imm v7) (lay i)) = false -> l = LExact (total_counted v7 (placed 0 (lay i)))) /\
    (existsb (inside (size (lay i))) (targets (branch_imm v7) (lay i)) = true -> some_counted v7 (placed 0 (lay i)) = false -> l = LExact 0) /\
    (existsb (inside (size (lay i))) (targets (branch_imm v7) (lay i)) = true -> some_counted v7 (placed 0 (lay i)) = true -> l = LUnknown) /\
    ((forall x, In (Ins x) (lay i) -> stack_quirk v7 x = false) ->
       total_counted v7 (placed 0 (lay i)) = total_drop v7 (lay i) /\ some_counted v7 (placed 0 (lay i)) = some_drop v7 (lay i)) /\
    ((forall x, In (Ins x) (lay i) -> lost v7 x = false) -> total_drop v7 (lay i) <= total_counted v7 (placed 0 (lay i))).
Proof.
  intros Ne C Hi Ns. destruct (decode i addr sym Ne Hi) as [a D]. destruct D as [A _ _ M S Ok _].
  destruct (build_spec _ _ _ _ W Fo E) as [ks [void [G _]]]. assert (Li : (i < length (pg_defined p))%nat) by (apply nth_error_Some; rewrite Hi; discriminate).
  pose proof (go_real _ _ _ _ G i Li) as Ki. destruct (show_at _ _ _ _ G _ _ Ki) as [nd [Hn No]]. inversion No as [i' n' l C' U| | | |]; subst.
  rewrite (chosen_fun p _ _ _ C' C) in *. exists l. split; [exact Hn|].
  assert (Us : forall l', usage p i l' -> l = l') by (intros l' U'; exact (usage_fun p i _ _ W U U')).
  assert (Lz : llvm_size p i None) by (exists n; split; assumption).
  assert (Fr : forall P Q R T V : Prop, P -> Q -> R -> T -> V -> P /\ Q /\ R /\ T /\ V) by tauto.
  apply Fr; [intros B | intros B Z.. | exact (total_quirk v7 (lay i) Ok) | intros Q; exact (proj1 (total_lost v7 (lay i) Ok Q))]; apply Us; rewrite B in S; clear B Fr.
  - eapply us_ours; eassumption.
  - eapply us_untouched; try eassumption. congruence.
  - eapply us_unknown; try eassumption. congruence.
Qed.
End Built.

(** ** Executions *)
(** [linked i fs]: the outermost function is [i]; each function was called by the one below it, as far as that one is trusted. *)
Fixpoint linked (i : nat) (fs : list nat) : Prop :=
  match fs with
  | [] => False
  | j :: fs => (j < length (pg_defined p))%nat /\ match fs with [] => j = i | k :: _ => (near p lay k -> invokes p k j) /\ linked i fs end
  end.
Lemma runs_snoc i l k j : runs p i (l ++ [k]) -> invokes p k j -> (j < length (pg_defined p))%nat -> runs p i (l ++ [k; j]).
Proof.
  revert i. induction l as [|h l IH]; intros i R I L; cbn [app] in *.
  - inversion R; subst; [|match goal with H : runs _ _ [] |- _ => inversion H end]. apply runs_call with j; [exact I | constructor; exact L].
  - inversion R; subst; [destruct l; discriminate|]. eapply runs_call; [eassumption|]. apply IH; assumption.
Qed.
Lemma linked_runs i fs : linked i fs -> (forall k, In k fs -> near p lay k) -> runs p i (rev fs).
Proof.
  induction fs as [|j fs IH]; intros L N; [destruct L|]. destruct fs as [|k fs].
  - destruct L as [Lj ->]. constructor. exact Lj.
  - destruct L as [Lj [I L]]. specialize (IH L (fun x X => N x (or_intror X))). cbn [rev] in *. rewrite <- app_assoc. apply runs_snoc; [exact IH | | exact Lj]. apply I, N. right. left. reflexivity.
Qed.
Record sound (i : nat) (fs : list frame) : Prop := {
  so_linked : linked i (map fr_fn fs);
  so_frames : forall f, In f fs -> frame_at p lay (fr_fn f) (fr_pos f) (fr_used f)
}.
Lemma linked_lt i fs k : linked i fs -> In k fs -> (k < length (pg_defined p))%nat.
Proof.
  induction fs as [|j fs IH]; intros L I; [destruct I|]. destruct I as [<-|I]; [exact (proj1 L)|]. destruct fs as [|k' fs]; [destruct I|]. exact (IH (proj2 (proj2 L)) I).
Qed.
Section Exec.
Variables (demangle : str -> str) (o : orders) (b : built).
Hypotheses (W : wf_prog p) (Fo : fair o) (E : build demangle o p = Ret b).
Lemma at_unique j j' a : at_address p j a -> at_address p j' a -> j = j'.
Proof.
  intros [s H] [s' H']. assert (L : (j < length (map fst (pg_defined p)))%nat) by (rewrite map_length; apply nth_error_Some; rewrite H; discriminate).
  apply (proj1 (NoDup_nth_error _) (wf_addrs p W) j j' L). rewrite !nth_error_map, H, H'. reflexivity.
Qed.
Lemma push_sound i k pos u fs j : sound i (mkFrame k pos u :: fs) -> (near p lay k -> invokes p k j) -> (j < length (pg_defined p))%nat ->
  sound i (mkFrame j 0 0 :: mkFrame k pos u :: fs).
Proof.
  intros [R F] I L. constructor.
  - cbn [map fr_fn] in *. split; [exact L|]. split; [exact I | exact R].
  - intros f [<-|Hf]; [cbn [fr_fn fr_pos fr_used]; constructor | exact (F f Hf)].
Qed.
Lemma step_sound i fs fs' : sound i fs -> machine p lay fs fs' -> sound i fs'.
Proof.
  intros S M. destruct M as [k pos u x pos' u' fs I G Lp Lu | k addr pos u x imm j sym fs I C Hk J | k addr pos u x imm j sym fs I C O Hk J | k pos u x j fs I C Lj V | f f' fs].
  - destruct S as [R F]. constructor; [exact R|]. intros f [<-|Hf]; [|apply F; right; exact Hf]. specialize (F _ (or_introl eq_refl)). cbn [fr_fn fr_pos fr_used] in *. eapply fa_step; eassumption.
  - apply push_sound; [exact S | | exact (at_lt _ _ J)]. intros Ne. destruct (call_target demangle o b W E k addr sym pos x imm Ne Hk I C) as [j' [J1 J2]]. rewrite (at_unique _ _ _ J J1) in *. exact (iv_code _ _ _ J2).
  - apply push_sound; [exact S | | exact (at_lt _ _ J)]. intros Ne. destruct (tail_target demangle o b W E k addr sym pos x imm Ne Hk I C O) as [j' [J1 J2]]. rewrite (at_unique _ _ _ J J1) in *. exact (iv_code _ _ _ J2).
  - apply push_sound; [exact S | intros _; exact V | exact Lj].
  - destruct S as [R F]. constructor; [exact (proj2 (proj2 R)) | intros g Hg; apply F; right; exact Hg].
Qed.
Lemma executes_sound i fs : executes p lay i fs -> sound i fs.
Proof.
  induction 1 as [L | fs fs' H IH M]; [|exact (step_sound i fs fs' IH M)]. constructor; [split; [exact L | reflexivity]|].
  intros f [<-|[]]. cbn [fr_fn fr_pos fr_used]. constructor.
Qed.
Lemma depth_app l1 l2 d : depth p (l1 ++ l2) d -> exists d1 d2, depth p l1 d1 /\ depth p l2 d2 /\ d = d1 + d2.
Proof.
  revert d. induction l1 as [|h l1 IH]; intros d H; cbn [app] in H; [exists 0, d; split; [constructor|]; split; [exact H | lia]|].
  inversion H; subst. match goal with K : depth p (l1 ++ l2) _ |- _ => destruct (IH _ K) as [d1 [d2 [K1 [K2 ->]]]] end.
  exists (k + d1), d2. split; [constructor; assumption|]. split; [exact K2 | lia].
Qed.
Lemma used_bound fs d : (forall f, In f fs -> trusted p lay (fr_fn f)) -> depth p (rev (map fr_fn fs)) d ->
  (forall f, In f fs -> (fr_fn f < length (pg_defined p))%nat /\ frame_at p lay (fr_fn f) (fr_pos f) (fr_used f)) -> in_use fs <= d.
Proof.
  revert d. induction fs as [|f fs IH]; intros d Tr D F; cbn [in_use fold_right]; [lia|]. cbn [map rev] in D. destruct (depth_app _ _ _ D) as [d1 [d2 [D1 [D2 ->]]]].
  specialize (IH d1 (fun g Hg => Tr g (or_intror Hg)) D1 (fun g Hg => F g (or_intror Hg))). unfold in_use in IH. destruct (F f (or_introl eq_refl)) as [F1 F2]. destruct (Tr f (or_introl eq_refl)) as [Sn Pr _].
  inversion D2; subst. match goal with K : depth p [] _ |- _ => inversion K; subst end. pose proof (frame_bound _ _ _ _ Sn Pr F1 ltac:(eassumption) F2). lia.
Qed.
Lemma bounded_machine i n fs : (forall l, runs p i l -> (forall x, In x l -> covered_fn p x) -> exists d, depth p l d /\ d <= n) ->
  executes p lay i fs -> (forall f, In f fs -> trusted p lay (fr_fn f)) -> in_use fs <= n.
Proof.
  intros B X Tr. destruct (executes_sound i fs X) as [R F].
  assert (Tk : forall k, In k (map fr_fn fs) -> trusted p lay k) by (intros k K; apply in_map_iff in K; destruct K as [f [<- K]]; exact (Tr f K)).
  destruct (B (rev (map fr_fn fs))) as [d [D L]].
  - apply linked_runs; [exact R|]. intros k K. exact (proj1 (tr_seen _ _ _ (Tk k K))).
  - intros k K. apply in_rev in K. exact (tr_covered _ _ _ (Tk k K)).
  - assert (Bf : in_use fs <= d); [|lia]. apply used_bound; [exact Tr | exact D|]. intros f K. split; [|exact (F f K)]. apply (linked_lt i _ _ R). exact (in_map fr_fn _ _ K).
Qed.
End Exec.
End Machine.
Lemma frames_fit : forall p lay, layout p lay ->
  forall i pos u k, seen p lay i -> promised p lay i -> (i < length (pg_defined p))%nat -> usage p i (LExact k) -> frame_at p lay i pos u -> u <= k.
Proof. intros p lay La i pos u k. exact (frame_bound p lay La i pos u k). Qed.
Theorem machine_bounded : forall p lay, layout p lay ->
  forall demangle o b, wf_prog p -> fair o -> build demangle o p = Ret b ->
  forall start g cs, finish demangle start b = Ret (g, cs) ->
  exists ks, length ks = node_count g /\
    (forall k i n nd, nth_error ks k = Some (KReal i) -> nth_error (gnodes g) k = Some nd -> nmax nd = Some (MExact n) -> below_2_64 g k ->
       forall fs, executes p lay i fs -> (forall f, In f fs -> trusted p lay (fr_fn f)) -> in_use fs <= n) /\
    (no_start demangle p start -> forall i, (i < length (pg_defined p))%nat -> nth_error ks i = Some (KReal i)) /\
    (forall s k, start = Some s -> denotes demangle p s k -> nth_error ks 0 = Some k) /\
    (forall k key nd, nth_error ks k = Some key -> nth_error (gnodes g) k = Some nd -> shows demangle p key nd).
Proof.
  intros p lay La demangle o b W Fo E start g cs H. destruct (covered_bounds demangle o p b W Fo E start g cs H) as [ks [K1 [K2 K3]]]. exists ks. split; [exact K1|]. split; [|exact K3].
  intros k i n nd A1 A2 A3 A4 fs. exact (bounded_machine p lay La demangle o b W E i n fs (K2 k i n nd A1 A2 A3 A4)).
Qed.
(** Code with none of the instructions that are misread is no exception. *)
Lemma plain_seen p lay i : layout p lay -> plain p lay -> seen p lay i.
Proof.
  intros _ Pl. split; intros x Hx; destruct (Pl i x Hx) as [P1 P2]; [exact P1|]. destruct x as [w|w v]; [reflexivity|]. cbn [stack_quirk lost] in *.
  destruct (is_v7 (pg_target p)); [|reflexivity]. cbn [andb] in *. apply orb_false_iff in P2. destruct P2 as [P2 Q3]. apply orb_false_iff in P2. destruct P2 as [Q1 Q2]. rewrite Q1, Q3. reflexivity.
Qed.
