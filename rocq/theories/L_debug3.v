(** Debug and release builds: no overflow in low machine code. *)
From Coq Require Import Sorted.
From Verif Require Import M_base M_stack M_graph M_analysis M_filter M_names M_thumb M_ty M_parse M_render M_build M_run M_debug S_build S_debug L_base L_thumb L_thumb2 L_build4 L_debug1.
Local Open Scope N_scope.

(** [keeps d r]: what the release build returns, the debug build returns. *)
Definition keeps {A} (d r : outcome A) : Prop := forall x, r = Ret x -> d = Ret x.
Lemma keeps_refl {A} (x : outcome A) : keeps x x. Proof. intros y H. exact H. Qed.
Lemma keeps_eq {A} (x y : outcome A) : x = y -> keeps x y. Proof. intros ->. apply keeps_refl. Qed.
Lemma keeps_bind {A B} (x y : outcome A) (f g : A -> outcome B) : keeps x y -> (forall a, y = Ret a -> keeps (f a) (g a)) -> keeps (bind x f) (bind y g).
Proof.
  intros K H b E. destruct y as [a| | |]; try discriminate E. rewrite (K a eq_refl). cbn [bind] in *. exact (H a eq_refl b E).
Qed.
Lemma keeps_same {A B} (x : outcome A) (f g : A -> outcome B) : (forall a, x = Ret a -> keeps (f a) (g a)) -> keeps (bind x f) (bind x g).
Proof. apply keeps_bind, keeps_refl. Qed.

(** * Sizes *)
Lemma lor_lt a b k : a < 2 ^ k -> b < 2 ^ k -> N.lor a b < 2 ^ k.
Proof.
  intros Ha Hb. destruct (N.eq_dec (N.lor a b) 0) as [->|D]; [lia|]. apply N.log2_lt_pow2; [lia|]. rewrite N.log2_lor.
  assert (P : 0 < k \/ k = 0) by lia. destruct P as [P | ->].
  - apply N.max_lub_lt.
    + destruct (N.eq_dec a 0) as [->|Da]; [exact P | apply N.log2_lt_pow2; lia].
    + destruct (N.eq_dec b 0) as [->|Db]; [exact P | apply N.log2_lt_pow2; lia].
  - change (2 ^ 0) with 1 in *. assert (a = 0) by lia. assert (b = 0) by lia. subst. contradiction.
Qed.
Lemma land_lt x k : N.land x (N.ones k) < 2 ^ k.
Proof. rewrite N.land_ones. apply N.mod_lt. apply N.pow_nonzero. discriminate. Qed.
Lemma count_le n : count_ones n <= n.
Proof.
  destruct n as [|p]; cbn [count_ones]; [lia|]. induction p as [p IH|p IH|]; cbn [pos_ones]; lia.
Qed.
Lemma shl_lt x a k n : x < 2 ^ k -> n = k + a -> N.shiftl x a < 2 ^ n.
Proof. intros H ->. rewrite N.shiftl_mul_pow2, N.pow_add_r. apply N.mul_lt_mono_pos_r; [|exact H]. apply N.neq_0_lt_0, N.pow_nonzero. discriminate. Qed.
Lemma w0_lt h : w0 h < 2 ^ 8. Proof. apply code_lt. Qed.
Lemma w1_lt h : w1 h < 2 ^ 8. Proof. apply code_lt. Qed.
Lemma pow_mono x a b : x < 2 ^ a -> a <= b -> x < 2 ^ b.
Proof. intros H L. eapply N.lt_le_trans; [exact H | apply N.pow_le_mono_r; [discriminate | exact L]]. Qed.

Lemma sext_range x n : (0 <= n <= 25)%Z -> (- 2 ^ 24 <= sign_extend x n < 2 ^ 24)%Z.
Proof.
  intros H. unfold sign_extend. cbv zeta. set (a := wrap32 _). rewrite Z.shiftr_div_pow2 by lia.
  assert (A : (- 2 ^ 31 <= a < 2 ^ 31)%Z). { unfold a, wrap32. pose proof (Z.mod_pos_bound (Z.shiftl x (32 - n) + 2 ^ 31) (2 ^ 32) ltac:(lia)). lia. }
  assert (P : (2 ^ 7 <= 2 ^ (32 - n))%Z) by (apply Z.pow_le_mono_r; lia). set (q := (2 ^ (32 - n))%Z) in *.
  change (2 ^ 7)%Z with 128%Z in P. change (2 ^ 31)%Z with 2147483648%Z in A. change (2 ^ 24)%Z with 16777216%Z.
  split; [apply Z.div_le_lower_bound; lia | apply Z.div_lt_upper_bound; lia].
Qed.

(** * Instructions *)
Record good (i : N) (s : st) : Prop := {
  good_stack : forall k, stack s = Some k -> k <= i * 2 ^ 32;
  good_bs : Forall (fun o => - 2 ^ 24 <= o < 2 * Z.of_N i + 2 ^ 24 + 4)%Z (bs s)
}.
Definition steps (i : N) (d r : outcome st) : Prop := d = r /\ forall s, r = Ret s -> good (N.succ i) s.

Lemma good_next i s : good i s -> good (N.succ i) s.
Proof. intros [A B]. constructor; [intros k E; specialize (A k E); lia|]. eapply Forall_impl; [|exact B]. cbv beta. intros o H. set (z := (2 ^ 24)%Z) in *. lia. Qed.

Section Code.
Variables (i : N) (len : Z) (s : st).
Hypothesis (Low : 2 * i + 2 ^ 25 <= 2 ^ 31) (G : good i s).

Lemma st_same : steps i (Ret s) (Ret s).
Proof. split; [reflexivity|]. intros s' E. injection E as <-. exact (good_next _ _ G). Qed.
Lemma st_panic m : steps i (Panic m) (Panic m).
Proof. split; [reflexivity | discriminate]. Qed.
Lemma st_indirect : steps i (Ret (set_indirect s)) (Ret (set_indirect s)).
Proof. split; [reflexivity|]. intros s' E. injection E as <-. destruct (good_next _ _ G) as [A B]. constructor; [exact A | exact B]. Qed.
Lemma advance_ok imm : (- 2 ^ 24 <= imm < 2 ^ 24)%Z ->
  advance_d imm (Z.of_N i) = Ret (imm + (2 * Z.of_N i + 4))%Z /\ wrap32 (imm + (2 * Z.of_N i + 4)) = (imm + (2 * Z.of_N i + 4))%Z.
Proof.
  intros H. change (2 ^ 24)%Z with 16777216%Z in H. change (2 ^ 25) with 33554432 in Low. change (2 ^ 31) with 2147483648 in Low.
  unfold advance_d. rewrite mul_i32_ok by (change (2 ^ 31)%Z with 2147483648%Z; lia). cbn [bind].
  rewrite add_i32_ok by (change (2 ^ 31)%Z with 2147483648%Z; lia). cbn [bind].
  split; [apply add_i32_ok | apply wrap32_id]; change (2 ^ 31)%Z with 2147483648%Z; lia.
Qed.
Lemma st_b imm : (- 2 ^ 24 <= imm < 2 ^ 24)%Z -> steps i (push_b_d imm (Z.of_N i) len s) (Ret (push_b imm (Z.of_N i) len s)).
Proof.
  intros H. destruct (advance_ok imm H) as [E1 E2]. unfold push_b_d, push_b. rewrite E1. cbn [bind]. rewrite E2.
  assert (R : (- 2 ^ 24 <= imm + (2 * Z.of_N i + 4) < 2 * Z.of_N (N.succ i) + 2 ^ 24 + 4)%Z) by (clear - H; set (z := (2 ^ 24)%Z) in *; lia).
  revert R. generalize (imm + (2 * Z.of_N i + 4))%Z. intros off R. cbv zeta. split; [reflexivity|].
  intros s' E. injection E as <-. destruct (good_next _ _ G) as [A B]. constructor.
  - cbn [stack]. intros k. destruct (_ && _)%Z; [discriminate | apply A].
  - cbn [bs]. apply Forall_app. split; [exact B|]. constructor; [exact R | constructor].
Qed.
Lemma st_bl imm : (- 2 ^ 24 <= imm < 2 ^ 24)%Z -> steps i (push_bl_d imm (Z.of_N i) s) (Ret (push_bl imm (Z.of_N i) s)).
Proof.
  intros H. destruct (advance_ok imm H) as [E1 E2]. unfold push_bl_d, push_bl. rewrite E1. cbn [bind]. rewrite E2. split; [reflexivity|].
  intros s' E. injection E as <-. destruct (good_next _ _ G) as [A B]. constructor; [exact A | exact B].
Qed.
Lemma st_lower n : n < 2 ^ 32 -> steps i (lower_sp_d n s) (Ret (lower_sp n s)).
Proof.
  intros H. pose proof (good_bs _ _ (good_next _ _ G)) as B. destruct G as [A _]. unfold lower_sp_d, lower_sp. destruct (stack s) as [k|] eqn:E.
  - specialize (A k eq_refl). assert (L : k + n < two64).
    { change (2 ^ 32) with 4294967296 in *. change (2 ^ 25) with 33554432 in Low. change (2 ^ 31) with 2147483648 in Low. change two64 with 18446744073709551616. lia. }
    rewrite add_u64_ok by exact L. cbn [bind]. rewrite N.mod_small by exact L. split; [reflexivity|]. intros s' E'. injection E' as <-. constructor; [|exact B].
    cbn [stack]. intros k' E'. injection E' as <-. change (2 ^ 32) with 4294967296 in *. lia.
  - split; [reflexivity|]. intros s' E'. injection E' as <-. constructor; [discriminate | exact B].
Qed.
Lemma st_exec16 k h : steps i (exec16_d k h (Z.of_N i) len s) (exec16 k h (Z.of_N i) len s).
Proof.
  destruct k; cbn [exec16_d exec16]; cbv zeta.
  - apply st_same.
  - destruct (_ =? 14); [apply st_panic|]. destruct (_ =? 15); [apply st_panic|]. apply st_b, sext_range. lia.
  - apply st_b, sext_range. lia.
  - apply st_indirect.
  - destruct (_ =? 14); [apply st_same | apply st_indirect].
  - apply st_lower. eapply N.le_lt_trans; [apply N.mul_le_mono_l, count_le|].
    assert (R : N.lor (N.shiftl (N.land (w1 h) 1) 14) (w0 h) < 2 ^ 16).
    { apply lor_lt; [|apply (pow_mono _ 8); [apply w0_lt | lia]]. apply (pow_mono _ 15); [|lia]. apply (shl_lt _ _ 1); [apply (land_lt _ 1) | reflexivity]. }
    change (2 ^ 16) with 65536 in R. change (2 ^ 32) with 4294967296. lia.
  - apply st_lower. apply (pow_mono _ 9); [|lia]. apply (shl_lt _ _ 7); [apply (land_lt _ 7) | reflexivity].
Qed.
Lemma st_bind {A} (x : outcome A) f g : (forall a, x = Ret a -> steps i (f a) (g a)) -> steps i (bind x f) (bind x g).
Proof. intros H. destruct x; cbn [bind]; try (split; [reflexivity | discriminate]). now apply H. Qed.
Lemma st_exec32 v7 a b : steps i (exec32_d v7 a b (Z.of_N i) len s) (exec32 v7 a b (Z.of_N i) len s).
Proof.
  unfold exec32_d, exec32. cbv zeta.
  apply st_bind. intros [|] _.
  { destruct (_ =? 13); [|apply st_same]. apply st_lower. eapply N.le_lt_trans; [apply N.mul_le_mono_l, count_le|].
    assert (R : N.lor (N.shiftl (N.land (N.shiftr (w1 b) 6) 1) 14) (N.lor (N.shiftl (N.land (w1 b) 31) 8) (w0 b)) < 2 ^ 16).
    { apply lor_lt; [apply (pow_mono _ 15); [apply (shl_lt _ _ 1); [apply (land_lt _ 1) | reflexivity] | lia]|].
      apply lor_lt; [apply (pow_mono _ 13); [apply (shl_lt _ _ 5); [apply (land_lt _ 5) | reflexivity] | lia]|]. apply (pow_mono _ 8); [apply w0_lt | lia]. }
    change (2 ^ 16) with 65536 in R. change (2 ^ 32) with 4294967296. lia. }
  apply st_bind. intros [|] _.
  { destruct (_ =? 13); [|apply st_same]. apply st_lower.
    assert (R : N.lor (N.lor (N.shiftl (N.land (N.shiftr (w1 a) 2) 1) 11) (N.shiftl (N.land (N.shiftr (w1 b) 4) 7) 8)) (w0 b) < 4096).
    { change 4096 with (2 ^ 12). apply lor_lt; [apply lor_lt|].
      - apply (shl_lt _ _ 1); [apply (land_lt _ 1) | reflexivity].
      - apply (pow_mono _ 11); [apply (shl_lt _ _ 3); [apply (land_lt _ 3) | reflexivity] | lia].
      - apply (pow_mono _ 8); [apply w0_lt | lia]. }
    destruct (expand_imm_counted _ R) as [-> K]. exact K. }
  do 2 (apply st_bind; intros [|] _;
    [apply st_lower; apply (pow_mono _ 10); [apply (shl_lt _ _ 8); [apply (land_lt _ 8) | reflexivity] | lia]|]).
  apply st_bind. intros [|] _.
  { destruct (_ =? 7); [apply st_same|]. apply st_b, sext_range. lia. }
  apply st_bind. intros [|] _; [apply st_b, sext_range; lia|].
  apply st_bind. intros [|] _; [apply st_bl, sext_range; lia|].
  apply st_bind. intros [|] _; [|apply st_same]. destruct (_ =? 13); [|apply st_same]. apply st_lower. apply (pow_mono _ 8); [apply (land_lt _ 8) | lia].
Qed.
End Code.

(** * The loop *)
Lemma sorted_next (tags : list (N * tag)) k a x b y : StronglySorted N.le (map fst tags) -> nth_error tags k = Some (a, x) -> nth_error tags (S k) = Some (b, y) -> a <= b.
Proof.
  revert k. induction tags as [|[c z] tags IH]; intros k S E1 E2; [destruct k; discriminate E1|]. cbn [map fst] in S. inversion S as [|? ? S' F]; subst.
  destruct k as [|k]; [|exact (IH k S' E1 E2)]. cbn in E1, E2. injection E1 as -> ->. rewrite Forall_forall in F. apply F. exact (in_map (@fst N tag) _ _ (nth_error_In tags 0 E2)).
Qed.
Lemma at_tag_ok tags start : proper_tags tags -> at_tag_d tags start = at_tag tags start.
Proof.
  intros [S U]. unfold at_tag_d, at_tag. destruct (find_tag tags start) as [[k|]| | |] eqn:E; try reflexivity. cbn [bind].
  destruct (find_tag_found _ _ _ E) as [x Ex]. rewrite Ex. destruct x; [|reflexivity].
  destruct (nth_error tags (Datatypes.S k)) as [[b [|]]|] eqn:Ey; try reflexivity. pose proof (sorted_next _ _ _ _ _ _ S Ex Ey) as L.
  rewrite sub_u32_ok by exact L. cbn [bind]. now rewrite (sub_wrap b start L (U _ _ (nth_error_In _ _ Ey))).
Qed.

Lemma good_le i j s : i <= j -> good i s -> good j s.
Proof.
  intros L [A B]. constructor; [intros k E; specialize (A k E); change (2 ^ 32) with 4294967296 in *; lia|]. eapply Forall_impl; [|exact B]. cbv beta. intros o H. set (z := (2 ^ 24)%Z) in *. lia.
Qed.
Lemma aloop_ok v7 address tags len tot : proper_tags tags -> address + 2 * tot < 2 ^ 32 -> 2 * tot + 2 ^ 25 <= 2 ^ 31 ->
  forall n hs, (length hs <= n)%nat -> forall i skip s, i + N.of_nat (length hs) <= tot -> good i s ->
  aloop_d v7 address tags len hs i skip s = aloop v7 address tags len hs i skip s /\ forall s', aloop v7 address tags len hs i skip s = Ret s' -> good tot s'.
Proof.
  intros T Up Low. assert (B31 : 2 ^ 25 = 33554432 /\ 2 ^ 31 = 2147483648 /\ 2 ^ 32 = 4294967296) by (repeat split; reflexivity).
  induction n as [|n IH]; intros [|h hs] L i skip s Le G.
  1, 3: split; [reflexivity|]; intros s' E; injection E as <-; apply (good_le i); [lia | exact G].
  { cbn in L. lia. }
  cbn [length] in L, Le. rewrite Nat2N.inj_succ in Le. cbn [aloop_d aloop]. rewrite next_ok by lia. cbn [bind].
  assert (Lo : 2 * i + 2 ^ 25 <= 2 ^ 31) by lia.
  destruct (skip =? 0); [|apply IH; [lia | lia | exact (good_next i s G)]].
  rewrite mul_u32_ok by lia. cbn [bind]. rewrite add_u32_ok by lia. cbn [bind]. rewrite (N.mod_small (address + 2 * i)) by lia.
  rewrite (at_tag_ok tags _ T). destruct (at_tag tags (address + 2 * i)) as [[|m|]| | |]; cbn [bind]; try (split; [reflexivity | discriminate]).
  - destruct (chain v7 h rules16) as [[k|]| | |]; cbn [bind]; try (split; [reflexivity | discriminate]).
    + destruct (st_exec16 i len s Lo G k h) as [-> K]. destruct (exec16 k h (Z.of_N i) len s) as [s2| | |]; cbn [bind]; try (split; [reflexivity | discriminate]).
      apply IH; [lia | lia | exact (K s2 eq_refl)].
    + destruct hs as [|h2 hs]; [split; [reflexivity | discriminate]|]. cbn [length] in L, Le. rewrite Nat2N.inj_succ in Le. rewrite next_ok by lia. cbn [bind].
      destruct (st_exec32 i len s Lo G v7 h h2) as [-> K]. destruct (exec32 v7 h h2 (Z.of_N i) len s) as [s2| | |]; cbn [bind]; try (split; [reflexivity | discriminate]).
      apply IH; [lia | lia |]. apply (good_next (N.succ i)). exact (K s2 eq_refl).
  - apply IH; [lia | lia | exact (good_next i s G)].
  - split; [reflexivity|]. intros s' E. injection E as <-. apply (good_le i); [lia | exact G].
Qed.
Lemma chunks2_len s : (2 * length (chunks2 s) <= length s)%nat.
Proof.
  assert (K : forall n s, (length s <= n)%nat -> (2 * length (chunks2 s) <= length s)%nat); [|exact (K (length s) s (le_n _))].
  induction n as [|n IH]; intros [|a [|b t]] L; cbn [chunks2 length] in *; try lia. specialize (IH t ltac:(lia)). lia.
Qed.
Lemma analyze_ok bytes address v7 tags : proper_tags tags -> address + N.of_nat (length bytes) < 2 ^ 32 -> N.of_nat (length bytes) + 2 ^ 25 <= 2 ^ 31 ->
  analyze_d bytes address v7 tags = analyze bytes address v7 tags /\
  forall a, analyze bytes address v7 tags = Ret a -> Forall (fun o => - 2 ^ 24 <= o < Z.of_nat (length bytes) + 2 ^ 24 + 4)%Z (bs a).
Proof.
  intros T U L. pose proof (chunks2_len bytes) as C. unfold analyze_d, analyze.
  destruct (aloop_ok v7 address tags (Z.of_nat (length bytes)) (N.of_nat (length (chunks2 bytes))) T) with (n := length (chunks2 bytes)) (hs := chunks2 bytes) (i := 0) (skip := 0) (s := st0) as [E K].
  - set (y := 2 ^ 32) in *. lia.
  - set (x := 2 ^ 25) in *. set (y := 2 ^ 31) in *. lia.
  - apply le_n.
  - lia.
  - constructor; [|constructor]. cbn [st0 stack]. intros k E. injection E as <-. lia.
  - split; [exact E|]. intros a Ea. destruct (K a Ea) as [_ F]. eapply Forall_impl; [|exact F]. cbv beta. intros o H. set (z := (2 ^ 24)%Z) in *. lia.
Qed.

(** * Edges *)
Lemma code_size_ok tags a sym : proper_tags tags -> code_size_d tags a sym = code_size tags a sym.
Proof.
  intros [S U]. unfold code_size_d, code_size. destruct (_ =? 0); [|reflexivity]. destruct (find_tag tags a) as [[k|]| | |]; try reflexivity. cbn [bind].
  destruct (nth_error tags k) as [[b [|]]|] eqn:E1; try reflexivity. destruct (nth_error tags (Datatypes.S k)) as [[c [|]]|] eqn:E2; try reflexivity.
  pose proof (sorted_next _ _ _ _ _ _ S E1 E2) as L. rewrite sub_u32_ok by exact L. now rewrite (sub_wrap c b L (U _ _ (nth_error_In _ _ E2))).
Qed.
Lemma wrap_address a : a < 2 ^ 32 -> a < 2 ^ 31 /\ wrap32 (Z.of_N a) = Z.of_N a \/ 2 ^ 31 <= a /\ (wrap32 (Z.of_N a) = Z.of_N a - 2 ^ 32)%Z.
Proof.
  intros U. destruct (N.lt_ge_cases a (2 ^ 31)) as [L|L]; [left | right]; split; try exact L.
  - apply wrap32_id. change (2 ^ 31) with 2147483648 in L. change (2 ^ 31)%Z with 2147483648%Z. lia.
  - unfold wrap32. replace (Z.of_N a + 2 ^ 31)%Z with (Z.of_N a - 2 ^ 31 + 1 * 2 ^ 32)%Z by (change (2 ^ 31)%Z with 2147483648%Z; change (2 ^ 32)%Z with 4294967296%Z; lia).
    rewrite Z.mod_add by (vm_compute; discriminate). change (2 ^ 32) with 4294967296 in U. change (2 ^ 31) with 2147483648 in L.
    rewrite Z.mod_small; change (2 ^ 31)%Z with 2147483648%Z; change (2 ^ 32)%Z with 4294967296%Z; lia.
Qed.
Ltac halves := change (2 ^ 31) with 2147483648 in *; change (2 ^ 32) with 4294967296 in *; change (2 ^ 31)%Z with 2147483648%Z in *; change (2 ^ 32)%Z with 4294967296%Z in *; lia.
Lemma add_b_iff indices a2n caller address size x off y : address < 2 ^ 32 -> address + size < 2 ^ 32 -> (- 2 ^ 31 <= off < 2 ^ 31)%Z ->
  add_b_d indices a2n caller address size x off = Ret y <-> add_b indices a2n caller address size x off = Ret y /\ same_half address off.
Proof.
  intros U L R. unfold add_b_d, add_b, add_i32. pose proof (wrap_address address U) as Wa. destruct (in_i32_spec (wrap32 (Z.of_N address) + off)) as [H|H].
  - assert (Sh : same_half address off) by (split; intros K; halves). cbn [bind]. rewrite wrap32_mod. fold (b_addr address off). cbv zeta. set (addr := b_addr address off).
    destruct (address <=? addr); cbn [andb bind]; [rewrite add_u32_ok by exact L; cbn [bind]; rewrite (N.mod_small (address + size)) by exact L|]; tauto.
  - split; [discriminate|]. intros [_ [H1 H2]]. exfalso. apply H. halves.
Qed.
Lemma bind_and {A B} (x : outcome A) (f g : A -> outcome B) y (P : Prop) : (forall a, x = Ret a -> f a = Ret y <-> g a = Ret y /\ P) -> bind x f = Ret y <-> bind x g = Ret y /\ P.
Proof. intros H. destruct x; cbn [bind]; [now apply H | split; [discriminate | intros [E _]; discriminate E] ..]. Qed.
Lemma ofold_and {S X} (f g : S -> X -> outcome S) (P : X -> Prop) l : (forall s x y, In x l -> f s x = Ret y <-> g s x = Ret y /\ P x) ->
  forall s y, ofold f l s = Ret y <-> ofold g l s = Ret y /\ forall x, In x l -> P x.
Proof.
  induction l as [|x l IH]; intros H s y; cbn [ofold].
  - split; [intros E; split; [exact E | intros x []] | intros [E _]; exact E].
  - specialize (IH (fun s x y I => H s x y (or_intror I))). split.
    + intros E. apply bind_Ret in E. destruct E as [a [E1 E2]]. apply H in E1; [|now left]. destruct E1 as [E1 P1]. apply IH in E2. destruct E2 as [E2 P2].
      rewrite E1. cbn [bind]. split; [exact E2|]. intros z [<-|I]; [exact P1 | exact (P2 z I)].
    + intros [E P1]. apply bind_Ret in E. destruct E as [a [E1 E2]].
      assert (F : f s x = Ret a) by (apply H; [now left | split; [exact E1 | apply P1; now left]]). rewrite F. cbn [bind]. apply IH. split; [exact E2|]. intros z I. apply P1. now right.
Qed.
Lemma slice_len s start len r : slice s start len = Ret r -> start + len <= N.of_nat (length s) /\ N.of_nat (length r) = len.
Proof.
  unfold slice. destruct (N.leb_spec (start + len) (N.of_nat (length s))) as [L|L]; [|discriminate]. intros E. injection E as <-. split; [exact L|].
  rewrite firstn_length, skipn_length. lia.
Qed.
Lemma exec_code_iff p n e stext text x s y : proper_tags (pg_tags p) -> stext + N.of_nat (length text) < 2 ^ 32 -> N.of_nat (length text) + 2 ^ 25 <= 2 ^ 31 ->
  let address := fst s mod 2 ^ 32 in
  exec_code_d p n e stext text x s = Ret y <-> exec_code p n e stext text x s = Ret y /\
    forall size cd a, code_size (pg_tags p) address (snd s) = Ret size -> slice text ((address + 2 ^ 32 - stext) mod 2 ^ 32) size = Ret cd ->
      analyze cd address (is_v7 (pg_target p)) (pg_tags p) = Ret a -> forall off, In off (bs a) -> same_half address off.
Proof.
  intros T Up Sm address. unfold exec_code_d, exec_code. fold address.
  assert (No : forall m (P : Prop), @Panic (graph node * list (nat * nat)) m = Ret y <-> @Panic (graph node * list (nat * nat)) m = Ret y /\ P) by (intros m P; split; [discriminate | intros [K _]; discriminate K]).
  destruct (sy_names (snd s)) as [|name ns]; [apply No|]. destruct (sget (n_aliases n) name) as [c|]; [|apply No].
  rewrite (code_size_ok _ _ _ T). apply bind_and. intros size Ez.
  assert (U : address < 2 ^ 32) by (apply N.mod_lt; vm_compute; discriminate).
  destruct (slice text ((address + 2 ^ 32 - stext) mod 2 ^ 32) size) as [cd| | |] eqn:Es.
  2, 3, 4: split; [|intros [K _]; discriminate K].
  2, 3, 4: intros K; exfalso; apply bind_Ret in K; destruct K as [st [K1 K]]; unfold sub_u32 in K1; destruct (N.leb_spec stext address) as [Le|Le]; [|discriminate K1];
    injection K1 as <-; rewrite (sub_wrap address stext Le U) in Es; rewrite Es in K; discriminate K.
  destruct (slice_len _ _ _ _ Es) as [L1 L2].
  assert (Le : stext <= address).
  { destruct (N.le_gt_cases stext address) as [H|H]; [exact H | exfalso].
    rewrite N.mod_small in L1; change (2 ^ 25) with 33554432 in *; change (2 ^ 31) with 2147483648 in *; change (2 ^ 32) with 4294967296 in *; lia. }
  pose proof Es as Es'. rewrite (sub_wrap address stext Le U) in Es', L1. rewrite sub_u32_ok by exact Le. cbn [bind]. rewrite Es'. cbn [bind].
  assert (Up2 : address + size < 2 ^ 32) by (set (y2 := 2 ^ 32) in *; lia).
  destruct (analyze_ok cd address (is_v7 (pg_target p)) (pg_tags p) T) as [-> F]; [rewrite L2; exact Up2 | rewrite L2; set (z := 2 ^ 25) in *; set (y2 := 2 ^ 31) in *; lia|].
  apply bind_and. intros a Ea. specialize (F a Ea). destruct (sget (e_indices e) c) as [caller|]; [|apply No]. destruct x as [g seen].
  do 3 (apply bind_and; intros ? _).
  rewrite (ofold_and _ (add_b (e_indices e) (n_addr2name n) caller address size) (same_half address)).
  - split; intros [H1 H2]; (split; [exact H1|]).
    + intros size' cd' a' Z1 Z2 Z3. rewrite Ez in Z1. injection Z1 as <-. rewrite Es in Z2. injection Z2 as <-. rewrite Ea in Z3. injection Z3 as <-. exact H2.
    + exact (H2 size cd a Ez Es Ea).
  - intros st off y' I. apply add_b_iff; [exact U | exact Up2|]. rewrite Forall_forall in F. specialize (F off I). rewrite <- nat_N_Z, L2 in F.
    change (2 ^ 24)%Z with 16777216%Z in F. change (2 ^ 25) with 33554432 in Sm. change (2 ^ 31) with 2147483648 in Sm. change (2 ^ 31)%Z with 2147483648%Z. lia.
Qed.
Lemma machine_iff p n e y : proper_tags (pg_tags p) -> text_fits p ->
  machine_edges_d p n e = Ret y <-> machine_edges p n e = Ret y /\ no_crossing p.
Proof.
  intros T Fi. unfold machine_edges_d, machine_edges. destruct (is_thumb (pg_target p)) eqn:Et.
  2: { split; [intros H; split; [exact H|]; intros i addr size a off [A _]; congruence | intros [H _]; exact H]. }
  destruct (pg_text p) as [[stext text]|] eqn:E.
  2: { split; [intros H; split; [exact H|]; intros i addr size a off [_ [st [tx [sy [cd [A _]]]]]]; congruence | intros [H _]; exact H]. }
  destruct (Fi _ _ E) as [Up Sm].
  assert (K : forall x, ofold (exec_code_d p n e (stext mod 2 ^ 32) text) (pg_defined p) (e_g e, e_seen e) = Ret x <->
                        ofold (exec_code p n e (stext mod 2 ^ 32) text) (pg_defined p) (e_g e, e_seen e) = Ret x /\ no_crossing p).
  { intros x. rewrite (ofold_and _ (exec_code p n e (stext mod 2 ^ 32) text) (fun s => let address := fst s mod 2 ^ 32 in
      forall size cd a, code_size (pg_tags p) address (snd s) = Ret size -> slice text ((address + 2 ^ 32 - stext mod 2 ^ 32) mod 2 ^ 32) size = Ret cd ->
      analyze cd address (is_v7 (pg_target p)) (pg_tags p) = Ret a -> forall off, In off (bs a) -> same_half address off)).
    - split; intros [H1 H2]; (split; [exact H1|]).
      + intros i addr size a off [_ [st [tx [sy [cd [A1 [A2 [-> [A4 [A5 A6]]]]]]]]]] I. rewrite E in A1. injection A1 as <- <-.
        apply (H2 sy (nth_error_In _ _ A2) size cd a); [apply code_size_iff; exact A4 | apply slice_iff; exact A5 | exact A6 | exact I].
      + intros s I. cbv zeta. intros size cd a Z1 Z2 Z3 off Io. apply In_nth_error in I. destruct I as [i I]. apply (H2 i _ size a off); [|exact Io].
        split; [exact Et|]. exists stext, text, s, cd. split; [exact E|]. split; [exact I|]. split; [reflexivity|]. split; [apply code_size_iff; exact Z1|]. split; [apply slice_iff; exact Z2 | exact Z3].
    - intros s sy z I. exact (exec_code_iff p n e _ text s sy z T Up Sm). }
  split.
  - intros H. apply bind_Ret in H. destruct H as [[g sn] [H1 H2]]. apply K in H1. destruct H1 as [H1 Nc]. rewrite H1. split; [exact H2 | exact Nc].
  - intros [H Nc]. apply bind_Ret in H. destruct H as [[g sn] [H1 H2]]. assert (H3 := proj2 (K (g, sn)) (conj H1 Nc)). rewrite H3. exact H2.
Qed.

(** * Low code *)
Lemma low_fits p : low_text p -> text_fits p.
Proof. intros L stext text E. specialize (L _ _ E). set (st := stext mod 2 ^ 32) in *. clearbody st. change (2 ^ 25) with 33554432 in *. change (2 ^ 31) with 2147483648 in *. change (2 ^ 32) with 4294967296 in *. lia. Qed.
Lemma low_crossing p : proper_tags (pg_tags p) -> low_text p -> no_crossing p.
Proof.
  intros T L i addr size a off [_ [stext [text [x [code [A1 [A2 [A3 [A4 [A5 A6]]]]]]]]]] I. specialize (L _ _ A1). apply slice_iff in A5. destruct (slice_len _ _ _ _ A5) as [L1 L2].
  assert (U : addr < 2 ^ 32) by (rewrite A3; apply N.mod_lt; vm_compute; discriminate). set (st := stext mod 2 ^ 32) in *. clearbody st. clear A3.
  assert (Le : st <= addr).
  { destruct (N.le_gt_cases st addr) as [H|H]; [exact H | exfalso].
    rewrite N.mod_small in L1; change (2 ^ 25) with 33554432 in *; change (2 ^ 31) with 2147483648 in *; change (2 ^ 32) with 4294967296 in *; lia. }
  rewrite (sub_wrap addr st Le U) in L1.
  change (2 ^ 25) with 33554432 in *. change (2 ^ 31) with 2147483648 in *. change (2 ^ 32) with 4294967296 in *.
  destruct (analyze_ok code addr (is_v7 (pg_target p)) (pg_tags p) T) as [_ F]; [change (2 ^ 32) with 4294967296; lia | change (2 ^ 25) with 33554432; change (2 ^ 31) with 2147483648; lia|].
  specialize (F a A6). rewrite Forall_forall in F. specialize (F off I). rewrite <- nat_N_Z, L2 in F. change (2 ^ 24)%Z with 16777216%Z in F.
  split; intros K; change (2 ^ 31) with 2147483648 in *; change (2 ^ 31)%Z with 2147483648%Z; lia.
Qed.
