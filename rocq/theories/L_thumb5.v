(** Thumb decoder, part 5: the statements of the properties. *)
From Verif Require Import M_base M_thumb S_thumb L_base L_thumb L_thumb2 L_thumb3 L_thumb4 X_thumb.
Local Open Scope N_scope.

Lemma bl_targets v7 address tags l : function_ok v7 address tags l ->
  exists s, analyze (encode l) address v7 tags = Ret s /\
    bls s = targets call_imm l /\ indirect s = existsb (fun p => is_indirect (snd p)) (placed 0 l).
Proof.
  intros H. destruct (analyze_ok _ _ _ _ H) as [s [E [A _ B _ _]]]. exists s. split; [exact E|]. split; [exact A | exact B].
Qed.
Lemma recorded_targets v7 address tags l s : function_ok v7 address tags l ->
  analyze (encode l) address v7 tags = Ret s -> bs s = targets (branch_recorded v7) l.
Proof.
  intros H E. destruct (analyze_ok _ _ _ _ H) as [s' [E' [_ A _ _ _]]].
  assert (s' = s) by congruence. subst s'. exact A.
Qed.
Lemma recorded_imm v7 i : t3_swapped v7 i = false -> branch_recorded v7 i = branch_imm v7 i.
Proof.
  destruct i as [w | w v]; [reflexivity|]. cbn [t3_swapped branch_recorded branch_imm].
  destruct (v7 && is_b3 w v); [|reflexivity]. cbn [andb]. intros H. apply negb_false_iff, N.eqb_eq in H.
  unfold imm_t3, imm_t3_swapped. rewrite H. reflexivity.
Qed.
Lemma recorded_same v7 l : (forall i, In (Ins i) l -> t3_swapped v7 i = false) ->
  targets (branch_recorded v7) l = targets (branch_imm v7) l.
Proof.
  intros Q. unfold targets.
  assert (Q' : forall p, In p (placed 0 l) -> t3_swapped v7 (snd p) = false).
  { intros p Hp. apply Q. eapply placed_in. exact Hp. }
  revert Q'. generalize (placed 0 l). intros ps. induction ps as [|p ps IH]; intros Q'; [reflexivity|].
  cbn [flat_map]. rewrite IH by (intros q Hq; apply Q'; right; exact Hq). f_equal.
  unfold target. rewrite recorded_imm by (apply Q'; left; reflexivity). reflexivity.
Qed.
Lemma b_targets v7 address tags l s : function_ok v7 address tags l ->
  analyze (encode l) address v7 tags = Ret s ->
  bs s = targets (branch_recorded v7) l /\
  (forall i, t3_swapped v7 i = false -> branch_recorded v7 i = branch_imm v7 i) /\
  ((forall i, In (Ins i) l -> t3_swapped v7 i = false) -> bs s = targets (branch_imm v7) l).
Proof.
  intros H E. split; [|split].
  - exact (recorded_targets v7 address tags l s H E).
  - exact (recorded_imm v7).
  - intros Q. rewrite <- (recorded_same v7 l Q). exact (recorded_targets v7 address tags l s H E).
Qed.

Lemma narrow_alloc_wide v7 w : w < 2 ^ 16 -> wide w = true -> alloc16 v7 w = true.
Proof.
  intros Hw Hwide. unfold wide in Hwide. apply N.leb_le in Hwide. unfold alloc16.
  assert (D : forall k, 2 ^ k <> 0) by (intros k; apply N.pow_nonzero; lia).
  assert (L : 58 * 1024 <= w).
  { pose proof (N.mul_div_le w (2 ^ 11) (D 11)) as M. change (2 ^ 11) with 2048 in *. lia. }
  change (2 ^ 16) with 65536 in Hw.
  assert (H12 : w / 2 ^ 12 = 14 \/ w / 2 ^ 12 = 15).
  { assert (14 <= w / 2 ^ 12) by (apply N.div_le_lower_bound; change (2 ^ 12) with 4096; lia).
    assert (w / 2 ^ 12 < 16) by (apply N.div_lt_upper_bound; change (2 ^ 12) with 4096; lia). lia. }
  assert (F12 : fld w 15 12 = 14 \/ fld w 15 12 = 15).
  { unfold fld. destruct H12 as [-> | ->]; [left | right]; reflexivity. }
  assert (F8 : (fld w 15 8 =? 71) = false).
  { apply N.eqb_neq. unfold fld. change (2 ^ (15 - 8 + 1)) with 256. change (2 ^ 8) with 256.
    assert (224 <= w / 256) by (apply N.div_le_lower_bound; lia).
    assert (w / 256 < 256) by (apply N.div_lt_upper_bound; lia).
    rewrite N.mod_small by lia. lia. }
  rewrite F8. destruct F12 as [-> | ->]; reflexivity.
Qed.

Lemma in_step v7 w : w < 2 ^ 16 -> alloc16 v7 w = true -> bkpt w = false ->
  (chain v7 (hw w) rules16 = Ret None <-> wide w = true) /\
  (wide w = false -> exists k, chain v7 (hw w) rules16 = Ret (Some k)).
Proof.
  intros Hw Ha Hb. destruct (wide w) eqn:E.
  - split; [|discriminate]. split; [reflexivity|]. intros _. apply chain_wide; assumption.
  - split.
    + rewrite (chain_narrow v7 w Hw E Ha Hb). split; discriminate.
    + intros _. eexists. apply chain_narrow; assumption.
Qed.

Lemma width_exact v7 w : w < 2 ^ 16 ->
  (chain v7 (hw w) rules16 = Ret None <-> wide w = true \/ alloc16 v7 w = false \/ bkpt w = true) /\
  (chain v7 (hw w) rules16 <> Ret None -> exists k, chain v7 (hw w) rules16 = Ret (Some k)).
Proof.
  intros Hw. destruct (wide w) eqn:E.
  { rewrite (chain_wide v7 w Hw E). split; [split; [left; reflexivity | reflexivity] | intros K; elim K; reflexivity]. }
  destruct (alloc16 v7 w) eqn:A.
  2: { rewrite (chain_other v7 w Hw (or_introl A)). split; [split; [right; left; reflexivity | reflexivity] | intros K; elim K; reflexivity]. }
  destruct (bkpt w) eqn:B.
  { rewrite (chain_other v7 w Hw (or_intror B)). split; [split; [right; right; reflexivity | reflexivity] | intros K; elim K; reflexivity]. }
  rewrite (chain_narrow v7 w Hw E A B). split; [split; [discriminate | intros [K|[K|K]]; discriminate K] | intros _; eexists; reflexivity].
Qed.
Lemma straight_stack v7 address tags l : function_ok v7 address tags l ->
  (forall i, In (Ins i) l -> t3_swapped v7 i = false /\ stack_quirk v7 i = false) ->
  existsb (inside (size l)) (targets (branch_imm v7) l) = false ->
  exists s, analyze (encode l) address v7 tags = Ret s /\
            stack s = Some (total_drop v7 l) /\ modifies_sp s = some_drop v7 l.
Proof.
  intros H Q B. destruct (analyze_ok _ _ _ _ H) as [s [E _]]. exists s. split; [exact E|].
  destruct (analyze_stack v7 address tags l s H) as [M S]; [intros i Hi; apply Q; exact Hi|exact E|].
  rewrite recorded_same, B in S by (intros i Hi; apply Q; exact Hi). split; assumption.
Qed.

Lemma branch_gives_up v7 address tags l s : function_ok v7 address tags l ->
  (forall i, In (Ins i) l -> t3_swapped v7 i = false) ->
  (exists z, In z (targets (branch_imm v7) l) /\ inside (size l) z = true) ->
  analyze (encode l) address v7 tags = Ret s -> stack s = None.
Proof.
  intros H Q [z [Hz Hin]] E. destruct (analyze_consistent _ _ _ _ _ E) as [_ C].
  apply (C z).
  - rewrite (recorded_targets v7 address tags l s H E), recorded_same by exact Q. exact Hz.
  - unfold inside in Hin. apply andb_true_iff in Hin. destruct Hin as [H1 H2].
    apply Z.leb_le in H1. apply Z.ltb_lt in H2. rewrite <- encode_length in H2. lia.
Qed.

Lemma stack_iff v7 address tags l s n : function_ok v7 address tags l ->
  (forall i, In (Ins i) l -> stack_quirk v7 i = false /\ sp_drop v7 i <> Some 0) ->
  analyze (encode l) address v7 tags = Ret s -> stack s = Some n ->
  (n <> 0 <-> modifies_sp s = true).
Proof.
  intros H Q E S.
  destruct (analyze_stack v7 address tags l s H) as [M T]; [|exact E|].
  { intros i Hi. apply Q. exact Hi. }
  rewrite S in T. destruct (existsb _ _); [discriminate|]. apply Some_eq in T. rewrite M, <- T. clear T M S E.
  unfold total_drop, some_drop.
  assert (Q' : forall p, In p (placed 0 l) -> sp_drop v7 (snd p) <> Some 0).
  { intros p Hp. apply (Q (snd p)). eapply placed_in. exact Hp. }
  revert Q'. generalize (placed 0 l). intros ps. induction ps as [|p ps IH]; intros Q'.
  - cbn. split; [congruence | discriminate].
  - cbn [fold_right existsb].
    specialize (IH (fun q Hq => Q' q (or_intror Hq))). pose proof (Q' p (or_introl eq_refl)) as Qp.
    destruct (sp_drop v7 (snd p)) as [d|].
    + cbn [orb]. split; [reflexivity|]. intros _. assert (d <> 0) by congruence. lia.
    + cbn [orb]. exact IH.
Qed.

(** Pools. *)
Lemma aloop_same v7 address tags len : increasing tags ->
  forall l l', Forall2 same_item l l' -> forall i s,
  (forall x, In x l -> item_ok v7 x) -> (forall x, In x l' -> item_ok v7 x) ->
  tagged tags (address + 2 * i) l -> 
  address + 2 * i + size l <= 2 ^ 32 ->
  aloop v7 address tags len (chunks2 (encode l)) i 0 s = aloop v7 address tags len (chunks2 (encode l')) i 0 s.
Proof.
  intros Hinc l l' F. induction F as [|x y l l' Hxy F IH]; intros i s Hok Hok' Htag Hsp; [reflexivity|].
  assert (Hx : item_ok v7 x) by (apply Hok; left; reflexivity).
  assert (Hl : forall z, In z l -> item_ok v7 z) by (intros z Hz; apply Hok; right; exact Hz).
  assert (Hl' : forall z, In z l' -> item_ok v7 z) by (intros z Hz; apply Hok'; right; exact Hz).
  cbn [tagged] in Htag. destruct Htag as [Hxt Htag].
  change (size (x :: l)) with (item_size x + size l) in *.
  change (encode (x :: l)) with (item_bytes x ++ encode l).
  change (encode (y :: l')) with (item_bytes y ++ encode l').
  change (2 ^ 32) with 4294967296 in *.
  destruct x as [i0 | ws], y as [j0 | ws']; cbn [same_item] in Hxy; try contradiction.
  - subst j0. destruct i0 as [w | w v]; cbn [item_size isize] in *.
    + cbn [item_ok instr_ok] in Hx.
      apply andb_true_iff in Hx. destruct Hx as [Hx Hbk]. apply andb_true_iff in Hx. destruct Hx as [Hx Hal].
      apply andb_true_iff in Hx. destruct Hx as [Hw Hnw]. apply N.ltb_lt in Hw. apply negb_true_iff in Hnw, Hbk.
      cbn [item_bytes ibytes]. rewrite !chunks2_hw. cbn [aloop]. rewrite !N.eqb_refl.
      rewrite N.mod_small by (change (2 ^ 32) with 4294967296; lia).
      rewrite at_tag_code by assumption. cbn [bind]. rewrite chain_narrow by assumption. cbn [bind].
      destruct (exec16 _ _ _ _ _) as [s1| | |]; try reflexivity. cbn [bind]. apply IH; try assumption.
      * replace (address + 2 * N.succ i) with (address + 2 * i + 2) by lia. exact Htag.
      * lia.
    + cbn [item_ok instr_ok] in Hx.
      apply andb_true_iff in Hx. destruct Hx as [Hx H6]. apply andb_true_iff in Hx. destruct Hx as [Hx Hwd].
      apply andb_true_iff in Hx. destruct Hx as [Hw Hv]. apply N.ltb_lt in Hw, Hv.
      cbn [item_bytes ibytes]. rewrite <- !app_assoc, !chunks2_hw. cbn [aloop]. rewrite !N.eqb_refl.
      rewrite N.mod_small by (change (2 ^ 32) with 4294967296; lia).
      rewrite at_tag_code by assumption. cbn [bind]. rewrite chain_wide by assumption. cbn [bind].
      destruct (exec32 _ _ _ _ _ _) as [s1| | |]; try reflexivity. cbn [bind]. apply IH; try assumption.
      * replace (address + 2 * N.succ (N.succ i)) with (address + 2 * i + 4) by lia. exact Htag.
      * lia.
  - destruct Hxt as [Hne Hpt]. destruct ws as [|w ws]; [congruence|]. destruct ws' as [|w' ws']; [discriminate|].
    cbn [length] in Hxy. injection Hxy as Hxy.
    cbn [item_size length] in *. rewrite Nat2N.inj_succ in *.
    cbn [item_bytes]. rewrite !chunks2_pool.
    change (map hw (w :: ws) ++ chunks2 (encode l)) with (hw w :: (map hw ws ++ chunks2 (encode l))).
    change (map hw (w' :: ws') ++ chunks2 (encode l')) with (hw w' :: (map hw ws' ++ chunks2 (encode l'))).
    cbn [aloop]. rewrite !N.eqb_refl, N.mod_small by (change (2 ^ 32) with 4294967296; lia).
    assert (Ha : address + 2 * i < 2 ^ 32) by (change (2 ^ 32) with 4294967296; lia).
    destruct (at_tag_pool tags _ _ _ Hinc Ha Hpt) as [[t [E [Hat Ht]]] | [E Hlast]]; rewrite E; cbn [bind]; [|reflexivity].
    destruct Ht as [-> | [Hlast Ht]].
    + set (n := N.of_nat (length ws)) in *.
      replace ((address + 2 * i + 2 * N.succ n - (address + 2 * i)) / 2 - 1) with n.
      2:{ replace (address + 2 * i + 2 * N.succ n - (address + 2 * i)) with (N.succ n * 2) by lia.
          rewrite N.div_mul by lia. lia. }
      rewrite !aloop_skip by (unfold n; lia). rewrite <- Hxy. fold n. rewrite N.sub_diag.
      apply IH; try assumption.
      * replace (address + 2 * (N.succ i + n)) with (address + 2 * i + 2 * N.succ n) by lia. exact Htag.
      * lia.
    + destruct l as [|z l]; [|discriminate]. inversion F. subst l'. cbn [encode flat_map] in *.
      set (n := N.of_nat (length ws)) in *.
      assert (Hn : n <= (t - (address + 2 * i)) / 2 - 1).
      { assert (N.succ n <= (t - (address + 2 * i)) / 2); [|lia].
        apply N.div_le_lower_bound; lia. }
      rewrite !aloop_skip by (rewrite <- ?Hxy; fold n; exact Hn). reflexivity.
Qed.
Lemma encode_size_same l l' : Forall2 same_item l l' -> size l = size l'.
Proof.
  induction 1 as [|x y l l' Hxy F IH]; [reflexivity|].
  change (size (x :: l)) with (item_size x + size l). change (size (y :: l')) with (item_size y + size l').
  rewrite IH. f_equal. destruct x, y; cbn [same_item] in Hxy; try contradiction; cbn [item_size]; congruence.
Qed.
Lemma pools_ignored v7 address tags l l' : function_ok v7 address tags l ->
  Forall2 same_item l l' -> (forall x, In x l' -> item_ok v7 x) ->
  analyze (encode l) address v7 tags = analyze (encode l') address v7 tags.
Proof.
  intros [Hok [Hinc [Htag [Hsp Hlen]]]] F Hok'. unfold analyze.
  assert (E : length (encode l) = length (encode l')).
  { apply Nat2N.inj. rewrite !encode_length. apply encode_size_same. exact F. }
  rewrite E. apply aloop_same; rewrite ?N.mul_0_r, ?N.add_0_r; assumption.
Qed.

(** Patterns. *)
Lemma matches_agrees a b q : pattern_ok (filter (fun c => negb (Ascii.eqb c "_")) q) ->
  exists r, matches (a, b) (lit "0b" ++ q) = Ret r /\
    (r = true <-> agrees (256 * N_of_ascii b + N_of_ascii a) (filter (fun c => negb (Ascii.eqb c "_")) q)).
Proof.
  intros [Hl Hc]. destruct (matches_iff (a, b) q) as [r [E I]].
  - exact Hl.
  - apply forallb_forall. intros c Hin. destruct (Hc c Hin) as [-> | [-> | ->]]; reflexivity.
  - exists r. split; [exact E|]. rewrite I. fold (clean q). fold (clean q) in Hl. change (hval (a, b)) with (256 * N_of_ascii b + N_of_ascii a).
    split.
    + intros H k Hk. specialize (H k). replace (15 - N.of_nat k) with (N.of_nat (15 - k)) by lia.
      split; intros En; destruct (H _ En) as [H1 H2]; [apply H1 | apply H2]; reflexivity.
    + intros H k c En. assert (k < 16)%nat as Hk by (rewrite <- Hl; apply nth_error_Some; congruence).
      destruct (H k Hk) as [H1 H2]. replace (15 - N.of_nat k) with (N.of_nat (15 - k)) in * by lia.
      split; intros ->; [apply H1 | apply H2]; exact En.
Qed.

(** Counterexamples. *)
Lemma t3_wrong : exists l s, function_ok true 0 [] l /\ analyze (encode l) 0 true [] = Ret s /\
  bs s <> targets (branch_imm true) l.
Proof.
  exists [Ins (I32 0xf000 0xa000)]. eexists. split; [apply plain_ok; reflexivity|]. split; [vm_compute; reflexivity|].
  vm_compute. discriminate.
Qed.
Lemma bkpt_desync : exists l s,
  (forall x, In x l -> match x with Ins (I16 w) => w < 2 ^ 16 /\ wide w = false /\ alloc16 true w = true
                                  | Ins (I32 w v) => w < 2 ^ 16 /\ v < 2 ^ 16 /\ wide w = true
                                  | Pool _ => False end) /\
  analyze (encode l) 0 true [] = Ret s /\ bls s = [] /\ targets call_imm l = [1114%Z].
Proof.
  exists [Ins (I16 0xbe00); Ins (I32 0xf000 0xfa2a); Ins (I16 0xbf00)]. eexists.
  split; [|split; [vm_compute; reflexivity | split; reflexivity]].
  intros x [<- | [<- | [<- | []]]]; repeat split; reflexivity.
Qed.
Lemma subw_missed : exists l s, function_ok true 0 [] l /\ targets (branch_imm true) l = [] /\
  analyze (encode l) 0 true [] = Ret s /\ stack s = Some 0 /\ modifies_sp s = false /\ total_drop true l = 2056.
Proof.
  exists [Ins (I32 0xf6ad 0x0d08)]. eexists. split; [apply plain_ok; reflexivity|]. split; [reflexivity|].
  split; [vm_compute; reflexivity|]. repeat split; reflexivity.
Qed.
Lemma stmdb_no_writeback : exists l s, function_ok true 0 [] l /\ targets (branch_imm true) l = [] /\
  analyze (encode l) 0 true [] = Ret s /\ stack s = Some 24 /\ total_drop true l = 0.
Proof.
  exists [Ins (I32 0xe90d 0x41f0)]. eexists. split; [apply plain_ok; reflexivity|]. split; [reflexivity|].
  split; [vm_compute; reflexivity|]. repeat split; reflexivity.
Qed.
Lemma modified_imm_wrong : exists l s, function_ok true 0 [] l /\ targets (branch_imm true) l = [] /\
  analyze (encode l) 0 true [] = Ret s /\ stack s = Some 1024 /\ total_drop true l = 262148.
Proof.
  exists [Ins (I32 0xf1ad 0x1d04)]. eexists. split; [apply plain_ok; reflexivity|]. split; [reflexivity|].
  split; [vm_compute; reflexivity|]. repeat split; reflexivity.
Qed.
Lemma sub_zero : exists l s, function_ok false 0 [] l /\
  analyze (encode l) 0 false [] = Ret s /\ stack s = Some 0 /\ modifies_sp s = true.
Proof.
  exists [Ins (I16 0xb080)]. eexists. split; [apply plain_ok; reflexivity|].
  split; [vm_compute; reflexivity|]. repeat split; reflexivity.
Qed.
(** push {lr}; cbz r0, .+4 (over the sub); sub sp, #8; bx lr: the branch stays inside the function. *)
Lemma cbz_ignored : exists l s, function_ok true 0 [] l /\
  (exists z, In z (targets (cbz_imm true) l) /\ inside (size l) z = true) /\
  analyze (encode l) 0 true [] = Ret s /\ stack s = Some 12.
Proof.
  exists [Ins (I16 0xb500); Ins (I16 0xb100); Ins (I16 0xb082); Ins (I16 0x4770)]. eexists.
  split; [apply plain_ok; reflexivity|]. split; [exists 6%Z; split; [left; reflexivity | reflexivity]|].
  split; [vm_compute; reflexivity|]. reflexivity.
Qed.
