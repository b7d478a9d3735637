(** Thumb decoder, part 1: bit patterns, and the facts about single halfwords.  Facts about all 65536
    halfwords are boolean formulas over the 16 bits, decided by Shannon expansion ([taut]). *)
From Verif Require Import M_base M_thumb S_thumb L_base.
Local Open Scope N_scope.

(** * Patterns *)

Definition pchar (c : ascii) : bool := Ascii.eqb c "0" || Ascii.eqb c "1" || Ascii.eqb c "x".
Definition pm (c : ascii) : N := if Ascii.eqb c "x" then 0 else 1.
Definition pv (c : ascii) : N := if Ascii.eqb c "1" then 1 else 0.
Fixpoint horner (f : ascii -> N) (s : str) (acc : N) : N :=
  match s with [] => acc | c :: s => horner f s (2 * acc + f c) end.

Lemma pchar_cases c : pchar c = true -> c = "0"%char \/ c = "1"%char \/ c = "x"%char.
Proof.
  unfold pchar. rewrite !orb_true_iff, !Ascii.eqb_eq. tauto.
Qed.

Lemma bin_mask s : forall acc, forallb pchar s = true ->
  bin_digits (replace_byte "x" "0" (replace_byte "0" "1" s)) acc = Some (horner pm s acc).
Proof.
  induction s as [|c s IH]; intros acc H; [reflexivity|].
  cbn [forallb] in H. apply andb_true_iff in H. destruct H as [Hc Hs].
  apply pchar_cases in Hc. destruct Hc as [-> | [-> | ->]];
    cbn; apply IH; exact Hs.
Qed.
Lemma bin_value s : forall acc, forallb pchar s = true ->
  bin_digits (replace_byte "x" "0" s) acc = Some (horner pv s acc).
Proof.
  induction s as [|c s IH]; intros acc H; [reflexivity|].
  cbn [forallb] in H. apply andb_true_iff in H. destruct H as [Hc Hs].
  apply pchar_cases in Hc. destruct Hc as [-> | [-> | ->]]; cbn; apply IH; exact Hs.
Qed.

Lemma pat_mask_ok s : forallb pchar s = true -> s <> [] -> pat_mask s = Some (horner pm s 0).
Proof.
  intros H Hn. unfold pat_mask. rewrite <- bin_mask by exact H. destruct s as [|c s]; [congruence|].
  cbn [forallb] in H. apply andb_true_iff in H. destruct H as [Hc _].
  apply pchar_cases in Hc. destruct Hc as [-> | [-> | ->]]; reflexivity.
Qed.
Lemma pat_value_ok s : forallb pchar s = true -> s <> [] -> pat_value s = Some (horner pv s 0).
Proof.
  intros H Hn. unfold pat_value. rewrite <- bin_value by exact H. destruct s as [|c s]; [congruence|].
  cbn [forallb] in H. apply andb_true_iff in H. destruct H as [Hc _].
  apply pchar_cases in Hc. destruct Hc as [-> | [-> | ->]]; reflexivity.
Qed.

Lemma pm1 c : pm c < 2. Proof. unfold pm. destruct (Ascii.eqb c "x"); lia. Qed.
Lemma pv1 c : pv c < 2. Proof. unfold pv. destruct (Ascii.eqb c "1"); lia. Qed.

Lemma horner_snoc f s c acc : horner f (s ++ [c]) acc = 2 * horner f s acc + f c.
Proof. revert acc. induction s as [|d s IH]; intros acc; [reflexivity|]. cbn [app horner]. apply IH. Qed.

(** [horner] read from the last character. *)
Definition agree_char (c : ascii) (b : bool) : Prop :=
  (c = "0"%char -> b = false) /\ (c = "1"%char -> b = true).

Lemma land_step m v x a b : a < 2 -> b < 2 ->
  (N.land x (2 * m + a) = 2 * v + b <-> N.land (x / 2) m = v /\ N.land (x mod 2) a = b).
Proof.
  intros Ha Hb.
  assert (E : N.land x (2 * m + a) = 2 * N.land (x / 2) m + N.land (x mod 2) a).
  { rewrite (N.div_mod x 2) at 1 by lia.
    assert (x mod 2 < 2) by (apply N.mod_lt; lia).
    set (q := x / 2) in *. set (r := x mod 2) in *. clearbody q r.
    assert (Hr : r = 0 \/ r = 1) by lia. assert (Ha' : a = 0 \/ a = 1) by lia.
    destruct Hr as [-> | ->]; destruct Ha' as [-> | ->];
      apply N.bits_inj; intro n;
      rewrite N.land_spec; destruct (N.eq_dec n 0) as [-> | Hn];
      rewrite ?N.add_0_r, ?N.testbit_even_0, ?N.testbit_odd_0; try reflexivity;
      replace n with (N.succ (N.pred n)) by lia;
      rewrite ?N.testbit_even_succ, ?N.testbit_odd_succ by lia; rewrite ?N.land_spec; try reflexivity;
      change (N.land 0 1) with 0; change (N.land 1 0) with 0; change (N.land 1 1) with 1;
      change (N.land 0 0) with 0; rewrite ?N.add_0_r;
      rewrite ?N.testbit_even_succ, ?N.testbit_odd_succ by lia; rewrite ?N.land_spec; reflexivity. }
  rewrite E.
  assert (N.land (x mod 2) a < 2).
  { assert (x mod 2 < 2) by (apply N.mod_lt; lia).
    set (r := x mod 2) in *. clearbody r.
    assert (Hr : r = 0 \/ r = 1) by lia. assert (Ha' : a = 0 \/ a = 1) by lia.
    destruct Hr as [-> | ->]; destruct Ha' as [-> | ->]; cbn; lia. }
  set (A := N.land (x / 2) m) in *. set (B := N.land (x mod 2) a) in *. clearbody A B. lia.
Qed.

Lemma land_agree s : forall x, forallb pchar s = true -> x < 2 ^ N.of_nat (length s) ->
  (N.land x (horner pm s 0) = horner pv s 0 <->
   forall k c, nth_error s k = Some c -> agree_char c (N.testbit x (N.of_nat (length s - 1 - k)))).
Proof.
  induction s as [|c s IH] using rev_ind; intros x Hs Hx.
  - cbn. rewrite N.land_0_r. split; [intros _ k c H; destruct k; discriminate | reflexivity].
  - rewrite forallb_app in Hs. apply andb_true_iff in Hs. destruct Hs as [Hs Hc].
    cbn [forallb] in Hc. rewrite andb_true_r in Hc.
    rewrite !horner_snoc, land_step by (apply pm1 || apply pv1).
    rewrite app_length in *. cbn [length] in *.
    rewrite Nat.add_1_r in *. rewrite Nat2N.inj_succ, N.pow_succ_r' in Hx.
    assert (Hx2 : x / 2 < 2 ^ N.of_nat (length s)) by (apply N.div_lt_upper_bound; lia).
    rewrite (IH (x / 2) Hs Hx2). clear IH.
    assert (Hlast : N.land (x mod 2) (pm c) = pv c <-> agree_char c (N.testbit x 0)).
    { rewrite <- (N.bit0_mod x). unfold agree_char.
      apply pchar_cases in Hc. destruct Hc as [-> | [-> | ->]]; destruct (N.testbit x 0); cbn;
        (split; [intros E; split; intros E2; try reflexivity; try discriminate
                |intros [E1 E2]; try reflexivity; try (specialize (E1 eq_refl)); try (specialize (E2 eq_refl)); try discriminate]). }
    rewrite Hlast.
    assert (Hsh : forall k, (k < length s)%nat ->
              N.testbit (x / 2) (N.of_nat (length s - 1 - k)) = N.testbit x (N.of_nat (S (length s) - 1 - k))).
    { intros k Hk. rewrite <- N.div2_div, N.div2_spec, N.shiftr_spec'. f_equal. lia. }
    split.
    + intros [H1 H2] k d Hk.
      destruct (Nat.lt_ge_cases k (length s)) as [Hl | Hg].
      * rewrite nth_error_app1 in Hk by exact Hl. rewrite <- Hsh by exact Hl. apply H1. exact Hk.
      * rewrite nth_error_app2 in Hk by exact Hg.
        destruct (k - length s)%nat as [|j] eqn:Ej; [|destruct j; discriminate].
        cbn in Hk. injection Hk as <-. replace (S (length s) - 1 - k)%nat with 0%nat by lia. exact H2.
    + intros H. split.
      * intros k d Hk. assert (k < length s)%nat by (apply nth_error_Some; congruence).
        rewrite Hsh by assumption. apply H. rewrite nth_error_app1 by assumption. exact Hk.
      * specialize (H (length s) c). rewrite nth_error_app2, Nat.sub_diag in H by lia.
        specialize (H eq_refl). replace (S (length s) - 1 - length s)%nat with 0%nat in H by lia. exact H.
Qed.

(** The 16 characters of a pattern after removing the underscores. *)
Definition hval (h : hword) : N := 256 * w1 h + w0 h.

Lemma code_lt c : code c < 256. Proof. apply N_ascii_bounded. Qed.

Lemma hval_lt h : hval h < 2 ^ 16.
Proof. unfold hval, w0, w1. pose proof (code_lt (fst h)). pose proof (code_lt (snd h)). change (2^16) with 65536. lia. Qed.

Lemma hval_bit_low h n : (n < 8)%nat -> N.testbit (hval h) (N.of_nat n) = N.testbit (w0 h) (N.of_nat n).
Proof.
  intros Hn. unfold hval. pose proof (code_lt (fst h)). fold (w0 h) in *.
  replace (w0 h) with ((256 * w1 h + w0 h) mod 2 ^ 8) at 2.
  2:{ change (2 ^ 8) with 256. rewrite N.add_comm, N.mul_comm, N.mod_add by lia. apply N.mod_small. exact H. }
  rewrite N.mod_pow2_bits_low by lia. reflexivity.
Qed.
Lemma hval_bit_high h n : N.testbit (hval h) (N.of_nat (8 + n)) = N.testbit (w1 h) (N.of_nat n).
Proof.
  unfold hval. pose proof (code_lt (fst h)). fold (w0 h) in *.
  replace (w1 h) with ((256 * w1 h + w0 h) / 2 ^ 8) at 2.
  2:{ change (2 ^ 8) with 256. rewrite N.add_comm, N.mul_comm, N.div_add by lia.
      rewrite N.div_small by exact H. reflexivity. }
  rewrite N.div_pow2_bits. f_equal. lia.
Qed.

Definition clean (s : str) : str := filter (fun c => negb (Ascii.eqb c "_")) s.

Lemma matches_iff h q : length (clean q) = 16%nat -> forallb pchar (clean q) = true ->
  exists b, matches h (lit "0b" ++ q) = Ret b /\
    (b = true <-> forall k c, nth_error (clean q) k = Some c ->
                    agree_char c (N.testbit (hval h) (N.of_nat (15 - k)))).
Proof.
  intros Hl Hp. unfold matches.
  change (starts_with (lit "0b") (lit "0b" ++ q)) with true.
  change (skipn 2 (lit "0b" ++ q)) with q. cbv zeta. fold (clean q). rewrite Hl. cbn [negb Nat.eqb].
  set (p := clean q) in *. clearbody p. clear q.
  assert (Hsplit : p = firstn 8 p ++ skipn 8 p) by (symmetry; apply firstn_skipn).
  assert (L1 : length (firstn 8 p) = 8%nat) by (rewrite firstn_length; lia).
  assert (L2 : length (skipn 8 p) = 8%nat) by (rewrite skipn_length; lia).
  set (p1 := firstn 8 p) in *. set (p2 := skipn 8 p) in *. clearbody p1 p2.
  assert (Hp' := Hp). rewrite Hsplit in Hp'. rewrite forallb_app in Hp'.
  apply andb_true_iff in Hp'. destruct Hp' as [H1 H2].
  rewrite !pat_mask_ok, !pat_value_ok by (assumption || (intros ->; discriminate)).
  eexists. split; [reflexivity|].
  rewrite andb_true_iff, !N.eqb_eq.
  assert (w1 h < 2 ^ N.of_nat (length p1)) by (rewrite L1; apply code_lt).
  assert (w0 h < 2 ^ N.of_nat (length p2)) by (rewrite L2; apply code_lt).
  rewrite !land_agree by assumption. rewrite L1, L2, Hsplit. split.
  - intros [A B] k c Hk. destruct (Nat.lt_ge_cases k 8) as [Hlt | Hge].
    + rewrite nth_error_app1 in Hk by lia.
      replace (15 - k)%nat with (8 + (8 - 1 - k))%nat by lia. rewrite hval_bit_high. apply A. exact Hk.
    + assert (k < length (p1 ++ p2))%nat by (apply nth_error_Some; congruence).
      rewrite app_length, L1, L2 in H3.
      rewrite nth_error_app2, L1 in Hk by lia.
      rewrite hval_bit_low by lia. replace (15 - k)%nat with (8 - 1 - (k - 8))%nat by lia. apply B. exact Hk.
  - intros A. split; intros k c Hk.
    + assert (k < length p1)%nat by (apply nth_error_Some; congruence). rewrite L1 in H3.
      rewrite <- hval_bit_high. replace (8 + (8 - 1 - k))%nat with (15 - k)%nat by lia. apply A.
      rewrite nth_error_app1 by lia. exact Hk.
    + assert (k < length p2)%nat by (apply nth_error_Some; congruence). rewrite L2 in H3.
      rewrite <- hval_bit_low by lia. replace (8 - 1 - k)%nat with (15 - (8 + k))%nat by lia. apply A.
      rewrite nth_error_app2, L1 by lia. replace (8 + k - 8)%nat with k by lia. exact Hk.
Qed.

(** * Formulas over bits *)

Inductive form := FC (b : bool) | FBit (n : N) | FIf (c a b : form).
Fixpoint eval (env : N -> bool) (f : form) : bool :=
  match f with
  | FC b => b
  | FBit n => env n
  | FIf c a b => if eval env c then eval env a else eval env b
  end.
Definition fif (c a b : form) : form :=
  match c with
  | FC true => a
  | FC false => b
  | _ => match a, b with
         | FC true, FC true => FC true
         | FC false, FC false => FC false
         | _, _ => FIf c a b
         end
  end.
Lemma eval_fif env c a b : eval env (fif c a b) = if eval env c then eval env a else eval env b.
Proof.
  assert (D : forall c a b, eval env (match a, b with FC true, FC true => FC true | FC false, FC false => FC false
                                     | _, _ => FIf c a b end) = if eval env c then eval env a else eval env b).
  { clear. intros c a b. destruct a as [[|]| |], b as [[|]| |]; cbn [eval]; try reflexivity; destruct (eval env c); reflexivity. }
  unfold fif. destruct c as [[|]|n|c1 c2 c3]; [reflexivity|reflexivity|apply D|apply D].
Qed.
Fixpoint assign (n : N) (v : bool) (f : form) : form :=
  match f with
  | FC b => FC b
  | FBit m => if (m =? n)%N then FC v else FBit m
  | FIf c a b =>
      match assign n v c with
      | FC true => assign n v a
      | FC false => assign n v b
      | c' => fif c' (assign n v a) (assign n v b)
      end
  end.
Lemma eval_assign env n f : eval env (assign n (env n) f) = eval env f.
Proof.
  induction f as [b|m|c IHc a IHa b IHb]; [reflexivity| |].
  - cbn [assign]. destruct (N.eqb_spec m n) as [-> | H]; reflexivity.
  - cbn [assign eval]. rewrite <- IHc, <- IHa, <- IHb.
    destruct (assign n (env n) c) as [[|]|k|x y z]; [reflexivity|reflexivity|apply eval_fif|apply eval_fif].
Qed.
Fixpoint taut (n : nat) (f : form) : bool :=
  match f with
  | FC b => b
  | _ =>
      match n with
      | O => false
      | S k => if taut k (assign (N.of_nat k) true f) then taut k (assign (N.of_nat k) false f) else false
      end
  end.
Lemma taut_sound env n : forall f, taut n f = true -> eval env f = true.
Proof.
  induction n as [|n IH]; intros f H.
  - destruct f; try discriminate. exact H.
  - assert (H' : eval env f = true \/
       (if taut n (assign (N.of_nat n) true f) then taut n (assign (N.of_nat n) false f) else false) = true).
    { destruct f; [left; exact H|right; exact H|right; exact H]. }
    destruct H' as [H' | H']; [exact H'|].
    destruct (taut n (assign (N.of_nat n) true f)) eqn:T1; [|discriminate].
    rewrite <- (eval_assign env (N.of_nat n)). destruct (env (N.of_nat n)); apply IH; assumption.
Qed.

Definition fand (a b : form) : form := FIf a b (FC false).
Definition for_ (a b : form) : form := FIf a (FC true) b.
Definition fnot (a : form) : form := FIf a (FC false) (FC true).
Definition fimp (a b : form) : form := FIf a b (FC true).
Definition feqb (a b : form) : form := FIf a b (fnot b).
Lemma eval_feqb env a b : eval env (feqb a b) = Bool.eqb (eval env a) (eval env b).
Proof. cbn [feqb fnot eval]. destruct (eval env a), (eval env b); reflexivity. Qed.

(** [fld w hi lo =? k] as a formula. *)
Definition flit (n : N) (v : bool) (rest : form) : form :=
  if v then FIf (FBit n) rest (FC false) else FIf (FBit n) (FC false) rest.
Lemma eval_flit env n v rest : eval env (flit n v rest) = Bool.eqb (env n) v && eval env rest.
Proof. unfold flit. destruct v; cbn [eval]; destruct (env n), (eval env rest); reflexivity. Qed.
Fixpoint flits (m : nat) (lo : N) (k : N) : form :=
  match m with
  | O => FC true
  | S m => flit (lo + N.of_nat m) (N.testbit k (N.of_nat m)) (flits m lo k)
  end.
Lemma eval_flits env m lo k : eval env (flits m lo k) = true <->
  forall j, (j < m)%nat -> env (lo + N.of_nat j) = N.testbit k (N.of_nat j).
Proof.
  induction m as [|m IH]; [cbn; split; [intros _ j Hj; lia | reflexivity]|].
  cbn [flits]. rewrite eval_flit, andb_true_iff, Bool.eqb_true_iff, IH. split.
  - intros [A B] j Hj. destruct (Nat.eq_dec j m) as [-> | Hne]; [exact A | apply B; lia].
  - intros A. split; [apply A; lia | intros j Hj; apply A; lia].
Qed.
Definition ffld (hi lo k : N) : form := flits (N.to_nat (hi - lo + 1)) lo k.
Lemma fld_bits w hi lo j : j < hi - lo + 1 -> N.testbit (fld w hi lo) j = N.testbit w (lo + j).
Proof.
  intros Hj. unfold fld. rewrite N.mod_pow2_bits_low by exact Hj. rewrite N.div_pow2_bits. f_equal. lia.
Qed.
Lemma fld_lt w hi lo : fld w hi lo < 2 ^ (hi - lo + 1).
Proof. unfold fld. apply N.mod_lt. apply N.pow_nonzero. lia. Qed.
Lemma lt_pow2_bits x m j : x < 2 ^ m -> m <= j -> N.testbit x j = false.
Proof.
  intros Hx Hj. rewrite <- (N.mod_small x (2 ^ m)) by exact Hx. apply N.mod_pow2_bits_high. exact Hj.
Qed.
Lemma eval_ffld w hi lo k : (k <? 2 ^ (hi - lo + 1)) = true ->
  eval (N.testbit w) (ffld hi lo k) = (fld w hi lo =? k).
Proof.
  intros Hk. apply N.ltb_lt in Hk. apply eq_true_iff_eq. unfold ffld. rewrite eval_flits, N.eqb_eq. split.
  - intros H. apply N.bits_inj. intros j. destruct (N.lt_ge_cases j (hi - lo + 1)) as [Hj | Hj].
    + rewrite fld_bits by exact Hj. specialize (H (N.to_nat j)). rewrite N2Nat.id in H. apply H. lia.
    + rewrite (lt_pow2_bits _ _ _ (fld_lt w hi lo) Hj), (lt_pow2_bits _ _ _ Hk Hj). reflexivity.
  - intros <- j Hj. rewrite fld_bits by lia. reflexivity.
Qed.

(** * Compiled patterns *)

Definition cpat := form.
(** Characters from bit [n - 1] down. *)
Fixpoint fpat (n : nat) (s : str) : form :=
  match s with
  | [] => FC true
  | c :: s =>
      if Ascii.eqb c "x" then fpat (pred n) s
      else flit (N.of_nat (pred n)) (Ascii.eqb c "1") (fpat (pred n) s)
  end.
Definition compile (p : str) : option cpat :=
  let q := clean (skipn 2 p) in
  if starts_with (lit "0b") p && (length q =? 16)%nat && forallb pchar q then Some (fpat 16 q) else None.
Definition ctest (h : hword) (c : cpat) : bool := eval (N.testbit (hval h)) c.

Lemma eval_fpat env s : forallb pchar s = true ->
  (eval env (fpat (length s) s) = true <->
   forall k c, nth_error s k = Some c -> agree_char c (env (N.of_nat (length s - 1 - k)))).
Proof.
  induction s as [|c s IH]; intros Hp.
  - cbn. split; [intros _ k c H; destruct k; discriminate | reflexivity].
  - cbn [forallb] in Hp. apply andb_true_iff in Hp. destruct Hp as [Hc Hs]. specialize (IH Hs).
    cbn [length fpat pred].
    assert (A : (forall k d, nth_error (c :: s) k = Some d -> agree_char d (env (N.of_nat (S (length s) - 1 - k)))) <->
                agree_char c (env (N.of_nat (length s))) /\
                forall k d, nth_error s k = Some d -> agree_char d (env (N.of_nat (length s - 1 - k)))).
    { split.
      - intros H. split.
        + specialize (H 0%nat c eq_refl). replace (S (length s) - 1 - 0)%nat with (length s) in H by lia. exact H.
        + intros k d Hk. specialize (H (S k) d Hk). replace (S (length s) - 1 - S k)%nat with (length s - 1 - k)%nat in H by lia.
          exact H.
      - intros [H1 H2] k d Hk. destruct k as [|k].
        + injection Hk as <-. replace (S (length s) - 1 - 0)%nat with (length s) by lia. exact H1.
        + replace (S (length s) - 1 - S k)%nat with (length s - 1 - k)%nat by lia. apply H2. exact Hk. }
    rewrite A, <- IH. clear A IH.
    apply pchar_cases in Hc. destruct Hc as [-> | [-> | ->]]; cbn [Ascii.eqb Bool.eqb].
    + change (if Ascii.eqb "0" "x" then fpat (length s) s
              else flit (N.of_nat (length s)) (Ascii.eqb "0" "1") (fpat (length s) s))
        with (flit (N.of_nat (length s)) false (fpat (length s) s)).
      rewrite eval_flit, andb_true_iff, Bool.eqb_true_iff. unfold agree_char. intuition discriminate.
    + change (if Ascii.eqb "1" "x" then fpat (length s) s
              else flit (N.of_nat (length s)) (Ascii.eqb "1" "1") (fpat (length s) s))
        with (flit (N.of_nat (length s)) true (fpat (length s) s)).
      rewrite eval_flit, andb_true_iff, Bool.eqb_true_iff. unfold agree_char. intuition discriminate.
    + change (if Ascii.eqb "x" "x" then fpat (length s) s
              else flit (N.of_nat (length s)) (Ascii.eqb "x" "1") (fpat (length s) s))
        with (fpat (length s) s).
      unfold agree_char. intuition discriminate.
Qed.

Lemma matches_compile h p c : compile p = Some c -> matches h p = Ret (ctest h c).
Proof.
  unfold compile. cbv zeta. destruct (starts_with (lit "0b") p) eqn:E0; cbn [andb]; [|discriminate].
  destruct (length (clean (skipn 2 p)) =? 16)%nat eqn:El; cbn [andb]; [|discriminate].
  destruct (forallb pchar (clean (skipn 2 p))) eqn:Ep; cbn [andb]; [|discriminate].
  intros E. injection E as <-. apply Nat.eqb_eq in El.
  destruct (matches_iff h (skipn 2 p) El Ep) as [b [Eb Ib]].
  replace (lit "0b" ++ skipn 2 p) with p in Eb.
  - rewrite Eb. f_equal. apply eq_true_iff_eq. rewrite Ib. unfold ctest. rewrite <- El, eval_fpat by exact Ep.
    rewrite El. replace (16 - 1)%nat with 15%nat by reflexivity. tauto.
  - clear -E0. destruct p as [|x [|y p]]; cbn [lit list_ascii_of_string starts_with] in E0; [discriminate| |].
    + destruct (Ascii.eqb "0" x); discriminate.
    + destruct (Ascii.eqb_spec "0" x) as [<- | N]; [|discriminate].
      destruct (Ascii.eqb_spec "b" y) as [<- | N]; [reflexivity|discriminate].
Qed.

Definition crule := (bool * cpat * kind)%type.
Fixpoint compile_all (rs : list rule) : option (list crule) :=
  match rs with
  | [] => Some []
  | r :: rs =>
      match compile (lit (r_pat r)), compile_all rs with
      | Some c, Some cs => Some ((r_v7 r, c, r_kind r) :: cs)
      | _, _ => None
      end
  end.
Fixpoint cchain (v7 : bool) (h : hword) (rs : list crule) : option kind :=
  match rs with
  | [] => None
  | (g, c, k) :: rs => if (if g && negb v7 then false else ctest h c) then Some k else cchain v7 h rs
  end.
Lemma chain_compile v7 h rs : forall cs, compile_all rs = Some cs -> chain v7 h rs = Ret (cchain v7 h cs).
Proof.
  induction rs as [|r rs IH]; intros cs E; cbn [compile_all] in E.
  - injection E as <-. reflexivity.
  - destruct (compile (lit (r_pat r))) as [c|] eqn:Ec; [|discriminate].
    destruct (compile_all rs) as [cs'|]; [|discriminate]. injection E as <-.
    cbn [chain cchain]. destruct (r_v7 r && negb v7); cbn [bind].
    + apply IH. reflexivity.
    + rewrite (matches_compile _ _ _ Ec). cbn [bind]. destruct (ctest h c); [reflexivity|].
      apply IH. reflexivity.
Qed.

Definition crules : list crule :=
  Eval vm_compute in match compile_all rules16 with Some cs => cs | None => [] end.
Lemma crules_ok : compile_all rules16 = Some crules.
Proof. vm_compute. reflexivity. Qed.

Lemma chain16 v7 h : chain v7 h rules16 = Ret (cchain v7 h crules).
Proof. apply chain_compile. exact crules_ok. Qed.

(** * Decided facts *)

Lemma hw_bytes_val w : w < 2 ^ 16 -> w0 (hw w) = w mod 256 /\ w1 (hw w) = w / 256.
Proof.
  intros Hw. change (2 ^ 16) with 65536 in Hw. unfold w0, w1, hw, code. cbn [fst snd].
  rewrite !N_ascii_embedding; [split; reflexivity| |].
  - apply N.div_lt_upper_bound; lia.
  - apply N.mod_lt. lia.
Qed.
Lemma hval_hw w : w < 2 ^ 16 -> hval (hw w) = w.
Proof.
  intros Hw. destruct (hw_bytes_val w Hw) as [E0 E1]. unfold hval. rewrite E0, E1.
  symmetry. apply N.div_mod. lia.
Qed.
Lemma ctest_hw w c : w < 2 ^ 16 -> ctest (hw w) c = eval (N.testbit w) c.
Proof. intros Hw. unfold ctest. rewrite hval_hw by exact Hw. reflexivity. Qed.

Definition kind_eqb (a b : kind) : bool :=
  match a, b with
  | K16, K16 | KBT1, KBT1 | KBT2, KBT2 | KBlx, KBlx | KBx, KBx | KPush, KPush | KSubSp, KSubSp => true
  | _, _ => false
  end.
Lemma kind_eqb_eq a b : kind_eqb a b = true -> a = b.
Proof. destruct a, b; cbn; congruence. Qed.

(** The chain picks kind [k] / no kind. *)
Fixpoint fchain (v7 : bool) (k : option kind) (rs : list crule) : form :=
  match rs with
  | [] => FC (match k with None => true | Some _ => false end)
  | (g, c, k') :: rs =>
      if g && negb v7 then fchain v7 k rs
      else FIf c (FC (match k with Some k => kind_eqb k' k | None => false end)) (fchain v7 k rs)
  end.
Lemma fchain_ok v7 k h rs : eval (N.testbit (hval h)) (fchain v7 k rs) = true -> cchain v7 h rs = k.
Proof.
  induction rs as [|[[g c] k'] rs IH]; intros H.
  - cbn in *. destruct k; [discriminate | reflexivity].
  - cbn [fchain cchain] in *. destruct (g && negb v7); [apply IH; exact H|].
    unfold ctest. cbn [eval] in H. destruct (eval _ c); [|apply IH; exact H].
    destruct k as [k|]; [|discriminate]. apply kind_eqb_eq in H. congruence.
Qed.

(** The tests of the reference, as formulas. *)
Definition f_wide : form := for_ (ffld 15 11 29) (for_ (ffld 15 11 30) (ffld 15 11 31)).
Definition f_b1 : form := fand (ffld 15 12 13) (fand (fnot (ffld 11 8 14)) (fnot (ffld 11 8 15))).
Definition f_cbz : form := fand (fand (ffld 15 12 11) (ffld 10 10 0)) (ffld 8 8 1).
Definition f_alloc (v7 : bool) : form :=
  FIf (ffld 15 8 71) (ffld 2 0 0)
 (FIf (ffld 15 12 11)
   (FIf (ffld 11 8 0) (FC true)
   (FIf f_cbz (FC v7)
   (FIf (ffld 11 8 2) (FC true)
   (FIf (ffld 10 9 2) (FC true)
   (FIf (ffld 11 5 51) (ffld 3 2 0)
   (FIf (ffld 11 8 10) (fnot (ffld 7 6 2))
   (FIf (ffld 11 8 14) (FC true)
   (FIf (ffld 11 8 15)
        (for_ (FC v7) (fand (ffld 3 0 0) (for_ (ffld 7 4 0) (for_ (ffld 7 4 1) (for_ (ffld 7 4 2) (for_ (ffld 7 4 3) (ffld 7 4 4)))))))
        (FC false)))))))))
   (FC true)).

Lemma wide_f w : w < 2 ^ 16 -> eval (N.testbit w) f_wide = wide w.
Proof.
  intros Hw. unfold f_wide, for_. cbn [eval]. rewrite !eval_ffld by reflexivity. unfold wide.
  pose proof (fld_lt w 15 11) as L. change (2 ^ (15 - 11 + 1)) with 32 in L.
  assert (E : w / 2 ^ 11 = fld w 15 11).
  { unfold fld. symmetry. apply N.mod_small. change (2 ^ (15 - 11 + 1)) with 32. change (2 ^ 16) with 65536 in Hw.
    apply N.div_lt_upper_bound; change (2 ^ 11) with 2048; lia. }
  rewrite E. destruct (N.eqb_spec (fld w 15 11) 29) as [-> | H1]; [reflexivity|].
  destruct (N.eqb_spec (fld w 15 11) 30) as [-> | H2]; [reflexivity|].
  destruct (N.eqb_spec (fld w 15 11) 31) as [-> | H3]; [reflexivity|].
  symmetry. apply N.leb_gt. lia.
Qed.
Lemma b1_f w : eval (N.testbit w) f_b1 = is_b1 w.
Proof.
  unfold f_b1, fand, fnot. cbn [eval]. rewrite !eval_ffld by reflexivity. unfold is_b1.
  destruct (fld w 15 12 =? 13); [|reflexivity]. cbn [andb].
  pose proof (fld_lt w 11 8) as L. change (2 ^ (11 - 8 + 1)) with 16 in L.
  destruct (N.eqb_spec (fld w 11 8) 14) as [-> | H1]; [reflexivity|].
  destruct (N.eqb_spec (fld w 11 8) 15) as [-> | H2]; [reflexivity|].
  symmetry. apply N.ltb_lt. lia.
Qed.
Lemma alloc_f v7 w : eval (N.testbit w) (f_alloc v7) = alloc16 v7 w.
Proof.
  unfold f_alloc, f_cbz, fand, fnot, for_. cbn [eval]. rewrite !eval_ffld by reflexivity.
  unfold alloc16, cbz. cbv zeta.
  destruct (fld w 15 8 =? 71); [reflexivity|]. destruct (fld w 15 12 =? 11); [|reflexivity].
  destruct (fld w 11 8 =? 0); [reflexivity|]. cbn [andb].
  destruct (fld w 10 10 =? 0); cbn [andb].
  2:{ destruct (fld w 11 8 =? 2); [reflexivity|]. destruct (fld w 10 9 =? 2); [reflexivity|].
      destruct (fld w 11 5 =? 51); [reflexivity|]. destruct (fld w 11 8 =? 10).
      { destruct (fld w 7 6 =? 2); reflexivity. }
      destruct (fld w 11 8 =? 14); [reflexivity|]. destruct (fld w 11 8 =? 15); [|reflexivity].
      destruct v7; [reflexivity|]. cbn [orb]. destruct (fld w 3 0 =? 0); [|reflexivity]. cbn [andb].
      destruct (N.eqb_spec (fld w 7 4) 0) as [-> | H1]; [reflexivity|].
      destruct (N.eqb_spec (fld w 7 4) 1) as [-> | H2]; [reflexivity|].
      destruct (N.eqb_spec (fld w 7 4) 2) as [-> | H3]; [reflexivity|].
      destruct (N.eqb_spec (fld w 7 4) 3) as [-> | H4]; [reflexivity|].
      destruct (N.eqb_spec (fld w 7 4) 4) as [-> | H5]; [reflexivity|].
      symmetry. apply N.leb_gt. lia. }
  destruct (fld w 8 8 =? 1); [reflexivity|].
  destruct (fld w 11 8 =? 2); [reflexivity|]. destruct (fld w 10 9 =? 2); [reflexivity|].
  destruct (fld w 11 5 =? 51); [reflexivity|]. destruct (fld w 11 8 =? 10).
  { destruct (fld w 7 6 =? 2); reflexivity. }
  destruct (fld w 11 8 =? 14); [reflexivity|]. destruct (fld w 11 8 =? 15); [|reflexivity].
  destruct v7; [reflexivity|]. cbn [orb]. destruct (fld w 3 0 =? 0); [|reflexivity]. cbn [andb].
  destruct (N.eqb_spec (fld w 7 4) 0) as [-> | H1]; [reflexivity|].
  destruct (N.eqb_spec (fld w 7 4) 1) as [-> | H2]; [reflexivity|].
  destruct (N.eqb_spec (fld w 7 4) 2) as [-> | H3]; [reflexivity|].
  destruct (N.eqb_spec (fld w 7 4) 3) as [-> | H4]; [reflexivity|].
  destruct (N.eqb_spec (fld w 7 4) 4) as [-> | H5]; [reflexivity|].
  symmetry. apply N.leb_gt. lia.
Qed.

Definition spec_kind (w : N) : kind :=
  if is_b1 w then KBT1 else if is_b2 w then KBT2
  else if fld w 15 7 =? 143 then KBlx else if fld w 15 7 =? 142 then KBx
  else if is_push w then KPush else if is_sub1 w then KSubSp else K16.

Definition f_check16 (v7 : bool) : form :=
  FIf f_wide (fchain v7 None crules)
 (FIf (fnot (f_alloc v7)) (fchain v7 None crules)
 (FIf (ffld 15 8 190) (fchain v7 None crules)
 (FIf f_b1 (fchain v7 (Some KBT1) crules)
 (FIf (ffld 15 11 28) (fchain v7 (Some KBT2) crules)
 (FIf (ffld 15 7 143) (fchain v7 (Some KBlx) crules)
 (FIf (ffld 15 7 142) (fchain v7 (Some KBx) crules)
 (FIf (ffld 15 9 90) (fchain v7 (Some KPush) crules)
 (FIf (ffld 15 7 353) (fchain v7 (Some KSubSp) crules)
      (fchain v7 (Some K16) crules))))))))).
Lemma check16_ok v7 : taut 16 (f_check16 v7) = true.
Proof. destruct v7; vm_compute; reflexivity. Qed.

Lemma chain_wide v7 w : w < 2 ^ 16 -> wide w = true -> chain v7 (hw w) rules16 = Ret None.
Proof.
  intros Hw Hwide. rewrite chain16. pose proof (taut_sound (N.testbit w) 16 _ (check16_ok v7)) as H.
  unfold f_check16 in H. cbn [eval] in H. rewrite wide_f, Hwide in H by exact Hw.
  f_equal. apply fchain_ok. rewrite hval_hw by exact Hw. exact H.
Qed.
Lemma chain_other v7 w : w < 2 ^ 16 -> alloc16 v7 w = false \/ bkpt w = true -> chain v7 (hw w) rules16 = Ret None.
Proof.
  intros Hw Ho. destruct (wide w) eqn:Hn; [apply chain_wide; assumption|]. rewrite chain16. pose proof (taut_sound (N.testbit w) 16 _ (check16_ok v7)) as H.
  unfold f_check16 in H. unfold fnot in H. cbn [eval] in H.
  rewrite wide_f, Hn, alloc_f in H by exact Hw. rewrite eval_ffld in H by reflexivity. f_equal. apply fchain_ok. rewrite hval_hw by exact Hw.
  unfold bkpt in Ho. destruct (alloc16 v7 w); [|exact H]. destruct Ho as [Ho|Ho]; [discriminate Ho|]. rewrite Ho in H. exact H.
Qed.
Lemma chain_narrow v7 w : w < 2 ^ 16 -> wide w = false -> alloc16 v7 w = true -> bkpt w = false ->
  chain v7 (hw w) rules16 = Ret (Some (spec_kind w)).
Proof.
  intros Hw Hn Ha Hb. rewrite chain16. pose proof (taut_sound (N.testbit w) 16 _ (check16_ok v7)) as H.
  unfold f_check16 in H. unfold fnot in H. cbn [eval] in H.
  rewrite wide_f, Hn, alloc_f, Ha, b1_f in H by exact Hw. rewrite !eval_ffld in H by reflexivity.
  unfold bkpt in Hb. rewrite Hb in H. f_equal. apply fchain_ok. rewrite hval_hw by exact Hw.
  unfold spec_kind, is_b2, is_push, is_sub1.
  destruct (is_b1 w); [exact H|]. destruct (fld w 15 11 =? 28); [exact H|].
  destruct (fld w 15 7 =? 143); [exact H|]. destruct (fld w 15 7 =? 142); [exact H|].
  destruct (fld w 15 9 =? 90); [exact H|]. destruct (fld w 15 7 =? 353); exact H.
Qed.

(** Patterns of the 32-bit part. *)
Definition cp (p : string) : cpat := match compile (lit p) with Some c => c | None => FC false end.
Definition c1 := Eval vm_compute in cp "0b11101_00_100_x_0_xxxx".
Definition c2 := Eval vm_compute in cp "0b11110_x_0_1101_x_1101".
Definition c3 := Eval vm_compute in cp "0b1110_110_1_0_x_1_0_1101".
Definition c4 := Eval vm_compute in cp "0b11110_x_xxxxxxxxxx".
Definition c5 := Eval vm_compute in cp "0b11111_0000100_xxxx".
Definition d1 := Eval vm_compute in cp "0b0_x_0_xxxxxxxxxxxxx".
Definition d2 := Eval vm_compute in cp "0b0_xxx_xxxx_xxxxxxxx".
Definition d3 := Eval vm_compute in cp "0bxxxx_1011_xxxxxxxx".
Definition d4 := Eval vm_compute in cp "0bxxxx_1010_xxxxxxxx".
Definition d5 := Eval vm_compute in cp "0b10_x_0_x_xxxxxxxxxxx".
Definition d6 := Eval vm_compute in cp "0b10_x_1_x_xxxxxxxxxxx".
Definition d7 := Eval vm_compute in cp "0b11_x_1_x_xxxxxxxxxxx".
Definition d8 := Eval vm_compute in cp "0bxxxx_1x01_xxxxxxxx".

(** A compiled pattern equals a conjunction of field tests. *)
Lemma same_form w a b : taut 16 (feqb a b) = true -> eval (N.testbit w) a = eval (N.testbit w) b.
Proof. intros H. apply (taut_sound (N.testbit w)) in H. rewrite eval_feqb in H. apply Bool.eqb_prop. exact H. Qed.
Lemma pat_form w c f : w < 2 ^ 16 -> taut 16 (feqb c f) = true -> ctest (hw w) c = eval (N.testbit w) f.
Proof. intros Hw H. rewrite ctest_hw by exact Hw. apply same_form. exact H. Qed.

Record pats (w : N) : Prop := {
  pt1 : ctest (hw w) c1 = (fld w 15 6 =? 932) && (fld w 4 4 =? 0);
  pt2 : ctest (hw w) c2 = (fld w 15 11 =? 30) && (fld w 9 5 =? 13) && (fld w 3 0 =? 13);
  pt3 : ctest (hw w) c3 = (fld w 15 7 =? 474) && (fld w 5 0 =? 45);
  pt4 : ctest (hw w) c4 = (fld w 15 11 =? 30);
  pt5 : ctest (hw w) c5 = (fld w 15 4 =? 3972);
  qt1 : ctest (hw w) d1 = (fld w 15 15 =? 0) && (fld w 13 13 =? 0);
  qt2 : ctest (hw w) d2 = (fld w 15 15 =? 0);
  qt3 : ctest (hw w) d3 = (fld w 11 8 =? 11);
  qt4 : ctest (hw w) d4 = (fld w 11 8 =? 10);
  qt5 : ctest (hw w) d5 = (fld w 15 14 =? 2) && (fld w 12 12 =? 0);
  qt6 : ctest (hw w) d6 = (fld w 15 14 =? 2) && (fld w 12 12 =? 1);
  qt7 : ctest (hw w) d7 = (fld w 15 14 =? 3) && (fld w 12 12 =? 1);
  qt8 : ctest (hw w) d8 = (fld w 11 11 =? 1) && (fld w 9 9 =? 0) && (fld w 8 8 =? 1);
  vpush_split : (fld w 11 8 =? 11) || (fld w 11 8 =? 10) = (fld w 11 9 =? 5);
  str_split : (fld w 15 4 =? 3972) && (fld w 3 0 =? 13) = (w =? 63565) }.

Lemma whole w k : w < 2 ^ 16 -> (fld w 15 0 =? k) = (w =? k).
Proof.
  intros Hw. unfold fld. change (2 ^ 0) with 1. rewrite N.div_1_r, N.mod_small by exact Hw. reflexivity.
Qed.
Ltac ffields := repeat (rewrite <- eval_ffld by reflexivity).
Ltac by_taut f Hw := rewrite (pat_form _ _ f Hw) by (vm_compute; reflexivity);
  unfold fand, for_; cbn [eval]; rewrite !eval_ffld by reflexivity; reflexivity.
Lemma pats_ok w : w < 2 ^ 16 -> pats w.
Proof.
  intros Hw. split.
  - by_taut (fand (ffld 15 6 932) (ffld 4 4 0)) Hw.
  - by_taut (fand (fand (ffld 15 11 30) (ffld 9 5 13)) (ffld 3 0 13)) Hw.
  - by_taut (fand (ffld 15 7 474) (ffld 5 0 45)) Hw.
  - by_taut (ffld 15 11 30) Hw.
  - by_taut (ffld 15 4 3972) Hw.
  - by_taut (fand (ffld 15 15 0) (ffld 13 13 0)) Hw.
  - by_taut (ffld 15 15 0) Hw.
  - by_taut (ffld 11 8 11) Hw.
  - by_taut (ffld 11 8 10) Hw.
  - by_taut (fand (ffld 15 14 2) (ffld 12 12 0)) Hw.
  - by_taut (fand (ffld 15 14 2) (ffld 12 12 1)) Hw.
  - by_taut (fand (ffld 15 14 3) (ffld 12 12 1)) Hw.
  - by_taut (fand (fand (ffld 11 11 1) (ffld 9 9 0)) (ffld 8 8 1)) Hw.
  - pose proof (same_form w (for_ (ffld 11 8 11) (ffld 11 8 10)) (ffld 11 9 5) ltac:(vm_compute; reflexivity)) as H.
    unfold for_ in H. cbn [eval] in H. rewrite !eval_ffld in H by reflexivity. exact H.
  - pose proof (same_form w (fand (ffld 15 4 3972) (ffld 3 0 13)) (ffld 15 0 63565) ltac:(vm_compute; reflexivity)) as H.
    unfold fand in H. cbn [eval] in H. rewrite !eval_ffld, whole in H by (reflexivity || exact Hw). exact H.
Qed.

(** * Fields and bytes *)

Lemma fld_high w hi lo : fld w (hi + 8) (lo + 8) = fld (w / 256) hi lo.
Proof.
  unfold fld. rewrite N.div_div by (discriminate || (apply N.pow_nonzero; lia)).
  replace (hi + 8 - (lo + 8) + 1) with (hi - lo + 1) by lia. do 2 f_equal.
  change 256 with (2 ^ 8). rewrite <- N.pow_add_r. f_equal. lia.
Qed.
Lemma fld_low w hi lo : lo <= hi -> hi < 8 -> fld w hi lo = fld (w mod 256) hi lo.
Proof.
  intros H1 H2. apply N.bits_inj. intros j. destruct (N.lt_ge_cases j (hi - lo + 1)) as [Hj | Hj].
  - rewrite !fld_bits by exact Hj. change 256 with (2 ^ 8). rewrite N.mod_pow2_bits_low by lia. reflexivity.
  - rewrite !(lt_pow2_bits _ _ _ (fld_lt _ hi lo) Hj). reflexivity.
Qed.

(** Facts about one byte, by a sweep over its 256 values. *)
Fixpoint upto (n : nat) (from : N) : list N :=
  match n with O => [] | S n => from :: upto n (from + 1) end.
Lemma upto_In n : forall from x, from <= x -> x < from + N.of_nat n -> In x (upto n from).
Proof.
  induction n as [|n IH]; intros from x Hl Hu; [lia|].
  cbn [upto]. destruct (N.eq_dec from x) as [-> | Hne]; [left; reflexivity|].
  right. apply IH; lia.
Qed.
Definition check_byte (b : N) : bool :=
  (fld b 7 0 =? b) && (N.land b 255 =? b) && (N.land b 15 =? fld b 3 0) && (N.land b 31 =? fld b 4 0) &&
  (N.land (N.shiftr b 6) 1 =? fld b 6 6) && (N.land (N.shiftr b 4) 7 =? fld b 6 4) &&
  (N.land (N.shiftr b 2) 1 =? fld b 2 2) && (N.land b 3 =? fld b 1 0) && (N.land b 7 =? fld b 2 0) &&
  (N.land b 63 =? fld b 5 0) && (N.land b 1 =? fld b 0 0) && (N.land b 127 =? fld b 6 0) &&
  (N.land (N.shiftr b 3) 15 =? fld b 6 3) &&
  Bool.eqb (negb (N.land b 32 =? 0)) (fld b 5 5 =? 1) && Bool.eqb (negb (N.land b 8 =? 0)) (fld b 3 3 =? 1) &&
  (N.shiftr b 6 =? fld b 7 6) && (N.shiftr (fld b 7 6) 1 =? fld b 7 7).
Lemma sweep_byte : forallb check_byte (upto 256 0) = true.
Proof. vm_compute. reflexivity. Qed.

Record bytef (b : N) : Prop := {
  by1 : fld b 7 0 = b; by2 : N.land b 255 = b; by3 : N.land b 15 = fld b 3 0; by4 : N.land b 31 = fld b 4 0;
  by5 : N.land (N.shiftr b 6) 1 = fld b 6 6; by6 : N.land (N.shiftr b 4) 7 = fld b 6 4;
  by7 : N.land (N.shiftr b 2) 1 = fld b 2 2; by8 : N.land b 3 = fld b 1 0; by9 : N.land b 7 = fld b 2 0;
  by10 : N.land b 63 = fld b 5 0; by11 : N.land b 1 = fld b 0 0; by12 : N.land b 127 = fld b 6 0;
  by13 : N.land (N.shiftr b 3) 15 = fld b 6 3;
  by14 : negb (N.land b 32 =? 0) = (fld b 5 5 =? 1); by15 : negb (N.land b 8 =? 0) = (fld b 3 3 =? 1);
  by16 : N.shiftr b 6 = fld b 7 6; by17 : N.shiftr (fld b 7 6) 1 = fld b 7 7 }.
Lemma byte_ok b : b < 256 -> bytef b.
Proof.
  intros Hb. pose proof sweep_byte as H. rewrite forallb_forall in H.
  specialize (H b (upto_In 256 0 b (N.le_0_l _) Hb)). unfold check_byte in H.
  repeat (apply andb_true_iff in H; let X := fresh "X" in destruct H as [H X];
          first [apply Bool.eqb_prop in X | apply N.eqb_eq in X]).
  apply N.eqb_eq in H. split; assumption.
Qed.

(** Population count. *)
Lemma count_double n : count_ones (2 * n) = count_ones n.
Proof. destruct n; reflexivity. Qed.
Lemma count_double1 n : count_ones (2 * n + 1) = N.succ (count_ones n).
Proof. destruct n; reflexivity. Qed.
Lemma count_bits n : forall x, x < 2 ^ N.of_nat n -> count_ones x = bits n x.
Proof.
  induction n as [|n IH]; intros x Hx.
  - change (2 ^ N.of_nat 0) with 1 in Hx. replace x with 0 by lia. reflexivity.
  - cbn [bits]. rewrite Nat2N.inj_succ, N.pow_succ_r' in Hx.
    rewrite <- IH by (apply N.div_lt_upper_bound; lia).
    rewrite (N.div_mod x 2) at 1 by lia. assert (L : x mod 2 < 2) by (apply N.mod_lt; lia).
    set (q := x / 2). set (r := x mod 2) in *. clearbody q r.
    assert (Hr : r = 0 \/ r = 1) by lia. destruct Hr as [-> | ->].
    + rewrite N.add_0_r, N.add_0_l. apply count_double.
    + rewrite count_double1. lia.
Qed.
Lemma bits_app a : forall b x, bits (a + b) x = bits a x + bits b (x / 2 ^ N.of_nat a).
Proof.
  induction a as [|a IH]; intros b x.
  - cbn [Nat.add bits]. change (2 ^ N.of_nat 0) with 1. rewrite N.div_1_r. lia.
  - cbn [Nat.add bits]. rewrite IH, Nat2N.inj_succ, N.pow_succ_r'.
    rewrite N.div_div by (lia || (apply N.pow_nonzero; lia)). lia.
Qed.
Lemma bits_mod a : forall x, bits a (x mod 2 ^ N.of_nat a) = bits a x.
Proof.
  induction a as [|a IH]; intros x; [reflexivity|].
  cbn [bits]. rewrite Nat2N.inj_succ, N.pow_succ_r'.
  assert (Z : 2 ^ N.of_nat a <> 0) by (apply N.pow_nonzero; lia).
  rewrite N.mod_mul_r by (lia || exact Z).
  assert (L : x mod 2 < 2) by (apply N.mod_lt; lia).
  replace ((x mod 2 + 2 * ((x / 2) mod 2 ^ N.of_nat a)) mod 2) with (x mod 2).
  2:{ rewrite N.mul_comm, N.mod_add by lia. symmetry. apply N.mod_mod. lia. }
  replace ((x mod 2 + 2 * ((x / 2) mod 2 ^ N.of_nat a)) / 2) with ((x / 2) mod 2 ^ N.of_nat a).
  2:{ rewrite (N.mul_comm 2), N.div_add by lia. rewrite (N.div_small (x mod 2)) by exact L. reflexivity. }
  rewrite IH. reflexivity.
Qed.

(** Disjoint bits: [|] is [+]. *)
Lemma lor_disjoint x y n : (0 <= n)%Z -> (0 <= y < 2 ^ n)%Z -> Z.lor (Z.shiftl x n) y = (x * 2 ^ n + y)%Z.
Proof.
  intros Hn Hy. rewrite <- Z.shiftl_mul_pow2 by lia.
  assert (D : Z.land (Z.shiftl x n) y = 0%Z).
  { apply Z.bits_inj'; intros k Hk. rewrite Z.land_spec, Z.bits_0.
    destruct (Z.lt_ge_cases k n) as [Hlt | Hge].
    - rewrite Z.shiftl_spec_low by assumption. reflexivity.
    - rewrite <- (Z.mod_small y (2 ^ n)) by exact Hy.
      rewrite Z.mod_pow2_bits_high by lia. apply andb_false_r. }
  rewrite Z.add_nocarry_lxor, Z.lxor_lor by exact D. reflexivity.
Qed.
Lemma nlor_disjoint x y k : y < 2 ^ k -> N.lor (N.shiftl x k) y = x * 2 ^ k + y.
Proof.
  intros Hy. rewrite N.shiftl_mul_pow2. apply N2Z.inj. rewrite N2Z.inj_add, N2Z.inj_mul, N2Z.inj_pow.
  rewrite <- lor_disjoint with (n := Z.of_N k); [|lia|].
  - rewrite Z.shiftl_mul_pow2 by lia.
    change (Z.of_N 2 ^ Z.of_N k)%Z with (2 ^ Z.of_N k)%Z.
    replace (Z.of_N x * 2 ^ Z.of_N k)%Z with (Z.of_N (x * 2 ^ k)) by (rewrite N2Z.inj_mul, N2Z.inj_pow; reflexivity).
    destruct (x * 2 ^ k), y; reflexivity.
  - split; [lia|]. replace (2 ^ Z.of_N k)%Z with (Z.of_N (2 ^ k)) by (rewrite N2Z.inj_pow; reflexivity). lia.
Qed.

(** Low fields that span the two bytes. *)
Lemma fld_span w hi : 8 <= hi -> fld w hi 0 = fld (w / 256) (hi - 8) 0 * 256 + w mod 256.
Proof.
  intros H. unfold fld. change (2 ^ 0) with 1. rewrite !N.div_1_r.
  replace (2 ^ (hi - 0 + 1)) with (256 * 2 ^ (hi - 8 - 0 + 1)).
  2:{ change 256 with (2 ^ 8). rewrite <- N.pow_add_r. f_equal. lia. }
  rewrite N.mod_mul_r by (discriminate || (apply N.pow_nonzero; lia)). lia.
Qed.

Record flds (w : N) : Prop := {
  ft1 : w0 (hw w) = fld w 7 0;
  ft2 : N.land (w0 (hw w)) 255 = fld w 7 0;
  ft3 : N.land (w0 (hw w)) 15 = fld w 3 0;
  ft4 : N.land (w1 (hw w)) 15 = fld w 11 8;
  ft5 : count_ones (N.lor (N.shiftl (N.land (N.shiftr (w1 (hw w)) 6) 1) 14)
                     (N.lor (N.shiftl (N.land (w1 (hw w)) 31) 8) (w0 (hw w))))
        = bits 13 (fld w 12 0) + fld w 14 14;
  ft6 : N.land (N.shiftr (w1 (hw w)) 4) 7 = fld w 14 12;
  ft7 : N.land (N.shiftr (w1 (hw w)) 2) 1 = fld w 10 10;
  ft8 : N.shiftr (N.lor (N.shiftl (N.land (w1 (hw w)) 3) 2) (N.shiftr (w0 (hw w)) 6)) 1 = fld w 9 7;
  ft9 : N.land (w0 (hw w)) 63 = fld w 5 0;
  ft10 : sign_bit (hw w) = (fld w 10 10 =? 1);
  ft11 : j1_bit (hw w) = (fld w 13 13 =? 1);
  ft12 : j2_bit (hw w) = (fld w 11 11 =? 1);
  ft13 : low11 (hw w) = Z.of_N (fld w 10 0);
  ft14 : low11_add (hw w) = Z.of_N (fld w 10 0);
  ft15 : low10 (hw w) = Z.of_N (fld w 9 0);
  ft16 : low10_add (hw w) = Z.of_N (fld w 9 0);
  ft17 : N.land (N.shiftr (w0 (hw w)) 3) 15 = fld w 6 3;
  ft18 : N.land (w0 (hw w)) 127 = fld w 6 0;
  ft19 : count_ones (N.lor (N.shiftl (N.land (w1 (hw w)) 1) 14) (w0 (hw w))) = bits 9 (fld w 8 0) }.

Lemma bits1 x : bits 1 x = x mod 2.
Proof. cbn [bits]. apply N.add_0_r. Qed.

Lemma flds_ok w : w < 2 ^ 16 -> flds w.
Proof.
  intros Hw. destruct (hw_bytes_val w Hw) as [E0 E1].
  assert (B0 : w mod 256 < 256) by (apply N.mod_lt; lia).
  assert (B1 : w / 256 < 256) by (apply N.div_lt_upper_bound; [lia|]; exact Hw).
  pose proof (byte_ok _ B0) as F0. pose proof (byte_ok _ B1) as F1.
  assert (L11 : fld w 10 0 = N.land (w / 256) 7 * 256 + w mod 256).
  { rewrite (fld_span w 10) by lia. rewrite (by9 _ F1). reflexivity. }
  assert (L10 : fld w 9 0 = N.land (w / 256) 3 * 256 + w mod 256).
  { rewrite (fld_span w 9) by lia. rewrite (by8 _ F1). reflexivity. }
  assert (ZL : forall x, Z.lor (Z.shiftl (Z.of_N x) 8) (Z.of_N (w mod 256)) = Z.of_N (x * 256 + w mod 256)).
  { intros x. rewrite lor_disjoint by lia. change (2 ^ 8)%Z with 256%Z. lia. }
  assert (ZA : forall x, (Z.shiftl (Z.of_N x) 8 + Z.of_N (w mod 256))%Z = Z.of_N (x * 256 + w mod 256)).
  { intros x. rewrite Z.shiftl_mul_pow2 by lia. change (2 ^ 8)%Z with 256%Z. lia. }
  split; unfold sign_bit, j1_bit, j2_bit, low11, low11_add, low10, low10_add; rewrite ?E0, ?E1.
  - rewrite fld_low by lia. symmetry. apply (by1 _ F0).
  - rewrite fld_low by lia. rewrite (by1 _ F0). apply (by2 _ F0).
  - rewrite fld_low by lia. apply (by3 _ F0).
  - rewrite (by3 _ F1). symmetry. apply (fld_high w 3 0).
  - rewrite (by5 _ F1), (by4 _ F1).
    replace (fld (w / 256) 6 6) with (fld w 14 14) by apply (fld_high w 6 6).
    rewrite (nlor_disjoint (fld (w / 256) 4 0)) by exact B0.
    replace (fld (w / 256) 4 0 * 2 ^ 8 + w mod 256) with (fld w 12 0) by (rewrite (fld_span w 12) by lia; reflexivity).
    pose proof (fld_lt w 12 0) as L12. change (2 ^ (12 - 0 + 1)) with 8192 in L12.
    rewrite nlor_disjoint by (change (2 ^ 14) with 16384; lia).
    pose proof (fld_lt w 14 14) as L14. change (2 ^ (14 - 14 + 1)) with 2 in L14.
    rewrite (count_bits 15) by (change (2 ^ N.of_nat 15) with 32768; change (2 ^ 14) with 16384; lia).
    change 15%nat with (13 + 2)%nat. rewrite bits_app. change (2 ^ N.of_nat 13) with 8192.
    replace (fld w 14 14 * 2 ^ 14 + fld w 12 0) with (fld w 12 0 + fld w 14 14 * 2 * 8192)
      by (change (2 ^ 14) with 16384; lia).
    rewrite N.div_add, (N.div_small (fld w 12 0)), N.add_0_l by (lia || exact L12).
    rewrite <- (bits_mod 13). change (2 ^ N.of_nat 13) with 8192. rewrite N.mod_add by lia.
    rewrite (N.mod_small (fld w 12 0)) by exact L12. f_equal.
    destruct (fld w 14 14) as [|[p|p|]]; try lia; reflexivity.
  - rewrite (by6 _ F1). symmetry. apply (fld_high w 6 4).
  - rewrite (by7 _ F1). symmetry. apply (fld_high w 2 2).
  - rewrite (by8 _ F1), (by16 _ F0).
    pose proof (fld_lt (w mod 256) 7 6) as L. change (2 ^ (7 - 6 + 1)) with 4 in L.
    rewrite nlor_disjoint by exact L. change (2 ^ 2) with 4.
    assert (E : fld w 9 7 = fld (w / 256) 1 0 * 2 + fld (w mod 256) 7 7).
    { apply N.bits_inj. intros j.
      pose proof (fld_lt (w mod 256) 7 7) as L7. change (2 ^ (7 - 7 + 1)) with 2 in L7.
      pose proof (fld_lt (w / 256) 1 0) as L8. change (2 ^ (1 - 0 + 1)) with 4 in L8.
      destruct (N.lt_ge_cases j 3) as [Hj | Hj].
      - rewrite fld_bits by (cbn; lia). rewrite N.mul_comm.
        assert (Hb : fld (w mod 256) 7 7 = 0 \/ fld (w mod 256) 7 7 = 1) by lia.
        destruct (N.eq_dec j 0) as [-> | Hj0].
        + replace (N.testbit (2 * fld (w / 256) 1 0 + fld (w mod 256) 7 7) 0) with (N.testbit (fld (w mod 256) 7 7) 0).
          2:{ destruct Hb as [-> | ->]; [rewrite N.add_0_r, N.testbit_even_0 | rewrite N.testbit_odd_0]; reflexivity. }
          rewrite fld_bits by (cbn; lia). change 256 with (2 ^ 8). rewrite N.mod_pow2_bits_low by lia. reflexivity.
        + replace j with (N.succ (N.pred j)) at 2 by lia.
          replace (N.testbit (2 * fld (w / 256) 1 0 + fld (w mod 256) 7 7) (N.succ (N.pred j)))
            with (N.testbit (fld (w / 256) 1 0) (N.pred j)).
          2:{ destruct Hb as [-> | ->]; [rewrite N.add_0_r, N.testbit_even_succ by lia
                                        |rewrite N.testbit_odd_succ by lia]; reflexivity. }
          rewrite fld_bits by (cbn; lia). change 256 with (2 ^ 8). rewrite N.div_pow2_bits. f_equal. lia.
      - rewrite (lt_pow2_bits _ 3) by (exact (fld_lt w 9 7) || exact Hj).
        symmetry. apply (lt_pow2_bits _ 3); [change (2 ^ 3) with 8; lia | exact Hj]. }
    rewrite E, <- (by17 _ F0). rewrite !N.shiftr_div_pow2. change (2 ^ 1) with 2.
    replace (fld (w / 256) 1 0 * 4 + fld (w mod 256) 7 6) with (fld (w mod 256) 7 6 + fld (w / 256) 1 0 * 2 * 2) by lia.
    rewrite N.div_add by lia. lia.
  - rewrite fld_low by lia. apply (by10 _ F0).
  - rewrite (by7 _ F1). f_equal. symmetry. apply (fld_high w 2 2).
  - rewrite (by14 _ F1). f_equal. symmetry. apply (fld_high w 5 5).
  - rewrite (by15 _ F1). f_equal. symmetry. apply (fld_high w 3 3).
  - rewrite L11. apply ZL.
  - rewrite L11. apply ZA.
  - rewrite L10. apply ZL.
  - rewrite L10. apply ZA.
  - rewrite fld_low by lia. apply (by13 _ F0).
  - rewrite fld_low by lia. apply (by12 _ F0).
  - rewrite (by11 _ F1).
    pose proof (fld_lt (w / 256) 0 0) as L. change (2 ^ (0 - 0 + 1)) with 2 in L.
    rewrite nlor_disjoint by (change (2 ^ 14) with 16384; lia).
    rewrite (fld_span w 8) by lia. change (8 - 8) with 0. set (m := fld (w / 256) 0 0) in *. clearbody m.
    rewrite (count_bits 15) by (change (2 ^ N.of_nat 15) with 32768; change (2 ^ 14) with 16384; lia).
    change 15%nat with (8 + 7)%nat. change 9%nat with (8 + 1)%nat. rewrite !bits_app.
    change (2 ^ N.of_nat 8) with 256.
    replace (m * 2 ^ 14 + w mod 256) with (w mod 256 + m * 64 * 256) by (change (2 ^ 14) with 16384; lia).
    rewrite (N.add_comm (m * 256)), !N.div_add, (N.div_small (w mod 256)), !N.add_0_l by (lia || exact B0).
    rewrite <- (bits_mod 8), <- (bits_mod 8 (w mod 256 + m * 256)). change (2 ^ N.of_nat 8) with 256.
    rewrite !N.mod_add by lia. f_equal.
    assert (Hm : m = 0 \/ m = 1) by lia. destruct Hm as [-> | ->]; reflexivity.
Qed.

(** The immediate expansion agrees with the manual except in the 0x00XY00XY form. *)
Definition check_imm (x : N) : bool :=
  (if (fld x 11 8 =? 1) && negb (fld x 7 0 =? 0) then negb (thumb_expand_imm x =? arm_expand_imm x)
   else thumb_expand_imm x =? arm_expand_imm x) && (arm_expand_imm x <? 2 ^ 32).
Lemma sweep_imm : forallb check_imm (upto 4096 0) = true.
Proof. vm_compute. reflexivity. Qed.
Lemma expand_imm_ok x : x < 4096 -> (fld x 11 8 =? 1) && negb (fld x 7 0 =? 0) = false ->
  thumb_expand_imm x = arm_expand_imm x.
Proof.
  intros Hx Hq. pose proof sweep_imm as H. rewrite forallb_forall in H.
  specialize (H x (upto_In 4096 0 x (N.le_0_l _) Hx)). unfold check_imm in H. rewrite Hq in H.
  apply andb_true_iff in H. destruct H as [H _]. apply N.eqb_eq. exact H.
Qed.
Definition check_counted (x : N) : bool := (thumb_expand_imm x =? counted_imm x) && (counted_imm x <? 2 ^ 32).
Lemma sweep_counted : forallb check_counted (upto 4096 0) = true.
Proof. vm_compute. reflexivity. Qed.
Lemma expand_imm_counted x : x < 4096 -> thumb_expand_imm x = counted_imm x /\ counted_imm x < 2 ^ 32.
Proof.
  intros Hx. pose proof sweep_counted as H. rewrite forallb_forall in H.
  specialize (H x (upto_In 4096 0 x (N.le_0_l _) Hx)). unfold check_counted in H.
  apply andb_true_iff in H. destruct H as [H1 H2]. split; [apply N.eqb_eq; exact H1 | apply N.ltb_lt; exact H2].
Qed.
Lemma expand_imm_lt x : x < 4096 -> arm_expand_imm x < 2 ^ 32.
Proof.
  intros Hx. pose proof sweep_imm as H. rewrite forallb_forall in H.
  specialize (H x (upto_In 4096 0 x (N.le_0_l _) Hx)). unfold check_imm in H.
  apply andb_true_iff in H. destruct H as [_ H]. apply N.ltb_lt. exact H.
Qed.
