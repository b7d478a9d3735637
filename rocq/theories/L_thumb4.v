(** Thumb decoder, part 4: mapping symbols, the loop, and the consequences used by the properties. *)
From Verif Require Import M_base M_thumb S_thumb L_base L_thumb L_thumb2 L_thumb3.
Local Open Scope N_scope.

(** * Binary search *)
Lemma bsearch_spec tags a : increasing tags ->
  forall fuel left right, (right - left < fuel)%nat -> (right <= length tags)%nat ->
  (forall j b x, (j < left)%nat -> nth_error tags j = Some (b, x) -> b < a) ->
  (forall j b x, (right <= j)%nat -> nth_error tags j = Some (b, x) -> a < b) ->
  (exists k x, bsearch fuel tags a left right = Ret (Some k) /\ nth_error tags k = Some (a, x)) \/
  (bsearch fuel tags a left right = Ret None /\ forall x, ~ In (a, x) tags).
Proof.
  intros Hinc. induction fuel as [|fuel IH]; intros left right Hf Hr Hlo Hhi; [lia|].
  cbn [bsearch]. destruct (Nat.ltb_spec left right) as [Hlt | Hge].
  - set (mid := (left + (right - left) / 2)%nat).
    assert (Hmid : (left <= mid < right)%nat).
    { unfold mid. assert ((right - left) / 2 < right - left)%nat by (apply Nat.div_lt; lia). lia. }
    clearbody mid.
    destruct (nth_error tags mid) as [[b x]|] eqn:E.
    2:{ apply nth_error_None in E. lia. }
    destruct (N.eqb_spec b a) as [-> | Hne].
    { left. exists mid, x. split; [reflexivity | exact E]. }
    destruct (N.ltb_spec b a) as [Hba | Hba].
    + apply IH; [lia|lia| |exact Hhi].
      intros j c y Hj Ej. destruct (Nat.eq_dec j mid) as [-> | Hjm]; [congruence|].
      destruct (Hinc j mid c b y x) as [Hc _]; try assumption; lia.
    + apply IH; [lia|lia|exact Hlo|].
      intros j c y Hj Ej. destruct (Nat.eq_dec j mid) as [-> | Hjm].
      * assert (c = b) by congruence. lia.
      * destruct (Hinc mid j b c x y) as [Hc _]; try assumption; lia.
  - right. split; [reflexivity|]. intros x Hin. apply In_nth_error in Hin. destruct Hin as [j Ej].
    destruct (Nat.lt_ge_cases j left) as [Hj | Hj].
    + specialize (Hlo j a x Hj Ej). lia.
    + assert (right <= j)%nat as Hj' by lia. specialize (Hhi j a x Hj' Ej). lia.
Qed.
Lemma find_tag_spec tags a : increasing tags ->
  (exists k x, find_tag tags a = Ret (Some k) /\ nth_error tags k = Some (a, x)) \/
  (find_tag tags a = Ret None /\ forall x, ~ In (a, x) tags).
Proof.
  intros Hinc. apply bsearch_spec; [exact Hinc|lia|lia| |].
  - intros j b x Hj. lia.
  - intros j b x Hj E. assert (j < length tags)%nat by (apply nth_error_Some; congruence). lia.
Qed.

Lemma at_tag_code tags a : increasing tags -> ~ In (a, TData) tags -> at_tag tags a = Ret Decode.
Proof.
  intros Hinc Hn. unfold at_tag. destruct (find_tag_spec tags a Hinc) as [[k [x [E Ek]]] | [E _]]; rewrite E; cbn [bind].
  - rewrite Ek. destruct x; [|reflexivity]. exfalso. apply Hn. eapply nth_error_In. exact Ek.
  - reflexivity.
Qed.

Lemma at_tag_pool tags a e last : increasing tags -> a < 2 ^ 32 -> pool_tag tags a e last ->
  (exists t, at_tag tags a = Ret (SkipHalfwords ((t - a) / 2 - 1)) /\ a < t /\ (t = e \/ last = true /\ e <= t)) \/
  (at_tag tags a = Ret Stop /\ last = true).
Proof.
  intros Hinc Ha [k [Ek Hk]]. unfold at_tag.
  destruct (find_tag_spec tags a Hinc) as [[k' [x [E Ek']]] | [_ Hnot]].
  2:{ exfalso. apply (Hnot TData). eapply nth_error_In. exact Ek. }
  rewrite E. cbn [bind].
  assert (k' = k).
  { destruct (Nat.lt_trichotomy k k') as [H | [H | H]]; [|congruence|].
    - destruct (Hinc k k' a a TData x H Ek Ek'). lia.
    - destruct (Hinc k' k a a x TData H Ek' Ek). lia. }
  subst k'. rewrite Ek.
  destruct (nth_error tags (S k)) as [[t y]|] eqn:En.
  - destruct y; [contradiction|]. left. exists t.
    destruct (Hinc k (S k) a t TData TThumb (Nat.lt_succ_diag_r k) Ek En) as [H1 H2].
    split; [|split; assumption]. do 4 f_equal.
    replace (t + 2 ^ 32 - a) with (t - a + 1 * 2 ^ 32) by lia. rewrite N.mod_add by discriminate.
    apply N.mod_small. lia.
  - right. split; [reflexivity | exact Hk].
Qed.

(** * Encoded halfwords *)
Lemma chunks2_hw w s : chunks2 (hw_bytes w ++ s) = hw w :: chunks2 s.
Proof. reflexivity. Qed.
Lemma chunks2_pool ws s : chunks2 (flat_map hw_bytes ws ++ s) = map hw ws ++ chunks2 s.
Proof.
  induction ws as [|w ws IH]; [reflexivity|].
  cbn [flat_map]. rewrite <- app_assoc, chunks2_hw, IH. reflexivity.
Qed.

Lemma aloop_skip v7 address tags len ws : forall hs i n s, N.of_nat (length ws) <= n ->
  aloop v7 address tags len (map hw ws ++ hs) i n s =
  aloop v7 address tags len hs (i + N.of_nat (length ws)) (n - N.of_nat (length ws)) s.
Proof.
  induction ws as [|w ws IH]; intros hs i n s Hn.
  - cbn [map length app]. rewrite N.sub_0_r, N.add_0_r. reflexivity.
  - cbn [length] in *. rewrite Nat2N.inj_succ in *. change (map hw (w :: ws) ++ hs) with (hw w :: (map hw ws ++ hs)).
    cbn [aloop]. destruct (N.eqb_spec n 0) as [-> | Hne]; [lia|].
    rewrite IH by lia. f_equal; lia.
Qed.

Lemma encode_length l : N.of_nat (length (encode l)) = size l.
Proof.
  induction l as [|x l IH]; [reflexivity|].
  change (encode (x :: l)) with (item_bytes x ++ encode l). rewrite app_length, Nat2N.inj_add, IH.
  change (size (x :: l)) with (item_size x + size l). f_equal.
  destruct x as [[w | w v] | ws]; try reflexivity. cbn [item_bytes item_size].
  induction ws as [|w ws IHw]; [reflexivity|]. cbn [flat_map]. rewrite app_length, Nat2N.inj_add, IHw.
  cbn [hw_bytes length]. lia.
Qed.

(** * The instructions read *)
Notation effs v7 len := (fold_left (fun s p => eff v7 len p s)).

Lemma aloop_jump v7 address tags len : forall hs i n s,
  aloop v7 address tags len hs i n s = aloop v7 address tags len (skipn (N.to_nat n) hs) (i + n) 0 s.
Proof.
  induction hs as [|h hs IH]; intros i n s.
  - rewrite skipn_nil. reflexivity.
  - destruct (N.eq_dec n 0) as [-> | Hn]; [rewrite N.add_0_r; reflexivity|].
    replace (N.to_nat n) with (S (N.to_nat (N.pred n))) by lia. cbn [skipn].
    cbn [aloop]. destruct (N.eqb_spec n 0) as [C|_]; [lia|]. rewrite IH. f_equal. lia.
Qed.

Lemma halfword a b : exists w, w < 2 ^ 16 /\ hw w = (a, b) /\ hw_bytes w = [a; b].
Proof.
  exists (N_of_ascii a + N_of_ascii b * 256).
  pose proof (N_ascii_bounded a) as A. pose proof (N_ascii_bounded b) as B. change (2 ^ 16) with 65536.
  assert (E1 : (N_of_ascii a + N_of_ascii b * 256) mod 256 = N_of_ascii a) by (rewrite N.mod_add by lia; apply N.mod_small; exact A).
  assert (E2 : (N_of_ascii a + N_of_ascii b * 256) / 256 = N_of_ascii b) by (rewrite N.div_add by lia; rewrite N.div_small by exact A; reflexivity).
  split; [lia|]. unfold hw, hw_bytes. rewrite E1, E2, !ascii_N_embedding. split; reflexivity.
Qed.
Lemma chunks2_short (bytes : str) : (length bytes < 2)%nat -> chunks2 bytes = [].
Proof. destruct bytes as [|a [|b bytes]]; intros H; try reflexivity. cbn [length] in H. lia. Qed.
Lemma chunks2_long (bytes : str) : (2 <= length bytes)%nat -> exists w rest, w < 2 ^ 16 /\ bytes = hw_bytes w ++ rest.
Proof.
  destruct bytes as [|a [|b bytes]]; cbn [length]; intros H; try lia.
  destruct (halfword a b) as [w [Hw [_ E]]]. exists w, bytes. rewrite E. split; [exact Hw | reflexivity].
Qed.
Lemma hw_bytes_inj w w' s s' : w < 2 ^ 16 -> w' < 2 ^ 16 -> hw_bytes w ++ s = hw_bytes w' ++ s' -> w = w' /\ s = s'.
Proof.
  intros Hw Hw' E. unfold hw_bytes in E. cbn [app] in E. injection E as E1 E2 E3.
  split; [|exact E3]. rewrite <- (hval_hw w Hw), <- (hval_hw w' Hw'). unfold hw. rewrite E1, E2. reflexivity.
Qed.
Lemma chunks2_skip n : forall bytes, chunks2 (skipn (2 * n) bytes) = skipn n (chunks2 bytes).
Proof.
  induction n as [|n IH]; intros bytes; [reflexivity|].
  replace (2 * S n)%nat with (S (S (2 * n))) by lia.
  destruct bytes as [|a [|b bytes]]; [reflexivity | reflexivity |].
  cbn [skipn chunks2]. apply IH.
Qed.

Lemma bsearch_total tags a : forall fuel left right, (right - left < fuel)%nat -> (right <= length tags)%nat ->
  (exists k, bsearch fuel tags a left right = Ret (Some k) /\ (k < length tags)%nat) \/ bsearch fuel tags a left right = Ret None.
Proof.
  induction fuel as [|fuel IH]; intros left right Hf Hr; [lia|].
  cbn [bsearch]. destruct (Nat.ltb_spec left right) as [Hlt | Hge]; [|right; reflexivity].
  set (mid := (left + (right - left) / 2)%nat).
  assert (Hmid : (left <= mid < right)%nat).
  { unfold mid. assert ((right - left) / 2 < right - left)%nat by (apply Nat.div_lt; lia). lia. }
  clearbody mid. destruct (nth_error tags mid) as [[b x]|] eqn:E; [|apply nth_error_None in E; lia].
  destruct (b =? a); [left; exists mid; split; [reflexivity | lia]|].
  destruct (b <? a); apply IH; lia.
Qed.
Definition step_of (a : N) (m : mark) : step :=
  match m with MCode => Decode | MPool e => SkipHalfwords (((e + 2 ^ 32 - a) mod 2 ^ 32) / 2 - 1) | MLast => Stop end.
Lemma at_tag_mark tags a m : marked tags a m -> at_tag tags a = Ret (step_of a m).
Proof.
  intros M. unfold at_tag. destruct M as [F | k b F K | k b e F K L | k b F K L]; rewrite F; cbn [bind]; rewrite ?K, ?L; reflexivity.
Qed.
Lemma marked_total tags a : (exists m, marked tags a m) \/
  (exists k b e, find_tag tags a = Ret (Some k) /\ nth_error tags k = Some (b, TData) /\ nth_error tags (S k) = Some (e, TData)).
Proof.
  destruct (bsearch_total tags a (S (length tags)) 0 (length tags)) as [[k [E Hk]] | E]; [lia|lia| |];
    fold (find_tag tags a) in E.
  2:{ left. exists MCode. apply mk_none. exact E. }
  destruct (nth_error tags k) as [[b x]|] eqn:Ek; [|apply nth_error_None in Ek; lia].
  destruct x; [|left; exists MCode; eapply mk_thumb; eassumption].
  destruct (nth_error tags (S k)) as [[e y]|] eqn:En; [|left; exists MLast; eapply mk_last; eassumption].
  destruct y; [|left; exists (MPool e); eapply mk_pool; eassumption].
  right. exists k, b, e. tauto.
Qed.
Lemma marked_fun tags a m m' : marked tags a m -> marked tags a m' -> m = m'.
Proof.
  intros H H'. destruct H, H'; try reflexivity; try congruence;
    match goal with A : find_tag tags a = Ret (Some ?k), B : find_tag tags a = Ret (Some ?k') |- _ =>
      assert (k' = k) by congruence; subst k' end; congruence.
Qed.

Lemma sweep_fun v7 address tags pos bytes l l' :
  sweep v7 address tags pos bytes l -> sweep v7 address tags pos bytes l' -> l = l'.
Proof.
  intros H. revert l'. induction H as [pos bytes Hs | pos bytes M | pos bytes e n l Hb M En H IH | pos w bytes l M Hw Ha H IH
    | pos w v bytes l M Hw Hv Ha H IH]; intros l' H'.
  - inversion H'; subst; try reflexivity; try lia; cbn [hw_bytes app length] in Hs; lia.
  - inversion H'; subst; try reflexivity;
      match goal with A : marked _ _ ?m |- _ => lazymatch m with MLast => fail | _ => pose proof (marked_fun _ _ _ _ M A); discriminate end end.
  - inversion H'; subst; try lia.
    + match goal with A : marked _ _ MLast |- _ => pose proof (marked_fun _ _ _ _ M A); discriminate end.
    + match goal with A : marked _ _ (MPool ?e0) |- _ => pose proof (marked_fun _ _ _ _ M A) as X; tryif constr_eq e0 e then fail else idtac end.
      injection X as X. subst. apply IH. assumption.
    + match goal with A : marked _ _ MCode |- _ => pose proof (marked_fun _ _ _ _ M A); discriminate end.
    + match goal with A : marked _ _ MCode |- _ => pose proof (marked_fun _ _ _ _ M A); discriminate end.
  - remember (hw_bytes w ++ bytes) as b eqn:Eb. destruct H' as [pos b Hs | pos b M' | pos b e n l' Hb M' En H' | pos w' b l' M' Hw' Ha' H'
    | pos w' v' b l' M' Hw' Hv' Ha' H'].
    + subst b. cbn [hw_bytes app length] in Hs. lia.
    + pose proof (marked_fun _ _ _ _ M M'); discriminate.
    + pose proof (marked_fun _ _ _ _ M M'); discriminate.
    + apply hw_bytes_inj in Eb; [|assumption|assumption]. destruct Eb as [-> ->]. f_equal. apply IH. exact H'.
    + apply hw_bytes_inj in Eb; [|assumption|assumption]. destruct Eb as [-> _]. congruence.
  - remember (hw_bytes w ++ hw_bytes v ++ bytes) as b eqn:Eb. destruct H' as [pos b Hs | pos b M' | pos b e n l' Hb M' En H'
    | pos w' b l' M' Hw' Ha' H' | pos w' v' b l' M' Hw' Hv' Ha' H'].
    + subst b. cbn [hw_bytes app length] in Hs. lia.
    + pose proof (marked_fun _ _ _ _ M M'); discriminate.
    + pose proof (marked_fun _ _ _ _ M M'); discriminate.
    + apply hw_bytes_inj in Eb; [|assumption|assumption]. destruct Eb as [-> _]. congruence.
    + apply hw_bytes_inj in Eb; [|assumption|assumption]. destruct Eb as [-> Eb].
      apply hw_bytes_inj in Eb; [|assumption|assumption]. destruct Eb as [-> ->]. f_equal. apply IH. exact H'.
Qed.

Lemma alone_true v7 w : alone v7 w = true -> wide w = false /\ alloc16 v7 w = true /\ bkpt w = false.
Proof.
  unfold alone. intros H. apply andb_true_iff in H. destruct H as [H H3]. apply andb_true_iff in H. destruct H as [H1 H2].
  apply negb_true_iff in H1, H3. tauto.
Qed.
Lemma alone_false v7 w : w < 2 ^ 16 -> alone v7 w = false -> chain v7 (hw w) rules16 = Ret None.
Proof.
  intros Hw H. unfold alone in H. destruct (wide w) eqn:E; [apply chain_wide; assumption|].
  apply chain_other; [exact Hw|]. destruct (alloc16 v7 w); [right | left; reflexivity].
  destruct (bkpt w); [reflexivity | discriminate].
Qed.

Definition room (pos : N) (bytes : str) : Prop := (length bytes < 2)%nat \/ pos + N.of_nat (length bytes) < 2 ^ 30.
Lemma room_hw pos w rest : room pos (hw_bytes w ++ rest) -> pos + 2 + N.of_nat (length rest) < 2 ^ 30.
Proof. intros [H|H]; rewrite app_length in H; cbn [hw_bytes length] in H; lia. Qed.
Lemma room_skip pos n bytes : (2 <= length bytes)%nat -> room pos bytes -> room (pos + n) (skipn (N.to_nat n) bytes).
Proof.
  intros L [H|H]; [lia|]. unfold room. rewrite skipn_length.
  destruct (Nat.lt_ge_cases (length bytes - N.to_nat n) 2); [left; assumption | right; lia].
Qed.
Lemma skip_pool v7 address tags len bytes i e s : (2 <= length bytes)%nat ->
  let a := (address + 2 * i) mod 2 ^ 32 in marked tags a (MPool e) ->
  exists j, 2 * i + pool_len a e = 2 * j /\
    aloop v7 address tags len (chunks2 bytes) i 0 s =
    aloop v7 address tags len (chunks2 (skipn (N.to_nat (pool_len a e)) bytes)) j 0 s.
Proof.
  cbv zeta. intros Hb M. set (a := (address + 2 * i) mod 2 ^ 32) in *. pose proof (at_tag_mark _ _ _ M) as E.
  destruct (chunks2_long bytes Hb) as [w [rest [Hw ->]]]. rewrite chunks2_hw. cbn [aloop]. rewrite N.eqb_refl. fold a. rewrite E. cbn [bind step_of].
  set (h := ((e + 2 ^ 32 - a) mod 2 ^ 32) / 2). rewrite aloop_jump.
  assert (Ep : pool_len a e = 2 * (1 + (h - 1))) by (unfold pool_len; fold h; lia).
  exists (N.succ i + (h - 1)). split; [lia|]. f_equal.
  rewrite Ep. replace (N.to_nat (2 * (1 + (h - 1)))) with (S (S (2 * N.to_nat (h - 1)))) by lia.
  unfold hw_bytes. cbn [app skipn]. rewrite chunks2_skip. reflexivity.
Qed.
Lemma step_narrow v7 address tags len w rest i s : marked tags ((address + 2 * i) mod 2 ^ 32) MCode -> w < 2 ^ 16 -> alone v7 w = true ->
  i < 2 ^ 29 ->
  aloop v7 address tags (Z.of_N len) (chunks2 (hw_bytes w ++ rest)) i 0 s =
  aloop v7 address tags (Z.of_N len) (chunks2 rest) (N.succ i) 0 (eff v7 len (2 * i, I16 w) s).
Proof.
  intros M Hw A Hi. destruct (alone_true _ _ A) as [A1 [A2 A3]].
  rewrite chunks2_hw. cbn [aloop]. rewrite N.eqb_refl, (at_tag_mark _ _ _ M). cbn [bind step_of].
  rewrite (chain_narrow v7 w Hw A1 A2 A3). cbn [bind]. rewrite (exec16_ok v7) by assumption. reflexivity.
Qed.
Lemma step_wide v7 address tags len w v rest i s : marked tags ((address + 2 * i) mod 2 ^ 32) MCode -> w < 2 ^ 16 -> v < 2 ^ 16 -> alone v7 w = false ->
  i < 2 ^ 29 ->
  aloop v7 address tags (Z.of_N len) (chunks2 (hw_bytes w ++ hw_bytes v ++ rest)) i 0 s =
  aloop v7 address tags (Z.of_N len) (chunks2 rest) (N.succ (N.succ i)) 0 (eff v7 len (2 * i, I32 w v) s).
Proof.
  intros M Hw Hv A Hi. rewrite !chunks2_hw. cbn [aloop]. rewrite N.eqb_refl, (at_tag_mark _ _ _ M). cbn [bind step_of].
  rewrite (alone_false _ _ Hw A). cbn [bind]. rewrite exec32_ok by assumption. reflexivity.
Qed.

Lemma sweep_run v7 address tags len pos bytes l : sweep v7 address tags pos bytes l -> forall i s, pos = 2 * i -> room pos bytes ->
  aloop v7 address tags (Z.of_N len) (chunks2 bytes) i 0 s = Ret (effs v7 len l s).
Proof.
  induction 1 as [pos bytes Hs | pos bytes M | pos bytes e n l Hb M En H IH | pos w bytes l M Hw Ha H IH
    | pos w v bytes l M Hw Hv Ha H IH]; intros i s -> R.
  - rewrite chunks2_short by exact Hs. reflexivity.
  - destruct (Nat.lt_ge_cases (length bytes) 2) as [Hs | Hb]; [rewrite chunks2_short by exact Hs; reflexivity|].
    destruct (chunks2_long bytes Hb) as [w [rest [Hw ->]]]. rewrite chunks2_hw. cbn [aloop].
    rewrite N.eqb_refl, (at_tag_mark _ _ _ M). reflexivity.
  - destruct (skip_pool v7 address tags (Z.of_N len) bytes i e s Hb M) as [j [Ej E]]. rewrite E. subst n. apply IH; [exact Ej | apply room_skip; assumption].
  - pose proof (room_hw _ _ _ R) as R'. change (2 ^ 30) with 1073741824 in R'.
    rewrite step_narrow by (assumption || change (2 ^ 29) with 536870912; lia). apply IH; [lia | right; change (2 ^ 30) with 1073741824; lia].
  - pose proof (room_hw _ _ _ R) as R'. change (2 ^ 30) with 1073741824 in R'. rewrite app_length in R'. cbn [hw_bytes length] in R'.
    rewrite step_wide by (assumption || change (2 ^ 29) with 536870912; lia). apply IH; [lia | right; change (2 ^ 30) with 1073741824; lia].
Qed.
Lemma stuck_run v7 address tags len pos bytes msg : stuck v7 address tags pos bytes msg -> forall i s, pos = 2 * i -> room pos bytes ->
  aloop v7 address tags (Z.of_N len) (chunks2 bytes) i 0 s = Panic msg.
Proof.
  induction 1 as [pos bytes k b e Hb F K L | pos w rest M Hw Ha Hr | pos bytes e n msg Hb M En H IH | pos w bytes msg M Hw Ha H IH
    | pos w v bytes msg M Hw Hv Ha H IH]; intros i s -> R.
  - destruct (chunks2_long bytes Hb) as [w [rest [Hw ->]]]. rewrite chunks2_hw. cbn [aloop].
    rewrite N.eqb_refl. unfold at_tag. rewrite F. cbn [bind]. rewrite K, L. reflexivity.
  - rewrite chunks2_hw. cbn [aloop]. rewrite N.eqb_refl, (at_tag_mark _ _ _ M). cbn [bind step_of].
    rewrite (alone_false _ _ Hw Ha). cbn [bind]. rewrite chunks2_short by exact Hr. reflexivity.
  - destruct (skip_pool v7 address tags (Z.of_N len) bytes i e s Hb M) as [j [Ej E]]. rewrite E. subst n. apply IH; [exact Ej | apply room_skip; assumption].
  - pose proof (room_hw _ _ _ R) as R'. change (2 ^ 30) with 1073741824 in R'.
    rewrite step_narrow by (assumption || change (2 ^ 29) with 536870912; lia). apply IH; [lia | right; change (2 ^ 30) with 1073741824; lia].
  - pose proof (room_hw _ _ _ R) as R'. change (2 ^ 30) with 1073741824 in R'. rewrite app_length in R'. cbn [hw_bytes length] in R'.
    rewrite step_wide by (assumption || change (2 ^ 29) with 536870912; lia). apply IH; [lia | right; change (2 ^ 30) with 1073741824; lia].
Qed.
Lemma sweep_total v7 address tags : forall n bytes pos, (length bytes <= n)%nat ->
  (exists l, sweep v7 address tags pos bytes l) \/ (exists msg, stuck v7 address tags pos bytes msg).
Proof.
  induction n as [n IH] using (well_founded_induction Wf_nat.lt_wf). intros bytes pos Hn.
  destruct (Nat.lt_ge_cases (length bytes) 2) as [Hs | Hb]; [left; exists []; apply sw_end; exact Hs|].
  destruct (marked_total tags ((address + pos) mod 2 ^ 32)) as [[m M] | [k [b [e [F [K L]]]]]].
  2:{ right. eexists. eapply sk_data; eassumption. }
  destruct m as [|e|].
  - destruct (chunks2_long bytes Hb) as [w [rest [Hw ->]]]. rewrite app_length in Hn. cbn [hw_bytes length] in Hn.
    destruct (alone v7 w) eqn:A.
    + destruct (IH (length rest) ltac:(lia) rest (pos + 2)) as [[l S] | [msg S]]; [lia| |].
      * left. eexists. apply sw_narrow; eassumption.
      * right. eexists. apply sk_narrow; eassumption.
    + destruct (Nat.lt_ge_cases (length rest) 2) as [Hs2 | Hb2]; [right; eexists; apply sk_cut; assumption|].
      destruct (chunks2_long rest Hb2) as [v [rest' [Hv ->]]]. rewrite app_length in Hn. cbn [hw_bytes length] in Hn.
      destruct (IH (length rest') ltac:(lia) rest' (pos + 4)) as [[l S] | [msg S]]; [lia| |].
      * left. eexists. apply sw_wide; eassumption.
      * right. eexists. apply sk_wide; eassumption.
  - set (k := pool_len ((address + pos) mod 2 ^ 32) e).
    assert (1 <= k) by (unfold k, pool_len; lia).
    destruct (IH (length (skipn (N.to_nat k) bytes)) ltac:(rewrite skipn_length; lia) (skipn (N.to_nat k) bytes) (pos + k)) as [[l S] | [msg S]]; [lia| |].
    + left. eexists. eapply sw_pool; [exact Hb | exact M | reflexivity | exact S].
    + right. eexists. eapply sk_pool; [exact Hb | exact M | reflexivity | exact S].
  - left. exists []. apply sw_last. exact M.
Qed.

(** * What the instructions amount to *)
Lemma fold_bls v7 len ps : forall s, bls (effs v7 len ps s) = bls s ++ flat_map (target call_imm) ps.
Proof.
  induction ps as [|p ps IH]; intros s; [symmetry; apply app_nil_r|].
  cbn [fold_left flat_map]. rewrite IH. unfold eff. cbn [bls]. rewrite app_assoc. reflexivity.
Qed.
Lemma fold_bs v7 len ps : forall s, bs (effs v7 len ps s) = bs s ++ flat_map (target (branch_recorded v7)) ps.
Proof.
  induction ps as [|p ps IH]; intros s; [symmetry; apply app_nil_r|].
  cbn [fold_left flat_map]. rewrite IH. unfold eff at 1. cbn [bs]. rewrite app_assoc. reflexivity.
Qed.
Lemma fold_ind v7 len ps : forall s, indirect (effs v7 len ps s) = indirect s || existsb (fun p => is_indirect (snd p)) ps.
Proof.
  induction ps as [|p ps IH]; intros s; [symmetry; apply orb_false_r|].
  cbn [fold_left existsb]. rewrite IH. unfold eff. cbn [indirect]. rewrite orb_assoc. reflexivity.
Qed.
Lemma fold_modifies v7 len ps : forall s, modifies_sp (effs v7 len ps s) = modifies_sp s || some_counted v7 ps.
Proof.
  unfold some_counted. induction ps as [|p ps IH]; intros s; [symmetry; apply orb_false_r|].
  cbn [fold_left existsb]. rewrite IH. unfold eff at 1. cbn [modifies_sp]. rewrite orb_assoc. reflexivity.
Qed.
Lemma fold_stack v7 len ps : forall s k, k < two64 ->
  stack s = Some k ->
  stack (effs v7 len ps s) =
  if existsb (inside len) (flat_map (target (branch_recorded v7)) ps) then None
  else Some ((k + total_counted v7 ps) mod two64).
Proof.
  assert (HN : forall ps s, stack s = None -> stack (effs v7 len ps s) = None).
  { induction ps0 as [|p ps0 IH]; intros s E; [exact E|]. cbn [fold_left]. apply IH. unfold eff. cbn [stack].
    rewrite E. destruct (existsb _ _); reflexivity. }
  induction ps as [|p ps IH]; intros s k Hk E.
  - cbn [fold_left flat_map existsb total_counted fold_right]. rewrite E, N.add_0_r, N.mod_small by exact Hk. reflexivity.
  - cbn [fold_left flat_map]. rewrite existsb_app.
    destruct (existsb (inside len) (target (branch_recorded v7) p)) eqn:B.
    + cbn [orb]. apply HN. unfold eff. cbn [stack]. rewrite B. reflexivity.
    + cbn [orb]. change (total_counted v7 (p :: ps)) with
        (match counted v7 (snd p) with Some d => d + total_counted v7 ps | None => total_counted v7 ps end).
      assert (E2 : stack (eff v7 len p s) = Some (match counted v7 (snd p) with Some d => (k + d) mod two64 | None => k end)).
      { unfold eff. cbn [stack]. rewrite B, E. reflexivity. }
      assert (T : two64 <> 0) by discriminate.
      destruct (counted v7 (snd p)) as [d|] eqn:D.
      * rewrite (IH _ _ (N.mod_lt _ _ T) E2). destruct (existsb _ _); [reflexivity|].
        rewrite N.add_mod_idemp_l by exact T. do 2 f_equal. lia.
      * rewrite (IH _ _ Hk E2). reflexivity.
Qed.

Lemma bits_le n : forall w, bits n w <= N.of_nat n.
Proof.
  induction n as [|n IH]; intros w; [cbn; lia|]. cbn [bits]. rewrite Nat2N.inj_succ.
  specialize (IH (w / 2)). assert (w mod 2 < 2) by (apply N.mod_lt; lia).
  set (r := w mod 2) in *. clearbody r. lia.
Qed.
Lemma Some_eq {A} (x y : A) : Some x = Some y -> y = x.
Proof. congruence. Qed.
Lemma counted_lt v7 i d : counted v7 i = Some d -> d < 2 ^ 32.
Proof.
  assert (S : 4096 <= 2 ^ 32) by (change (2 ^ 32) with 4294967296; lia).
  destruct i as [w | w v]; cbn [counted sp_drop]; intros E.
  - pose proof (bits_le 9 (fld w 8 0)) as B. pose proof (fld_lt w 6 0) as L. change (2 ^ (6 - 0 + 1)) with 128 in L.
    destruct (is_push w); [apply Some_eq in E; rewrite E; clear E d|
      destruct (is_sub1 w); [apply Some_eq in E; rewrite E; clear E d | discriminate]].
    + set (x := bits 9 (fld w 8 0)) in *. clearbody x. lia.
    + lia.
  - destruct (imm12_lor w v) as [_ L12].
    pose proof (fld_lt v 7 0) as L. change (2 ^ (7 - 0 + 1)) with 256 in L.
    pose proof (bits_le 13 (fld v 12 0)) as B. pose proof (fld_bit v 14) as B2.
    destruct (v7 && is_stmdb_sp w v).
    { apply Some_eq in E. rewrite E. set (x := bits 13 (fld v 12 0)) in *. clearbody x. lia. }
    destruct (v7 && is_sub2 w v); [apply Some_eq in E; rewrite E; apply expand_imm_counted; exact L12|].
    destruct (v7 && is_vpush w v); [apply Some_eq in E; rewrite E; lia|].
    destruct (is_str_sp w v); [apply Some_eq in E; rewrite E; lia | discriminate].
Qed.
Lemma total_counted_lt v7 ps : total_counted v7 ps <= 2 ^ 32 * N.of_nat (length ps).
Proof.
  induction ps as [|p ps IH]; [cbn; lia|].
  change (total_counted v7 (p :: ps)) with
    (match counted v7 (snd p) with Some d => d + total_counted v7 ps | None => total_counted v7 ps end).
  cbn [length]. rewrite Nat2N.inj_succ. destruct (counted v7 (snd p)) as [d|] eqn:D.
  - pose proof (counted_lt v7 _ d D). lia.
  - lia.
Qed.
Lemma sweep_length v7 address tags pos bytes l : sweep v7 address tags pos bytes l -> 2 * N.of_nat (length l) <= N.of_nat (length bytes).
Proof.
  induction 1 as [pos bytes Hs | pos bytes M | pos bytes e n l Hb M En H IH | pos w bytes l M Hw Ha H IH
    | pos w v bytes l M Hw Hv Ha H IH].
  - cbn [length]. lia.
  - cbn [length]. lia.
  - rewrite skipn_length in IH. lia.
  - rewrite app_length. cbn [length hw_bytes]. lia.
  - rewrite !app_length. cbn [length hw_bytes]. lia.
Qed.
Lemma effs_amounts v7 len l : 2 * N.of_nat (length l) < 2 ^ 30 -> amounts v7 len l (effs v7 len l st0).
Proof.
  intros H. split.
  - rewrite fold_bls. reflexivity.
  - rewrite fold_bs. reflexivity.
  - rewrite fold_ind. reflexivity.
  - rewrite fold_modifies. reflexivity.
  - rewrite (fold_stack _ _ _ _ 0) by reflexivity. destruct (existsb _ _); [reflexivity|].
    rewrite N.add_0_l. f_equal. apply N.mod_small. pose proof (total_counted_lt v7 l) as D.
    change two64 with 18446744073709551616. change (2 ^ 32) with 4294967296 in D. change (2 ^ 30) with 1073741824 in H.
    set (x := total_counted v7 l) in *. clearbody x. lia.
Qed.
Lemma amounts_fun v7 len l s s' : amounts v7 len l s -> amounts v7 len l s' -> s = s'.
Proof.
  intros [A1 A2 A3 A4 A5] [B1 B2 B3 B4 B5]. destruct s, s'. cbn in *. congruence.
Qed.

Lemma analyze_swept bytes address v7 tags l : N.of_nat (length bytes) < 2 ^ 30 -> sweep v7 address tags 0 bytes l ->
  exists s, analyze bytes address v7 tags = Ret s /\ amounts v7 (N.of_nat (length bytes)) l s.
Proof.
  intros H S. exists (effs v7 (N.of_nat (length bytes)) l st0). split.
  - unfold analyze. rewrite <- nat_N_Z. apply (sweep_run _ _ _ _ 0 _ _ S); [reflexivity | right; lia].
  - apply effs_amounts. pose proof (sweep_length _ _ _ _ _ _ S). lia.
Qed.
Lemma analyze_stuck bytes address v7 tags msg : N.of_nat (length bytes) < 2 ^ 30 -> stuck v7 address tags 0 bytes msg ->
  analyze bytes address v7 tags = Panic msg.
Proof.
  intros H S. unfold analyze. rewrite <- nat_N_Z. apply (stuck_run _ _ _ _ 0 _ _ S); [reflexivity | right; lia].
Qed.
Lemma analyze_exact bytes address v7 tags : N.of_nat (length bytes) < 2 ^ 30 ->
  (forall s, analyze bytes address v7 tags = Ret s <->
             exists l, sweep v7 address tags 0 bytes l /\ amounts v7 (N.of_nat (length bytes)) l s) /\
  (forall msg, analyze bytes address v7 tags = Panic msg <-> stuck v7 address tags 0 bytes msg) /\
  ((exists s, analyze bytes address v7 tags = Ret s) \/ (exists msg, analyze bytes address v7 tags = Panic msg)) /\
  (forall l l', sweep v7 address tags 0 bytes l -> sweep v7 address tags 0 bytes l' -> l = l').
Proof.
  intros H. destruct (sweep_total v7 address tags (length bytes) bytes 0 (Nat.le_refl _)) as [[l S] | [m S]].
  - destruct (analyze_swept _ _ _ _ _ H S) as [s [E A]]. split; [|split; [|split]].
    + intros s'. rewrite E. split.
      * intros X. injection X as <-. exists l. split; assumption.
      * intros [l' [S' A']]. rewrite <- (sweep_fun _ _ _ _ _ _ _ S S') in A'. rewrite (amounts_fun _ _ _ _ _ A A'). reflexivity.
    + intros msg. split; [rewrite E; discriminate|]. intros S'. exact (analyze_stuck _ _ _ _ _ H S').
    + left. exists s. exact E.
    + exact (sweep_fun v7 address tags 0 bytes).
  - pose proof (analyze_stuck _ _ _ _ _ H S) as E. split; [|split; [|split]].
    + intros s'. split; [rewrite E; discriminate|]. intros [l [S' A']]. destruct (analyze_swept _ _ _ _ _ H S') as [s'' [E' _]]. congruence.
    + intros msg. split; [|intros S'; exact (analyze_stuck _ _ _ _ _ H S')]. rewrite E. intros X. injection X as <-. exact S.
    + right. exists m. exact E.
    + exact (sweep_fun v7 address tags 0 bytes).
Qed.

(** * The functions of the model's domain *)
Lemma find_tag_at tags a k x : increasing tags -> nth_error tags k = Some (a, x) -> find_tag tags a = Ret (Some k).
Proof.
  intros Hinc Ek. destruct (find_tag_spec tags a Hinc) as [[k' [y [E Ek']]] | [_ Hnot]].
  2:{ exfalso. apply (Hnot x). eapply nth_error_In. exact Ek. }
  destruct (Nat.lt_trichotomy k k') as [H | [H | H]]; [|congruence|].
  - destruct (Hinc k k' a a x y H Ek Ek'). lia.
  - destruct (Hinc k' k a a y x H Ek' Ek). lia.
Qed.
Lemma marked_code tags a : increasing tags -> ~ In (a, TData) tags -> marked tags a MCode.
Proof.
  intros Hinc Hn. destruct (find_tag_spec tags a Hinc) as [[k [x [E Ek]]] | [E _]].
  - destruct x; [exfalso; apply Hn; eapply nth_error_In; exact Ek | eapply mk_thumb; [exact E | exact Ek]].
  - apply mk_none. exact E.
Qed.
Lemma marked_pool tags a e last : increasing tags -> a < 2 ^ 32 -> pool_tag tags a e last ->
  (exists t, marked tags a (MPool t) /\ a < t /\ t < 2 ^ 32 /\ (t = e \/ last = true /\ e <= t)) \/
  (marked tags a MLast /\ last = true).
Proof.
  intros Hinc Ha [k [Ek Hk]]. pose proof (find_tag_at tags a k _ Hinc Ek) as F.
  destruct (nth_error tags (S k)) as [[t y]|] eqn:En.
  - destruct y; [contradiction|]. left. exists t.
    destruct (Hinc k (S k) a t TData TThumb (Nat.lt_succ_diag_r k) Ek En) as [H1 H2].
    split; [eapply mk_pool; eassumption | tauto].
  - right. split; [eapply mk_last; eassumption | exact Hk].
Qed.
Lemma pool_len_exact a t : a < t -> t < 2 ^ 32 -> pool_len a t = 2 * N.max 1 ((t - a) / 2).
Proof.
  intros H1 H2. unfold pool_len. replace (t + 2 ^ 32 - a) with (t - a + 1 * 2 ^ 32) by lia. rewrite N.mod_add by discriminate.
  rewrite N.mod_small by lia. reflexivity.
Qed.
Lemma pool_bytes_length ws : length (flat_map hw_bytes ws) = (2 * length ws)%nat.
Proof. induction ws as [|w ws IH]; [reflexivity|]. cbn [flat_map]. rewrite app_length, IH. cbn [hw_bytes length]. lia. Qed.

Lemma function_sweep v7 address tags : increasing tags -> forall l pos,
  (forall x, In x l -> item_ok v7 x) -> tagged tags (address + pos) l -> address + pos + size l <= 2 ^ 32 ->
  sweep v7 address tags pos (encode l) (placed pos l).
Proof.
  intros Hinc. induction l as [|x l IH]; intros pos Hok Htag Hsp; [apply sw_end; cbn; lia|].
  assert (Hx : item_ok v7 x) by (apply Hok; left; reflexivity).
  assert (Hl : forall y, In y l -> item_ok v7 y) by (intros y Hy; apply Hok; right; exact Hy).
  cbn [tagged] in Htag. destruct Htag as [Hxt Htag].
  change (size (x :: l)) with (item_size x + size l) in *.
  change (2 ^ 32) with 4294967296 in *.
  change (encode (x :: l)) with (item_bytes x ++ encode l).
  rewrite <- N.add_assoc in Htag.
  assert (Hp : item_size x <> 0) by (destruct x as [[w | w v] | [|w ws]]; cbn [item_size isize length]; try lia; destruct Hxt; congruence).
  assert (Hmod : (address + pos) mod 2 ^ 32 = address + pos) by (apply N.mod_small; change (2 ^ 32) with 4294967296; lia).
  assert (IH' : sweep v7 address tags (pos + item_size x) (encode l) (placed (pos + item_size x) l)).
  { apply IH; [exact Hl | exact Htag | lia]. }
  destruct x as [[w | w v] | ws].
  - cbn [item_ok instr_ok] in Hx. cbn [placed item_bytes ibytes].
    rewrite <- !andb_assoc in Hx. apply andb_true_iff in Hx. destruct Hx as [Hw Hx]. apply N.ltb_lt in Hw.
    apply sw_narrow; [rewrite Hmod; apply marked_code; assumption | exact Hw | unfold alone; rewrite <- andb_assoc; exact Hx | exact IH'].
  - cbn [item_ok instr_ok] in Hx. cbn [placed item_bytes ibytes]. rewrite <- app_assoc.
    apply andb_true_iff in Hx. destruct Hx as [Hx H6]. apply andb_true_iff in Hx. destruct Hx as [Hx Hwd].
    apply andb_true_iff in Hx. destruct Hx as [Hw Hv]. apply N.ltb_lt in Hw, Hv.
    apply sw_wide; [rewrite Hmod; apply marked_code; assumption | exact Hw | exact Hv | unfold alone; rewrite Hwd; reflexivity | exact IH'].
  - destruct Hxt as [Hne Hpt]. cbn [item_bytes]. cbn [placed].
    assert (Ha : address + pos < 2 ^ 32) by (change (2 ^ 32) with 4294967296; lia).
    assert (Lb : (2 <= length (flat_map hw_bytes ws ++ encode l))%nat).
    { rewrite app_length, pool_bytes_length. destruct ws; [congruence | cbn [length]; lia]. }
    destruct (marked_pool tags _ _ _ Hinc Ha Hpt) as [[t [M [Hat [Ht32 Ht]]]] | [M Hlast]].
    + eapply sw_pool; [exact Lb | rewrite Hmod; exact M | reflexivity|]. rewrite Hmod, pool_len_exact by assumption.
      destruct Ht as [-> | [Hlast Ht]].
      * set (n := item_size (Pool ws)) in *.
        replace ((address + pos + n - (address + pos)) / 2) with (N.of_nat (length ws)).
        2:{ unfold n. cbn [item_size]. replace (address + pos + 2 * N.of_nat (length ws) - (address + pos)) with (N.of_nat (length ws) * 2) by lia.
            rewrite N.div_mul by lia. reflexivity. }
        replace (2 * N.max 1 (N.of_nat (length ws))) with n.
        2:{ unfold n. cbn [item_size]. destruct ws; [congruence | cbn [length]; lia]. }
        replace (N.to_nat n) with (length (flat_map hw_bytes ws)) by (rewrite pool_bytes_length; unfold n; cbn [item_size]; lia).
        rewrite skipn_app, skipn_all, Nat.sub_diag. cbn [app skipn]. exact IH'.
      * destruct l as [|y l]; [|discriminate]. cbn [placed]. apply sw_end. rewrite skipn_length, app_length, pool_bytes_length.
        cbn [encode flat_map length]. cbn [item_size] in *.
        assert (N.of_nat (length ws) <= (t - (address + pos)) / 2) by (apply N.div_le_lower_bound; lia). lia.
    + destruct l as [|y l]; [|discriminate]. cbn [placed]. apply sw_last. rewrite Hmod. exact M.
Qed.
Lemma analyze_ok v7 address tags l : function_ok v7 address tags l ->
  exists s, analyze (encode l) address v7 tags = Ret s /\ amounts v7 (size l) (placed 0 l) s.
Proof.
  intros [Hok [Hinc [Htag [Hsp Hlen]]]].
  assert (S : sweep v7 address tags 0 (encode l) (placed 0 l)) by (apply function_sweep; rewrite ?N.add_0_r; assumption).
  destruct (analyze_swept (encode l) address v7 tags _ ltac:(rewrite encode_length; exact Hlen) S) as [s [E A]].
  exists s. split; [exact E|]. rewrite encode_length in A. exact A.
Qed.

(** * What is counted and what is allocated *)
Lemma counted_drop v7 i : instr_ok v7 i = true -> lost v7 i = false -> sp_drop v7 i = None \/ counted v7 i = sp_drop v7 i.
Proof.
  destruct i as [w | w v]; [right; reflexivity|]. cbn [instr_ok lost counted sp_drop]. intros Hok Hq.
  apply andb_true_iff in Hok. destruct Hok as [Hok H6]. apply andb_true_iff in Hok. destruct Hok as [Hok Hwd].
  apply andb_true_iff in Hok. destruct Hok as [Hw Hv]. apply N.ltb_lt in Hw, Hv.
  destruct v7; cbn [andb negb orb] in *; [|left; reflexivity].
  apply orb_false_iff in Hq. destruct Hq as [Q1 Q3]. rewrite Q1.
  destruct (is_stmdb_sp w v) eqn:SB.
  { destruct (fld_bit w 5) as [E|E]; rewrite E in *; cbn [andb N.eqb]; [|right; reflexivity].
    assert (X : (fld w 15 6 =? 932) && (fld w 4 4 =? 0) = true).
    { unfold is_stmdb_sp in SB. rewrite <- !andb_assoc in SB. apply andb_true_iff in SB. destruct SB as [B1 SB].
      apply andb_true_iff in SB. destruct SB as [B2 _]. rewrite B1, B2. reflexivity. }
    destruct (excl_p1 w Hw X) as [X1 [X2 X3]].
    unfold is_sub2, is_vpush, is_str_sp. rewrite X1, X2, X3. left. reflexivity. }
  right. cbn [andb]. destruct (is_sub2 w v); [|reflexivity]. cbn [andb] in Q3. rewrite <- (imm12_low w v Hv) in Q3.
  destruct (imm12_lor w v) as [_ L12]. f_equal.
  rewrite <- (expand_imm_ok _ L12 Q3). symmetry. apply expand_imm_counted. exact L12.
Qed.
Lemma counted_quirk v7 i : instr_ok v7 i = true -> stack_quirk v7 i = false -> counted v7 i = sp_drop v7 i.
Proof.
  intros Hok Hq.
  assert (L : lost v7 i = false).
  { destruct i as [w | w v]; [reflexivity|]. cbn [stack_quirk lost] in *. destruct v7; [|reflexivity]. cbn [andb] in *.
    apply orb_false_iff in Hq. destruct Hq as [Hq Q3]. apply orb_false_iff in Hq. destruct Hq as [Q1 Q2]. rewrite Q1, Q3. reflexivity. }
  destruct (counted_drop v7 i Hok L) as [E | E]; [|exact E]. rewrite E.
  destruct i as [w | w v]; [exact E|]. cbn [instr_ok stack_quirk counted sp_drop] in *.
  destruct v7; cbn [andb negb orb] in *.
  - apply orb_false_iff in Hq. destruct Hq as [Hq Q3]. apply orb_false_iff in Hq. destruct Hq as [Q1 Q2]. rewrite Q1 in E.
    destruct (is_stmdb_sp w v).
    { destruct (fld_bit w 5) as [X|X]; rewrite X in *; discriminate. }
    cbn [andb] in E. destruct (is_sub2 w v); [discriminate E | exact E].
  - rewrite andb_true_iff in Hok. destruct Hok as [_ H6].
    destruct (is_str_sp w v) eqn:X; [|reflexivity]. unfold is_str_sp in X. rewrite <- !andb_assoc in X. apply andb_true_iff in X. destruct X as [X _].
    apply N.eqb_eq in X. subst w. discriminate H6.
Qed.

Lemma placed_in l : forall pos p, In p (placed pos l) -> In (Ins (snd p)) l.
Proof.
  induction l as [|[i | ws] l IH]; intros pos p H; [destruct H| |].
  - cbn [placed] in H. destruct H as [<- | H]; [left; reflexivity | right; eapply IH; exact H].
  - right. eapply IH. exact H.
Qed.
Lemma total_quirk v7 l : (forall x, In x l -> item_ok v7 x) -> (forall i, In (Ins i) l -> stack_quirk v7 i = false) ->
  total_counted v7 (placed 0 l) = total_drop v7 l /\ some_counted v7 (placed 0 l) = some_drop v7 l.
Proof.
  intros Hok Hq. assert (H : forall p, In p (placed 0 l) -> counted v7 (snd p) = sp_drop v7 (snd p)).
  { intros p Hp. apply placed_in in Hp. apply counted_quirk; [exact (Hok _ Hp) | exact (Hq _ Hp)]. }
  unfold total_drop, some_drop, total_counted, some_counted. revert H. generalize (placed 0 l). induction l0 as [|p ps IH]; intros H; [split; reflexivity|].
  cbn [fold_right existsb]. rewrite (H p) by (left; reflexivity).
  destruct IH as [I1 I2]; [intros q Q; apply H; right; exact Q|]. rewrite I1, I2. split; reflexivity.
Qed.
Lemma total_lost v7 l : (forall x, In x l -> item_ok v7 x) -> (forall i, In (Ins i) l -> lost v7 i = false) ->
  total_drop v7 l <= total_counted v7 (placed 0 l) /\ (some_drop v7 l = true -> some_counted v7 (placed 0 l) = true).
Proof.
  intros Hok Hq. assert (H : forall p, In p (placed 0 l) -> sp_drop v7 (snd p) = None \/ counted v7 (snd p) = sp_drop v7 (snd p)).
  { intros p Hp. apply placed_in in Hp. apply counted_drop; [exact (Hok _ Hp) | exact (Hq _ Hp)]. }
  unfold total_drop, some_drop, total_counted, some_counted. revert H. generalize (placed 0 l). induction l0 as [|p ps IH]; intros H; [split; [reflexivity | discriminate]|].
  cbn [fold_right existsb]. destruct IH as [I1 I2]; [intros q Q; apply H; right; exact Q|].
  destruct (H p (or_introl eq_refl)) as [E|E].
  - rewrite E. cbn [orb]. split; [destruct (counted v7 (snd p)); lia | intros K; rewrite (I2 K); apply orb_true_r].
  - rewrite E. split; [destruct (sp_drop v7 (snd p)); lia|]. destruct (sp_drop v7 (snd p)); [reflexivity | exact I2].
Qed.

Lemma analyze_stack v7 address tags l s : function_ok v7 address tags l ->
  (forall i, In (Ins i) l -> stack_quirk v7 i = false) ->
  analyze (encode l) address v7 tags = Ret s ->
  modifies_sp s = some_drop v7 l /\
  stack s = if existsb (inside (size l)) (targets (branch_recorded v7) l) then None else Some (total_drop v7 l).
Proof.
  intros Hf Hq Ha. destruct (analyze_ok v7 address tags l Hf) as [s' [Es [_ _ _ M S]]].
  assert (s' = s) by congruence. subst s'. destruct Hf as [Hok _]. destruct (total_quirk v7 l Hok Hq) as [T1 T2].
  rewrite M, S, T1, T2. split; reflexivity.
Qed.

(** * Every byte string *)
Definition consistent (len : Z) (s : st) : Prop :=
  (forall n, stack s = Some n -> n <> 0 -> modifies_sp s = true) /\
  (forall z, In z (bs s) -> (0 <= z < len)%Z -> stack s = None).

Lemma cons_lower len n s : consistent len s -> consistent len (lower_sp n s).
Proof.
  intros [_ B]. split; [reflexivity|]. intros z Hz Hl. unfold lower_sp in *. cbn [bs stack] in *.
  rewrite (B z Hz Hl). reflexivity.
Qed.
Lemma cons_push_b imm i len s : consistent len s -> consistent len (push_b imm i len s).
Proof.
  intros [A B]. unfold push_b. split; cbn [bs stack modifies_sp].
  - intros n. destruct (_ && _); [discriminate|]. apply A.
  - intros z Hz Hl. apply in_app_iff in Hz. destruct Hz as [Hz | [<- | []]].
    + rewrite (B z Hz Hl). destruct (_ && _); reflexivity.
    + destruct Hl as [H1 H2]. apply Z.leb_le in H1. apply Z.ltb_lt in H2. rewrite H1, H2. reflexivity.
Qed.
Lemma cons_push_bl imm i len s : consistent len s -> consistent len (push_bl imm i s).
Proof. intros [A B]. split; assumption. Qed.
Lemma cons_ind len s : consistent len s -> consistent len (set_indirect s).
Proof. intros [A B]. split; assumption. Qed.

Lemma cons_exec16 k h i len s s' : consistent len s -> exec16 k h i len s = Ret s' -> consistent len s'.
Proof.
  intros C. destruct k; cbn [exec16]; intros E.
  - injection E as <-. exact C.
  - destruct (_ =? 14); [discriminate|]. destruct (_ =? 15); [discriminate|]. injection E as <-.
    apply cons_push_b. exact C.
  - injection E as <-. apply cons_push_b. exact C.
  - injection E as <-. apply cons_ind. exact C.
  - injection E as <-. destruct (_ =? 14); [exact C | apply cons_ind; exact C].
  - injection E as <-. apply cons_lower. exact C.
  - injection E as <-. apply cons_lower. exact C.
Qed.
Lemma cons_exec32 v7 h1 h2 i len s s' : consistent len s -> exec32 v7 h1 h2 i len s = Ret s' -> consistent len s'.
Proof.
  intros C. unfold exec32.
  rewrite (match2_compile _ _ _ _ _ c1 d1) by reflexivity.
  rewrite (match2_compile _ _ _ _ _ c2 d2) by reflexivity.
  rewrite (match2_compile _ _ _ _ _ c3 d3) by reflexivity.
  rewrite (match2_compile _ _ _ _ _ c3 d4) by reflexivity.
  rewrite (match2_compile _ _ _ _ _ c4 d5) by reflexivity.
  rewrite (match2_compile _ _ _ _ _ c4 d6) by reflexivity.
  rewrite (match2_compile _ _ _ _ _ c4 d7) by reflexivity.
  rewrite (match2_compile _ _ _ _ _ c5 d8) by reflexivity.
  cbn [bind]. cbv zeta. intros E.
  repeat match type of E with context [if ?b then _ else _] =>
    lazymatch b with
    | context [if _ then _ else _] => fail
    | _ => let H := fresh "T" in destruct b eqn:H
    end end;
  injection E as <-; first [exact C | apply cons_lower; exact C | apply cons_push_b; exact C | apply cons_push_bl; exact C].
Qed.
Lemma cons_aloop v7 address tags len : forall n hs i skip s s', (length hs <= n)%nat ->
  consistent len s -> aloop v7 address tags len hs i skip s = Ret s' -> consistent len s'.
Proof.
  induction n as [|n IH]; intros hs i skip s s' Hn C E.
  - destruct hs; [|cbn in Hn; lia]. injection E as <-. exact C.
  - destruct hs as [|h hs]; [injection E as <-; exact C|]. cbn [length] in Hn. cbn [aloop] in E.
    destruct (skip =? 0); [|eapply IH; [|exact C|exact E]; lia].
    destruct (at_tag tags _) as [a| | |]; cbn [bind] in E; try discriminate.
    destruct a.
    + rewrite chain16 in E. cbn [bind] in E. destruct (cchain v7 h crules) as [k|].
      * destruct (exec16 _ _ _ _ _) as [s1| | |] eqn:E1; cbn [bind] in E; try discriminate.
        eapply IH; [|eapply cons_exec16; [exact C|exact E1]|exact E]. lia.
      * destruct hs as [|h2 hs]; [discriminate|]. cbn [length] in Hn.
        destruct (exec32 _ _ _ _ _ _) as [s1| | |] eqn:E1; cbn [bind] in E; try discriminate.
        eapply IH; [|eapply cons_exec32; [exact C|exact E1]|exact E]. lia.
    + eapply IH; [|exact C|exact E]. lia.
    + injection E as <-. exact C.
Qed.
Lemma analyze_consistent bytes address v7 tags s :
  analyze bytes address v7 tags = Ret s -> consistent (Z.of_nat (length bytes)) s.
Proof.
  intros E. eapply cons_aloop; [reflexivity| |exact E].
  split; cbn.
  - intros n [= <-] H. congruence.
  - intros z [].
Qed.
