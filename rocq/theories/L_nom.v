(** Every parser of the model ends (no [NoFuel]), raises no [Failure], and leaves a suffix of its input. *)
From Verif Require Import M_base M_nom M_ty M_parse L_base.

(** [okres k i x]: [x] is a result on input [i]; a success consumes at least [k] characters. *)
Definition okres {A} (k : nat) (i : str) (x : ires A) : Prop :=
  match x with
  | Done r _ => exists w, i = w ++ r /\ (k <= length w)%nat
  | Error e => exists w, i = w ++ e
  | Failure _ => False
  | NoFuel => False
  end.
(** On inputs no longer than [m]. *)
Definition good {A} (m k : nat) (p : parser A) : Prop := forall i, (length i <= m)%nat -> okres k i (p i).

Lemma ok_weaken {A} k k' i (x : ires A) : (k' <= k)%nat -> okres k i x -> okres k' i x.
Proof.
  intros Hk. destruct x; cbn; try tauto. intros [w [E H]]. exists w. split; [exact E | lia].
Qed.
Lemma ok_suffix {A} k i j (x : ires A) w : i = w ++ j -> okres k j x -> okres (length w + k) i x.
Proof.
  intros ->. destruct x as [r a|e|e|]; cbn; try tauto.
  - intros [w' [-> H]]. exists (w ++ w'). rewrite app_assoc, app_length. split; [reflexivity | lia].
  - intros [w' ->]. exists (w ++ w'). apply app_assoc.
Qed.
Lemma ok_bind {A B} k1 k2 i (x : ires A) (f : str -> A -> ires B) :
  okres k1 i x -> (forall r a, (length r + k1 <= length i)%nat -> x = Done r a -> okres k2 r (f r a)) ->
  okres (k1 + k2) i (pbind x f).
Proof.
  destruct x as [r a|e|e|]; cbn [okres pbind]; try tauto.
  intros [w [E H]] Hf. assert (L : (length r + k1 <= length i)%nat) by (rewrite E, app_length; lia).
  specialize (Hf r a L eq_refl). apply (ok_weaken (length w + k2)); [lia|]. apply (ok_suffix _ _ r); assumption.
Qed.
(** Forgetting how much the first parser consumes. *)
Lemma ok_bind0 {A B} k i (x : ires A) (f : str -> A -> ires B) :
  okres 0 i x -> (forall r a, (length r <= length i)%nat -> x = Done r a -> okres k r (f r a)) -> okres k i (pbind x f).
Proof. intros H Hf. apply (ok_bind 0 k); [exact H|]. intros r a L. apply Hf. lia. Qed.
Lemma ok_bind1 {A B} i (x : ires A) (f : str -> A -> ires B) :
  okres 1 i x -> (forall r a, (length r < length i)%nat -> x = Done r a -> okres 0 r (f r a)) -> okres 1 i (pbind x f).
Proof. intros H Hf. apply (ok_bind 1 0); [exact H|]. intros r a L. apply Hf. lia. Qed.
Lemma ok_done {A} i (a : A) : okres 0 i (Done i a).
Proof. exists []. split; [reflexivity | cbn; lia]. Qed.
Lemma ok_error {A} k i : okres k i (@Error A i).
Proof. exists []. reflexivity. Qed.
Lemma good_weaken {A} m k k' (p : parser A) : (k' <= k)%nat -> good m k p -> good m k' p.
Proof. intros Hk H i Hi. apply (ok_weaken k); [exact Hk | apply H; exact Hi]. Qed.
Lemma good_less {A} m m' k (p : parser A) : (m' <= m)%nat -> good m k p -> good m' k p.
Proof. intros Hm H i Hi. apply H. lia. Qed.

(** * Primitive parsers *)
Lemma strip_prefix_app p : forall s r, strip_prefix p s = Some r -> s = p ++ r.
Proof.
  induction p as [|c p IH]; intros s r H; cbn [strip_prefix] in H.
  - injection H as ->. reflexivity.
  - destruct s as [|d s]; [discriminate|]. destruct (Ascii.eqb_spec c d) as [-> | Hn]; [|discriminate].
    cbn [app]. f_equal. apply IH. exact H.
Qed.
Lemma good_tag m t : good m (length (lit t)) (tag t).
Proof.
  intros i _. unfold tag. destruct (strip_prefix (lit t) i) as [r|] eqn:E; [|apply ok_error].
  apply strip_prefix_app in E. exists (lit t). split; [exact E | lia].
Qed.
Lemma good_tag0 m t : good m 0 (tag t).
Proof. apply (good_weaken _ (length (lit t))); [lia | apply good_tag]. Qed.
Lemma good_char m c : good m 1 (char c).
Proof.
  intros i _. unfold char. destruct i as [|x i]; [apply ok_error|].
  destruct (Ascii.eqb x c); [|apply ok_error]. exists [x]. split; [reflexivity | cbn; lia].
Qed.
Lemma span_app p : forall i a b, span p i = (a, b) -> i = a ++ b.
Proof.
  induction i as [|c i IH]; intros a b H; cbn [span] in H.
  - injection H as <- <-. reflexivity.
  - destruct (p c).
    + destruct (span p i) as [a' b'] eqn:E. injection H as <- <-. cbn [app]. f_equal. apply IH. reflexivity.
    + injection H as <- <-. reflexivity.
Qed.
Lemma good_take_while1 m p : good m 1 (take_while1 p).
Proof.
  intros i _. unfold take_while1. destruct (span p i) as [[|c a] b] eqn:E; [apply ok_error|].
  apply span_app in E. exists (c :: a). split; [exact E | cbn; lia].
Qed.
Lemma good_take_while0 m p : good m 0 (take_while0 p).
Proof.
  intros i _. unfold take_while0. destruct (span p i) as [a b] eqn:E.
  apply span_app in E. exists a. split; [exact E | lia].
Qed.
Lemma good_line_ending m : good m 1 line_ending.
Proof.
  intros i _. unfold line_ending. destruct i as [|c i]; [apply ok_error|].
  destruct (Ascii.eqb c LF); [exists [c]; split; [reflexivity | cbn; lia]|].
  destruct (Ascii.eqb c CR); [|apply ok_error]. destruct i as [|d i]; [apply ok_error|].
  destruct (Ascii.eqb d LF); [|apply ok_error]. exists [c; d]. split; [reflexivity | cbn; lia].
Qed.
Lemma good_not_line_ending m : good m 0 not_line_ending.
Proof.
  intros i _. unfold not_line_ending. destruct (span _ i) as [a b] eqn:E. apply span_app in E.
  assert (D : okres 0 i (Done b a)) by (exists a; split; [exact E | lia]).
  destruct b as [|c b]; [exact D|]. destruct (Ascii.eqb c CR); [|exact D].
  destruct b as [|d b]; [apply ok_error|]. destruct (Ascii.eqb d LF); [exact D | apply ok_error].
Qed.
Lemma good_take_until m c : good m 0 (take_until c).
Proof.
  intros i _. unfold take_until. destruct (span _ i) as [a b] eqn:E. apply span_app in E.
  destruct b; [apply ok_error|]. exists a. split; [exact E | lia].
Qed.

(** * Combinators *)
Lemma good_pmap {A B} m k (p : parser A) (f : A -> B) : good m k p -> good m k (pmap p f).
Proof.
  intros H i Hi. unfold pmap. replace k with (k + 0)%nat by lia. apply ok_bind; [apply H; exact Hi|].
  intros r a _ _. apply ok_done.
Qed.
Lemma good_pmap_res {A B} m k (p : parser A) (f : A -> option B) : good m k p -> good m k (pmap_res p f).
Proof.
  intros H i Hi. specialize (H i Hi). unfold pmap_res. destruct (p i) as [r a|e|e|]; cbn [pbind]; try exact H.
  destruct (f a); [exact H | apply ok_error].
Qed.
Lemma good_popt {A} m k (p : parser A) : good m k p -> good m 0 (popt p).
Proof.
  intros H i Hi. specialize (H i Hi). unfold popt. destruct (p i) as [r a|e|e|]; try exact H.
  - destruct H as [w [E L]]. exists w. split; [exact E | lia].
  - apply ok_done.
Qed.
Lemma good_palt {A} m k (p q : parser A) : good m k p -> good m k q -> good m k (palt p q).
Proof.
  intros Hp Hq i Hi. specialize (Hp i Hi). specialize (Hq i Hi). unfold palt.
  destruct (p i) as [r a|e|e|]; try exact Hp. exact Hq.
Qed.
Lemma many0_loop_ok {A} m k (p : parser A) : good m k p ->
  forall n i, (length i < n)%nat -> (length i <= m)%nat -> okres 0 i (many0_loop n p i).
Proof.
  intros H. induction n as [|n IH]; intros i Hn Hm; [lia|]. cbn [many0_loop].
  specialize (H i Hm). destruct (p i) as [r a|e|e|]; try exact H; [|apply ok_done].
  destruct (Nat.eqb_spec (length r) (length i)) as [E | Hne]; [apply ok_error|].
  destruct H as [w [E L]]. assert (Lr : (length r < length i)%nat).
  { rewrite E, app_length in *. destruct w; cbn in *; lia. }
  apply (ok_weaken (length w + 0)); [lia|]. apply (ok_suffix _ _ r); [exact E|].
  apply ok_bind0; [apply IH; lia|]. intros r2 l _ _. apply ok_done.
Qed.
Lemma good_many0 {A} m k (p : parser A) : good m k p -> good m 0 (many0 p).
Proof. intros H i Hi. apply (many0_loop_ok m k); [exact H | lia | exact Hi]. Qed.
Lemma good_many1 {A} m k (p : parser A) : good m k p -> good m k (many1 p).
Proof.
  intros H i Hi. unfold many1. replace k with (k + 0)%nat by lia. apply ok_bind; [apply H; exact Hi|].
  intros r a L _. apply ok_bind0; [apply (many0_loop_ok m k); [exact H | lia | lia]|]. intros r2 l _ _. apply ok_done.
Qed.
Lemma sep_loop_ok {S A} m k (sep : parser S) (p : parser A) : good m 0 sep -> good m k p ->
  forall n i, (length i < n)%nat -> (length i <= m)%nat -> okres 0 i (sep_loop n sep p i).
Proof.
  intros Hs Hp. induction n as [|n IH]; intros i Hn Hm; [lia|]. cbn [sep_loop].
  specialize (Hs i Hm). destruct (sep i) as [r1 u|e|e|]; try exact Hs; [|apply ok_done].
  destruct Hs as [w [E L]].
  destruct (Nat.eqb_spec (length r1) (length i)) as [E2 | Hne]; [exists w; exact E|].
  assert (L1 : (length r1 < length i)%nat) by (rewrite E, app_length in *; destruct w; cbn in *; lia).
  specialize (Hp r1). destruct (p r1) as [r2 a|e|e|]; try (apply Hp; lia); [|apply ok_done].
  destruct Hp as [w2 [E2 L2]]; [lia|].
  apply (ok_weaken (length (w ++ w2) + 0)); [lia|]. apply (ok_suffix _ _ r2).
  { rewrite E, E2. apply app_assoc. }
  assert (L3 : (length r2 <= length r1)%nat) by (rewrite E2, app_length; lia).
  apply ok_bind0; [apply IH; lia|]. intros r3 l _ _. apply ok_done.
Qed.
Lemma good_separated_list1 {S A} m k (sep : parser S) (p : parser A) : good m 0 sep -> good m k p ->
  good m k (separated_list1 sep p).
Proof.
  intros Hs Hp i Hi. unfold separated_list1. replace k with (k + 0)%nat by lia.
  apply ok_bind; [apply Hp; exact Hi|]. intros r a L _.
  apply ok_bind0; [apply (sep_loop_ok m k); [exact Hs | exact Hp | lia | lia]|]. intros r2 l _ _. apply ok_done.
Qed.
Lemma good_separated_list0 {S A} m k (sep : parser S) (p : parser A) : good m 0 sep -> good m k p ->
  good m 0 (separated_list0 sep p).
Proof.
  intros Hs Hp i Hi. unfold separated_list0. pose proof (Hp i Hi) as H. destruct (p i) as [r a|e|e|]; try exact H.
  - destruct H as [w [E L]]. apply (ok_weaken (length w + 0)); [lia|]. apply (ok_suffix _ _ r); [exact E|].
    assert (Lr : (length r <= length i)%nat) by (rewrite E, app_length; lia).
    apply ok_bind0; [apply (sep_loop_ok m k); [exact Hs | exact Hp | lia | lia]|]. intros r2 l _ _. apply ok_done.
  - apply ok_done.
Qed.
Lemma good_delimited {A B C} m k1 k2 k3 (p : parser A) (q : parser B) (r : parser C) :
  good (S m) k1 p -> (1 <= k1)%nat -> good m k2 q -> good m k3 r -> good (S m) 1 (delimited p q r).
Proof.
  intros Hp Hk Hq Hr i Hi. unfold delimited. apply ok_bind1; [apply (ok_weaken k1); [exact Hk | apply Hp; exact Hi]|].
  intros r1 a L1 _. apply ok_bind0; [apply (ok_weaken k2); [lia | apply Hq; lia]|].
  intros r2 b L2 _. apply ok_bind0; [apply (ok_weaken k3); [lia | apply Hr; lia]|].
  intros r3 c _ _. apply ok_done.
Qed.

(** Sequencing, by tactic: each step is discharged with a goodness lemma. *)
Ltac step0 L := apply ok_bind0; [eapply ok_weaken; [apply Nat.le_0_l | apply L; lia] |
  let r := fresh "r" in let a := fresh "a" in let H := fresh "Hl" in intros r a H _].
Ltac step1 L := apply ok_bind1; [apply L; lia |
  let r := fresh "r" in let a := fresh "a" in let H := fresh "Hl" in intros r a H _].

(** * Types *)
Lemma good_space1 m : good m 1 space1. Proof. apply good_take_while1. Qed.
Lemma good_space0 m : good m 0 space0. Proof. apply good_take_while0. Qed.
Lemma good_digit1 m : good m 1 digit1. Proof. apply good_take_while1. Qed.
Lemma good_count m : good m 1 count. Proof. apply good_pmap_res, good_digit1. Qed.
Lemma good_ident m : good m 1 ident. Proof. apply good_pmap_res, good_take_while1. Qed.
Lemma good_string m : good m 1 string_.
Proof.
  intros i Hi. unfold string_. step1 (good_char m dquote). step0 (good_take_until m dquote).
  step0 (good_char m dquote). apply ok_done.
Qed.
Lemma good_name m : good m 1 name.
Proof. apply good_palt; [apply good_string|]. apply good_palt; [apply good_ident | apply good_digit1]. Qed.
Lemma good_function m : good m 1 function.
Proof. intros i Hi. unfold function. step1 (good_char m "@"). apply (ok_weaken 1); [lia|]. apply (good_name m). lia. Qed.
Lemma good_alias m : good m 1 alias.
Proof. intros i Hi. unfold alias. step1 (good_char m "%"). apply (ok_weaken 1); [lia|]. apply (good_name m). lia. Qed.
Lemma good_comma m : good m 1 comma.
Proof. intros i Hi. unfold comma. step1 (good_char m ","). apply (ok_weaken 1); [lia|]. apply (good_space1 m). lia. Qed.
Lemma good_comma0 m : good m 0 comma.
Proof. apply (good_weaken _ 1); [lia | apply good_comma]. Qed.

Lemma good_counted m rec f : good m 1 rec -> good m 1 (counted rec f).
Proof.
  intros H i Hi. unfold counted. step1 (good_count m). step0 (good_space1 m). step0 (good_char m "x"). step0 (good_space1 m).
  step0 H. apply ok_done.
Qed.
Lemma good_struct_body m rec : good m 1 rec -> good (S m) 1 (struct_body rec).
Proof.
  intros H i Hi. unfold struct_body. step1 (good_char (S m) "{"). step0 (good_space0 m).
  step0 (good_separated_list0 m 1 comma rec (good_comma0 m) H). step0 (good_space0 m). step0 (good_char m "}"). apply ok_done.
Qed.
Lemma good_fn_inputs m rec : good m 1 rec -> good (S m) 1 (fn_inputs rec).
Proof.
  intros H i Hi. unfold fn_inputs. step1 (good_char (S m) "("). step0 (good_space0 m).
  step0 (good_separated_list0 m 1 comma rec (good_comma0 m) H). step0 (good_char m ")"). apply ok_done.
Qed.
Lemma good_base m rec : good m 1 rec -> good (S m) 1 (base rec).
Proof.
  intros H. unfold base.
  apply good_palt. { apply (good_delimited m 1 1 1); [apply good_char | lia | apply good_counted; exact H | apply good_char]. }
  apply good_palt.
  { intros i Hi. unfold packed_struct. step1 (good_char (S m) "<"). step0 (good_struct_body m rec H).
    step0 (good_char m ">"). apply ok_done. }
  apply good_palt. { apply good_pmap, good_struct_body. exact H. }
  apply good_palt. { apply good_pmap, good_alias. }
  apply good_palt. { apply good_pmap, (good_weaken _ 6); [lia|]. apply good_tag. }
  apply good_palt. { apply good_pmap, (good_weaken _ 5); [lia|]. apply good_tag. }
  apply good_palt. { apply good_pmap, (good_weaken _ 3); [lia|]. apply good_tag. }
  apply good_palt.
  { intros i Hi. unfold integer. step1 (good_char (S m) "i"). step0 (good_count m). apply ok_done. }
  apply good_palt. { apply good_pmap, (good_weaken _ 3); [lia|]. apply good_tag. }
  apply (good_delimited m 1 1 1); [apply good_char | lia | apply good_counted; exact H | apply good_char].
Qed.
Lemma stars_suffix : forall i t r u, stars i t = (r, u) -> exists w, i = w ++ r.
Proof.
  induction i as [|c i IH]; intros t r u H; cbn [stars] in H.
  - injection H as <- <-. exists []. reflexivity.
  - destruct (Ascii.eqb c "*").
    + destruct (IH _ _ _ H) as [w ->]. exists (c :: w). reflexivity.
    + injection H as <- <-. exists []. reflexivity.
Qed.
Lemma good_fn_suffix m rec : good m 1 rec -> good (S m) 1 (fn_suffix rec).
Proof.
  intros H i Hi. unfold fn_suffix. step1 (good_space1 (S m)). apply (ok_weaken 1); [lia|].
  apply (good_fn_inputs m rec H). lia.
Qed.
Lemma fn_loop_ok m rec : good m 1 rec -> forall n i t, (length i < n)%nat -> (length i <= S m)%nat ->
  okres 0 i (fn_loop n rec i t).
Proof.
  intros H. induction n as [|n IH]; intros i t Hn Hm; [lia|]. cbn [fn_loop].
  pose proof (good_fn_suffix m rec H i Hm) as G. unfold popt.
  destruct (fn_suffix rec i) as [r ins|e|e|]; try exact G; [|cbn [pbind]; apply ok_done].
  cbn [pbind]. destruct (stars r (TFn ins (Some t))) as [r2 t2] eqn:Es.
  destruct (stars_suffix _ _ _ _ Es) as [w2 E2]. destruct G as [w [E L]].
  assert (L2 : (length r2 < length i)%nat) by (rewrite E, E2, !app_length; lia).
  apply (ok_weaken (length (w ++ w2) + 0)); [lia|]. apply (ok_suffix _ _ r2).
  { rewrite E, E2. apply app_assoc. }
  apply IH; lia.
Qed.
Lemma good_type_body m rec : good m 1 rec -> good (S m) 1 (type_body rec).
Proof.
  intros H i Hi. unfold type_body. cbn [pbind].
  pose proof (good_tag (S m) "void" i Hi) as Gt. unfold popt. destruct (tag "void" i) as [r u|e|e|]; try contradiction.
  - destruct Gt as [w [E L]]. change (length (lit "void")) with 4%nat in L. cbn [pbind].
    assert (Lr : (length r + 4 <= length i)%nat) by (rewrite E, app_length; lia).
    apply (ok_weaken (length w + 0)); [lia|]. apply (ok_suffix _ _ r); [exact E|].
    step0 (good_space1 m). step0 (good_fn_inputs m rec H).
    destruct (stars r1 (TFn a0 None)) as [r2 t2] eqn:Es. destruct (stars_suffix _ _ _ _ Es) as [w2 E2].
    exists w2. split; [exact E2 | lia].
  - cbn [pbind]. apply ok_bind1; [apply (good_base m rec H); exact Hi|]. intros r t L _.
    destruct (stars r t) as [r2 t2] eqn:Es. destruct (stars_suffix _ _ _ _ Es) as [w2 E2].
    assert (L2 : (length r2 <= length r)%nat) by (rewrite E2, app_length; lia).
    apply (ok_weaken (length w2 + 0)); [lia|]. apply (ok_suffix _ _ r2); [exact E2|].
    apply (fn_loop_ok m rec H); lia.
Qed.
Lemma good_type_f n : good n 1 (type_f (S n)).
Proof.
  induction n as [|n IH].
  - intros i Hi. destruct i; [|cbn in Hi; lia]. apply ok_error.
  - apply good_type_body. exact IH.
Qed.
Lemma good_type m : good m 1 type_.
Proof. intros i _. unfold type_. apply good_type_f. lia. Qed.

(** * Statements and items *)
Lemma good_global m : good m 1 global.
Proof.
  intros i Hi. unfold global. step1 (good_char m "@"). apply (ok_weaken 1); [lia|].
  apply (good_palt m 1); [apply good_pmap, good_string| |lia].
  apply good_palt; [apply good_pmap, good_digit1 | apply good_pmap, good_ident].
Qed.
Lemma good_local m : good m 1 local.
Proof.
  intros i Hi. unfold local. step1 (good_char m "%"). apply (ok_weaken 1); [lia|].
  apply (good_palt m 1); [apply good_pmap, good_digit1 | apply good_pmap, good_ident | lia].
Qed.
Lemma good_comment m : good m 1 comment.
Proof. intros i Hi. unfold comment. step1 (good_char m ";"). step0 (good_not_line_ending m). apply ok_done. Qed.
Lemma good_attribute m : good m 1 attribute.
Proof.
  intros i Hi. unfold attribute. step1 (good_take_while1 m (fun c => is_alpha c || Ascii.eqb c "_")).
  destruct (word_in a _).
  { step0 (good_char m "("). step0 (good_digit1 m). apply (ok_weaken 1); [lia|]. apply (good_char m). lia. }
  destruct (word_in a _).
  { step0 (good_char m "("). step0 (good_type m). apply (ok_weaken 1); [lia|]. apply (good_char m). lia. }
  destruct (word_in a _).
  { step0 (good_space1 m). step0 (good_digit1 m). apply ok_done. }
  destruct (word_in a _); [apply ok_error|]. destruct (word_in a _); [apply ok_error|].
  destruct (word_in a _); [apply ok_error|]. apply ok_done.
Qed.
Lemma good_attr_sp m : good m 1 attr_sp.
Proof. intros i Hi. unfold attr_sp. step1 (good_attribute m). apply (ok_weaken 1); [lia|]. apply (good_space1 m). lia. Qed.
Lemma good_sp_attr m : good m 1 sp_attr.
Proof. intros i Hi. unfold sp_attr. step1 (good_space1 m). apply (ok_weaken 1); [lia|]. apply (good_attribute m). lia. Qed.
Lemma good_gep_index m : good m 1 gep_index.
Proof.
  intros i Hi. unfold gep_index. step1 (good_char m ","). step0 (good_space1 m). step0 (good_type m). step0 (good_space1 m).
  apply (ok_weaken 1); [lia|]. apply (good_digit1 m). lia.
Qed.
Lemma good_gep_body m : good m 1 gep_body.
Proof.
  intros i Hi. unfold gep_body. step1 (good_type m). step0 (good_char m ","). step0 (good_space1 m). step0 (good_type m).
  step0 (good_space1 m). step0 (good_global m). step0 (good_many1 m 1 gep_index (good_gep_index m)). apply ok_done.
Qed.
Lemma good_paren {A} m (q : parser A) : (forall m, good m 1 q) -> good m 1 (delimited (char "(") q (char ")")).
Proof.
  intros H. apply (good_less (S m)); [lia|].
  apply (good_delimited m 1 1 1); [apply good_char | lia | apply H | apply good_char].
Qed.
Lemma good_getelementptr m : good m 1 getelementptr.
Proof.
  intros i Hi. unfold getelementptr. apply ok_bind1; [apply (ok_weaken 13); [lia|]; apply (good_tag m); exact Hi|].
  intros r a L _. step0 (good_space1 m).
  assert (G : good m 0 (fun i => let? (i, _u) := tag "inbounds" i in space1 i)).
  { intros j Hj. step0 (good_tag0 m "inbounds"). apply (ok_weaken 1); [lia|]. apply (good_space1 m). lia. }
  step0 (good_popt m 0 _ G). apply (ok_weaken 1); [lia|]. apply (good_paren m); [apply good_gep_body | lia].
Qed.
Lemma good_bitcast_body m : good m 1 bitcast_body.
Proof.
  intros i Hi. unfold bitcast_body. step1 (good_type m). step0 (good_space1 m).
  step0 (good_palt m 1 _ _ (good_global m) (good_getelementptr m)). step0 (good_space1 m). step0 (good_tag m "to").
  step0 (good_space1 m). step0 (good_type m). apply ok_done.
Qed.
Lemma good_bitcast m : good m 1 bitcast.
Proof.
  intros i Hi. unfold bitcast. apply ok_bind1; [apply (ok_weaken 7); [lia|]; apply (good_tag m); exact Hi|].
  intros r a L _. step0 (good_space1 m).
  apply (ok_weaken 1); [lia|]. apply (good_paren m); [apply good_bitcast_body | lia].
Qed.
Lemma good_ret_ty m : good m 1 ret_ty.
Proof. apply good_palt; [apply good_pmap, good_type | apply good_pmap, (good_weaken _ 4); [lia | apply good_tag]]. Qed.
Lemma good_tail_opt m : good m 0 (popt tail_sp).
Proof.
  apply (good_popt m 0). intros i Hi. unfold tail_sp. step0 (good_tag0 m "tail").
  apply (ok_weaken 1); [lia|]. apply (good_space1 m). lia.
Qed.
Lemma good_attrs m : good m 0 (many0 attr_sp).
Proof. apply (good_many0 m 1), good_attr_sp. Qed.
Lemma good_label m : good m 1 label.
Proof.
  intros i Hi. unfold label.
  assert (G : good m 1 (palt (drop ident) (palt (drop string_) (drop digit1)))).
  { apply good_palt; [apply good_pmap, good_ident|]. apply good_palt; [apply good_pmap, good_string | apply good_pmap, good_digit1]. }
  step1 G. step0 (good_char m ":").
  assert (G2 : good m 0 (fun i => let? (i, _u) := space1 i in comment i)).
  { intros j Hj. step0 (good_space1 m). apply (ok_weaken 1); [lia|]. apply (good_comment m). lia. }
  step0 (good_popt m 0 _ G2). apply ok_done.
Qed.
Lemma good_stmt_comment m : good m 1 stmt_comment.
Proof. intros i Hi. unfold stmt_comment. step1 (good_comment m). apply ok_done. Qed.
Lemma ok_call {A} m t (p : parser A) : (0 < length (lit t))%nat -> (forall j, (length j <= m)%nat -> okres 0 j (p j)) ->
  good m 1 (fun i => let? (i, _u) := tag t i in p i).
Proof.
  intros H G i Hi. apply ok_bind1; [apply (ok_weaken (length (lit t))); [lia|]; apply (good_tag m); exact Hi|].
  intros r a L _. apply G. lia.
Qed.
Lemma good_asm m : good m 1 asm.
Proof.
  intros i Hi. unfold asm. step0 (good_tail_opt m).
  apply (ok_call m "call"); [cbn; lia| |lia]. intros j Hj.
  step0 (good_space1 m). step0 (good_ret_ty m). step0 (good_space1 m). step0 (good_tag0 m "asm"). step0 (good_space1 m).
  assert (G : good m 1 (fun i => let? (i, _u) := ident i in space1 i)).
  { intros j' Hj'. step1 (good_ident m). apply (ok_weaken 1); [lia|]. apply (good_space1 m). lia. }
  step0 (good_many0 m 1 _ G). step0 (good_string m). step0 (good_not_line_ending m). apply ok_done.
Qed.
Lemma good_int_const m : good m 1 int_const.
Proof. intros i Hi. unfold int_const. step0 (good_popt m 1 _ (good_char m "-")). apply (good_digit1 m). lia. Qed.
Lemma good_value m : good m 1 value.
Proof.
  unfold value. apply good_palt; [apply good_pmap, good_bitcast|]. apply good_palt; [apply good_pmap, good_getelementptr|].
  apply good_palt; [apply good_local|]. apply good_palt; [apply good_pmap, good_function|].
  apply good_palt; [apply (good_weaken _ 4); [lia | apply good_tag]|].
  apply good_palt; [apply (good_weaken _ 5); [lia | apply good_tag]|].
  apply good_palt; [apply good_pmap, good_int_const|].
  apply good_palt; [apply (good_weaken _ 4); [lia | apply good_tag] | apply (good_weaken _ 5); [lia | apply good_tag]].
Qed.
Lemma good_argument m : good m 1 argument.
Proof.
  intros i Hi. unfold argument. step1 (good_type m). step0 (good_space1 m). step0 (good_attrs m). step0 (good_value m).
  apply ok_done.
Qed.
Lemma good_bitcast_call m : good m 1 bitcast_call.
Proof.
  intros i Hi. unfold bitcast_call. step0 (good_tail_opt m).
  apply (ok_call m "call"); [cbn; lia| |lia]. intros j Hj.
  step0 (good_space1 m). step0 (good_attrs m). step0 (good_ret_ty m). step0 (good_space1 m). step0 (good_bitcast m).
  step0 (good_not_line_ending m). apply ok_done.
Qed.
Lemma good_direct_call m : good m 1 direct_call.
Proof.
  intros i Hi. unfold direct_call. step0 (good_tail_opt m).
  assert (G : good m 1 (palt (tag "call") (tag "invoke"))).
  { apply good_palt; [apply (good_weaken _ 4); [lia | apply good_tag] | apply (good_weaken _ 6); [lia | apply good_tag]]. }
  step1 G.
  step0 (good_space1 m). step0 (good_attrs m). step0 (good_ret_ty m). step0 (good_space1 m). step0 (good_function m).
  step0 (good_char m "("). step0 (good_not_line_ending m). apply ok_done.
Qed.
Lemma good_indirect_call m : good m 1 indirect_call.
Proof.
  intros i Hi. unfold indirect_call. step0 (good_tail_opt m). step0 (good_attrs m). step1 (good_ret_ty m).
  step0 (good_space1 m). step0 (good_local m).
  assert (G : good m 1 (delimited (char "(") (separated_list0 comma argument) (char ")"))).
  { apply (good_less (S m)); [lia|].
    apply (good_delimited m 1 0 1); [apply good_char | lia | | apply good_char].
    apply (good_separated_list0 m 1); [apply good_comma0 | apply good_argument]. }
  step0 G. step0 (good_not_line_ending m). apply ok_done.
Qed.
Lemma good_other m : good m 1 other.
Proof.
  intros i Hi. unfold other.
  step1 (good_separated_list1 m 1 space1 _ (good_weaken m 1 0 _ (Nat.le_0_l 1) (good_space1 m))
           (good_pmap_res m 1 (take_while1 (fun c => negb (is_blank c)))
              (fun w => if str_eqb w (lit "call") then None else Some tt) (good_take_while1 m _))).
  apply ok_done.
Qed.
Lemma good_calls m : good m 1 (palt asm (palt bitcast_call (palt direct_call (palt indirect_call other)))).
Proof.
  apply good_palt; [apply good_asm|]. apply good_palt; [apply good_bitcast_call|].
  apply good_palt; [apply good_direct_call|]. apply good_palt; [apply good_indirect_call | apply good_other].
Qed.
Lemma good_assign m : good m 1 assign.
Proof.
  intros i Hi. unfold assign. step1 (good_local m). step0 (good_space1 m). step0 (good_char m "="). step0 (good_space1 m).
  apply (ok_weaken 1); [lia|]. apply (good_calls m). lia.
Qed.
Lemma good_stmt m : good m 1 stmt_.
Proof.
  unfold stmt_. apply good_palt; [apply good_label|]. apply good_palt; [apply good_stmt_comment|].
  intros i Hi. step1 (good_space1 m). apply (ok_weaken 1); [lia|].
  apply (good_palt m 1); [apply good_assign | apply good_calls | lia].
Qed.
Lemma good_parameter m : good m 1 parameter.
Proof.
  intros i Hi. unfold parameter. step1 (good_type m). step0 (good_many0 m 1 _ (good_sp_attr m)).
  assert (G1 : good m 0 (fun i => let? (i, _u) := space1 i in alias i)).
  { intros j Hj. step0 (good_space1 m). apply (ok_weaken 1); [lia|]. apply (good_alias m). lia. }
  assert (G2 : good m 0 (fun i => let? (i, _u) := space1 i in local i)).
  { intros j Hj. step0 (good_space1 m). apply (ok_weaken 1); [lia|]. apply (good_local m). lia. }
  step0 (good_popt m 0 _ G1). step0 (good_popt m 0 _ G2). apply ok_done.
Qed.
Lemma good_eols m : good m 1 (many1 line_ending).
Proof. apply good_many1, good_line_ending. Qed.
Lemma good_define m : good m 1 define_.
Proof.
  unfold define_. apply (ok_call m "define"); [cbn; lia|]. intros j Hj.
  step0 (good_space1 m). step0 (good_attrs m). step0 (good_ret_ty m). step0 (good_space1 m). step0 (good_function m).
  step0 (good_char m "("). step0 (good_separated_list0 m 1 comma parameter (good_comma0 m) (good_parameter m)).
  step0 (good_char m ")"). step0 (good_not_line_ending m). step0 (good_line_ending m).
  step0 (good_separated_list1 m 1 _ _ (good_weaken m 1 0 _ (Nat.le_0_l 1) (good_eols m)) (good_stmt m)).
  step0 (good_popt m 1 _ (good_line_ending m)). step0 (good_tag0 m "}"). apply ok_done.
Qed.
Lemma good_line_rest {A} m (x : A) : good m 0 (line_rest x).
Proof. intros i Hi. unfold line_rest. step0 (good_not_line_ending m). apply ok_done. Qed.
Lemma good_item_comment m : good m 1 item_comment.
Proof. intros i Hi. unfold item_comment. step1 (good_comment m). apply ok_done. Qed.
Lemma good_source_filename m : good m 1 source_filename.
Proof.
  unfold source_filename. apply (ok_call m "source_filename"); [cbn; lia|]. intros j Hj.
  step0 (good_space1 m). step0 (good_char m "="). apply (good_line_rest m). lia.
Qed.
Lemma good_target m : good m 1 target.
Proof.
  unfold target. apply (ok_call m "target"); [cbn; lia|]. intros j Hj.
  step0 (good_space1 m). step0 (good_palt m 0 _ _ (good_tag0 m "datalayout") (good_tag0 m "triple")).
  step0 (good_space1 m). step0 (good_char m "="). apply (good_line_rest m). lia.
Qed.
Lemma good_item_alias m : good m 1 item_alias.
Proof.
  intros i Hi. unfold item_alias. step1 (good_function m). step0 (good_space1 m). step0 (good_char m "="). step0 (good_space1 m).
  step0 (good_attrs m). step0 (good_tag0 m "alias"). step0 (good_space1 m). step0 (good_type m). step0 (good_space0 m).
  step0 (good_char m ","). step0 (good_space1 m). step0 (good_type m). step0 (good_space1 m). step0 (good_function m).
  apply ok_done.
Qed.
Lemma good_item_global m : good m 1 item_global.
Proof.
  intros i Hi. unfold item_global. step1 (good_global m). step0 (good_space1 m). step0 (good_char m "="). step0 (good_space1 m).
  step0 (good_attrs m). step0 (good_palt m 0 _ _ (good_tag0 m "global") (good_tag0 m "constant")). step0 (good_space1 m).
  apply (good_line_rest m). lia.
Qed.
Lemma good_item_type m : good m 1 item_type.
Proof.
  intros i Hi. unfold item_type. step1 (good_alias m). step0 (good_space1 m). step0 (good_char m "=").
  apply (good_line_rest m). lia.
Qed.
Lemma good_decl_param m : good m 1 decl_param.
Proof.
  intros i Hi. unfold decl_param. step1 (good_type m). step0 (good_many0 m 1 _ (good_sp_attr m)). apply ok_done.
Qed.
Lemma good_declare m : good m 1 declare.
Proof.
  unfold declare. apply (ok_call m "declare"); [cbn; lia|]. intros j Hj.
  step0 (good_space1 m). step0 (good_attrs m). step0 (good_ret_ty m). step0 (good_space1 m). step0 (good_function m).
  step0 (good_char m "("). destruct (starts_with _ _); [apply (good_line_rest m); lia|].
  step0 (good_separated_list0 m 1 comma decl_param (good_comma0 m) (good_decl_param m)).
  step0 (good_char m ")"). apply (good_line_rest m). lia.
Qed.
Lemma good_attributes m : good m 1 attributes.
Proof.
  unfold attributes. apply (ok_call m "attributes"); [cbn; lia|]. intros j Hj.
  step0 (good_space1 m). step0 (good_char m "#"). apply (good_line_rest m). lia.
Qed.
Lemma good_metadata m : good m 1 metadata.
Proof. unfold metadata. apply (ok_call m "!"); [cbn; lia|]. intros j Hj. apply (good_line_rest m). lia. Qed.
Lemma good_module_asm m : good m 1 module_asm.
Proof.
  unfold module_asm. apply (ok_call m "module"); [cbn; lia|]. intros j Hj.
  step0 (good_space1 m). step0 (good_tag0 m "asm"). step0 (good_space1 m). step0 (good_string m). apply ok_done.
Qed.
Lemma good_item m : good m 1 item_.
Proof.
  unfold item_. apply good_palt; [apply good_item_comment|]. apply good_palt; [apply good_source_filename|].
  apply good_palt; [apply good_target|]. apply good_palt; [apply good_item_type|]. apply good_palt; [apply good_item_global|].
  apply good_palt; [apply good_item_alias|]. apply good_palt; [apply good_pmap, good_define|].
  apply good_palt; [apply good_declare|]. apply good_palt; [apply good_attributes|].
  apply good_palt; [apply good_metadata | apply good_module_asm].
Qed.
