(** String literals: [debug_list] writes them, and they can be read back in one way only. *)
From Verif Require Import M_base M_stack M_graph M_names M_thumb M_ty M_parse M_build M_log S_names S_sig S_build S_run S_log.
Local Open Scope string_scope.
Local Open Scope list_scope.

(** ** Writing *)
Lemma hex_digit_is k : k < 16 -> hexdigit (hex_digit k) k.
Proof. intros L. unfold hexdigit, hex_digit. destruct (nth_error (lit "0123456789abcdef") k) eqn:E; [reflexivity|]. apply nth_error_None in E. cbn in E. lia. Qed.
Lemma debug_char_literal c : literal_char c (debug_char c).
Proof.
  unfold debug_char, dquote, backslash. destruct (Ascii.eqb_spec c "034"%char) as [->|N1]; [cbn; apply lc_escaped; now left|].
  destruct (Ascii.eqb_spec c "\"%char) as [->|N2]; [cbn; apply lc_escaped; now right|]. cbn [orb]. cbv zeta.
  destruct (Nat.eqb_spec (nat_of_ascii c) 0) as [E0|E0]; [apply lc_named; cbn; rewrite E0; auto|].
  destruct (Nat.eqb_spec (nat_of_ascii c) 9) as [E9|E9]; [apply lc_named; cbn; rewrite E9; auto|].
  destruct (Nat.eqb_spec (nat_of_ascii c) 10) as [E10|E10]; [apply lc_named; cbn; rewrite E10; auto|].
  destruct (Nat.eqb_spec (nat_of_ascii c) 13) as [E13|E13]; [apply lc_named; cbn; rewrite E13; auto|].
  assert (NI : ~ In (nat_of_ascii c) [0; 9; 10; 13]) by (cbn; lia).
  destruct (Nat.ltb_spec (nat_of_ascii c) 16) as [L|L].
  - apply (lc_code c [_]); [left; lia | exact NI | apply hx_one, hex_digit_is, L].
  - destruct (Nat.ltb_spec (nat_of_ascii c) 32) as [L'|L']; cbn [orb].
    + apply (lc_code c [_; _]); [left; lia | exact NI|]. pose proof (Nat.div_mod (nat_of_ascii c) 16) as D. pose proof (Nat.mod_upper_bound (nat_of_ascii c) 16) as M.
      assert (1 = nat_of_ascii c / 16) by (apply (Nat.div_unique _ 16 1 (nat_of_ascii c - 16)); lia).
      apply (hx_two _ _ _ (nat_of_ascii c / 16) (nat_of_ascii c mod 16)); [apply hex_digit_is; lia | apply hex_digit_is; lia | lia | lia].
    + destruct (Nat.eqb_spec (nat_of_ascii c) 127) as [E|E].
      * rewrite E. apply (lc_code c [_; _]); [right; exact E | exact NI|]. rewrite E. apply (hx_two _ _ _ 7 15); try reflexivity. lia.
      * apply lc_plain; [intros [K|K]; lia | exact N1 | exact N2].
Qed.
Lemma debug_str_literal s : literal s (debug_str s).
Proof.
  unfold debug_str. rewrite flat_map_concat_map. cbn [app]. apply lt_quoted. induction s as [|c s IH]; cbn [map]; constructor; [apply debug_char_literal | exact IH].
Qed.
Lemma debug_list_literals l : literals l (debug_list l).
Proof.
  unfold debug_list. destruct l as [|s l]; [apply ls_nil|]. rewrite <- app_assoc. apply ls_cons; [apply debug_str_literal|].
  induction l as [|t l IH]; cbn [debug_rest]; [apply ml_nil|]. rewrite <- !app_assoc. apply ml_cons; [apply debug_str_literal | exact IH].
Qed.

(** ** Reading *)
Lemma hexdigit_fun c a b : hexdigit c a -> hexdigit c b -> a = b.
Proof.
  unfold hexdigit. intros A B. assert (N : NoDup (lit "0123456789abcdef")).
  { cbn. repeat constructor; cbn; intuition discriminate. }
  apply (proj1 (NoDup_nth_error _) N); [apply nth_error_Some; congruence | congruence].
Qed.
Lemma hexdigit_brace a : ~ hexdigit "}"%char a.
Proof. unfold hexdigit. intros H. apply nth_error_In in H. cbn in H. intuition discriminate. Qed.
Lemma hex_unique k h k' h' r r' : hexadecimal k h -> hexadecimal k' h' -> h ++ "}"%char :: r = h' ++ "}"%char :: r' -> k = k' /\ r = r'.
Proof.
  intros H H' E. destruct H as [c H|c d a b H1 H2 P ->], H' as [c' H'|c' d' a' b' H1' H2' P' ->]; cbn [app] in E; injection E as; subst.
  - split; [exact (hexdigit_fun _ _ _ H H') | reflexivity].
  - exfalso. exact (hexdigit_brace _ H2').
  - exfalso. exact (hexdigit_brace _ H2).
  - rewrite (hexdigit_fun _ _ _ H1 H1'), (hexdigit_fun _ _ _ H2 H2'). split; reflexivity.
Qed.
Lemma code_inj c d : nat_of_ascii c = nat_of_ascii d -> c = d.
Proof. intros E. rewrite <- (ascii_nat_embedding c), <- (ascii_nat_embedding d). now rewrite E. Qed.
Definition named : list (nat * ascii) := [(0, "0"%char); (9, "t"%char); (10, "n"%char); (13, "r"%char)].
Lemma named_fun k k' d : In (k, d) named -> In (k', d) named -> k = k'.
Proof. cbn. intros H K. repeat destruct H as [H|H]; try contradiction; injection H as <- <-; repeat destruct K as [K|K]; try contradiction; congruence. Qed.
Lemma named_range k d : In (k, d) named -> d <> "034"%char /\ d <> "\"%char /\ d <> "u"%char.
Proof. cbn. intros H. repeat destruct H as [H|H]; try contradiction; injection H as <- <-; repeat split; discriminate. Qed.
Lemma char_unique c t c' t' r r' : literal_char c t -> literal_char c' t' -> t ++ r = t' ++ r' -> c = c' /\ r = r'.
Proof.
  intros H H' E. destruct H as [N N1 N2|H|d H|h C N X], H' as [M M1 M2|H'|d' H'|h' C' N' X']; cbn [app list_ascii_of_string] in E.
  - injection E as -> ->. split; reflexivity.
  - injection E as E _. contradiction.
  - injection E as E _. contradiction.
  - injection E as E _. contradiction.
  - injection E as E _. symmetry in E. contradiction.
  - injection E as -> ->. split; reflexivity.
  - injection E as -> _. destruct (named_range _ _ H') as [? [? _]]. tauto.
  - injection E as -> _. destruct H as [H|H]; discriminate H.
  - injection E as E _. symmetry in E. contradiction.
  - injection E as -> _. destruct (named_range _ _ H) as [? [? _]]. tauto.
  - injection E as -> ->. split; [apply code_inj; exact (named_fun _ _ _ H H') | reflexivity].
  - injection E as -> _. destruct (named_range _ _ H) as [_ [_ K]]. now contradiction K.
  - injection E as E _. symmetry in E. contradiction.
  - injection E as <- _. destruct H' as [H'|H']; discriminate H'.
  - injection E as <- _. destruct (named_range _ _ H') as [_ [_ K]]. now contradiction K.
  - injection E as E. rewrite <- !app_assoc in E. destruct (hex_unique _ _ _ _ _ _ X X' E) as [K ->]. split; [now apply code_inj | reflexivity].
Qed.
Lemma char_quote c t r : literal_char c t -> t ++ r <> [] /\ forall r', t ++ r <> "034"%char :: r'.
Proof.
  intros H. destruct H as [N N1 N2|H|d H|h C N X]; cbn [app list_ascii_of_string]; (split; [discriminate|]); intros r' E; try discriminate E. injection E as E _. contradiction.
Qed.
Lemma chars_unique s l : Forall2 literal_char s l -> forall s' l' r r', Forall2 literal_char s' l' ->
  concat l ++ "034"%char :: r = concat l' ++ "034"%char :: r' -> s = s' /\ r = r'.
Proof.
  induction 1 as [|c t s l H F IH]; intros s' l' r r' F' E; destruct F' as [|c' t' s' l' H' F']; cbn [concat app] in E; rewrite <- ?app_assoc in E.
  - injection E as ->. split; reflexivity.
  - symmetry in E. exfalso. exact (proj2 (char_quote _ _ _ H') _ E).
  - exfalso. exact (proj2 (char_quote _ _ _ H) _ E).
  - destruct (char_unique _ _ _ _ _ _ H H' E) as [-> E']. destruct (IH _ _ _ _ F' E') as [-> ->]. split; reflexivity.
Qed.
Lemma literal_unique s t s' t' r r' : literal s t -> literal s' t' -> t ++ r = t' ++ r' -> s = s' /\ r = r'.
Proof.
  intros [l F] [l' F'] E. cbn [app] in E. injection E as E. rewrite <- !app_assoc in E. exact (chars_unique _ _ F _ _ _ _ F' E).
Qed.
Lemma more_unique l t : more_literals l t -> forall l', more_literals l' t -> l = l'.
Proof.
  induction 1 as [|s l t r H M IH]; intros l' M'.
  - remember (lit "]") as u eqn:Eu. destruct M' as [|s' k t' r' H' K]; [reflexivity | discriminate Eu].
  - remember (lit ", " ++ t ++ r) as u eqn:Eu. destruct M' as [|s' k t' r' H' K]; [discriminate Eu|]. cbn [app list_ascii_of_string] in Eu. injection Eu as E.
    destruct (literal_unique _ _ _ _ _ _ H' H E) as [-> ->]. f_equal. exact (IH _ K).
Qed.
(** The names can be read off the message. *)
Lemma literals_unique l l' t : literals l t -> literals l' t -> l = l'.
Proof.
  intros M M'. destruct M as [|s l t r H M].
  - remember (lit "[]") as u eqn:Eu. destruct M' as [|s' k t' r' H' K]; [reflexivity | destruct H'; discriminate Eu].
  - remember (lit "[" ++ t ++ r) as u eqn:Eu. destruct M' as [|s' k t' r' H' K]; [destruct H; discriminate Eu|]. cbn [app list_ascii_of_string] in Eu. injection Eu as E.
    destruct (literal_unique _ _ _ _ _ _ H' H E) as [-> ->]. f_equal. exact (more_unique _ _ M _ K).
Qed.

(** ** One text only *)
Lemma hexdigit_lt c a : hexdigit c a -> a < 16.
Proof. unfold hexdigit. intros H. change 16 with (length (lit "0123456789abcdef")). apply nth_error_Some. congruence. Qed.
Lemma hexdigit_inj c d a : hexdigit c a -> hexdigit d a -> c = d.
Proof. unfold hexdigit. congruence. Qed.
Lemma hex_fun k h h' : hexadecimal k h -> hexadecimal k h' -> h = h'.
Proof.
  intros H H'. destruct H as [c H|c d a b H1 H2 P E], H' as [c' H'|c' d' a' b' H1' H2' P' E'].
  - now rewrite (hexdigit_inj _ _ _ H H').
  - apply hexdigit_lt in H. lia.
  - apply hexdigit_lt in H'. lia.
  - pose proof (hexdigit_lt _ _ H2). pose proof (hexdigit_lt _ _ H2'). assert (a = a') by lia. assert (b = b') by lia. subst a' b'. now rewrite (hexdigit_inj _ _ _ H1 H1'), (hexdigit_inj _ _ _ H2 H2').
Qed.
Lemma named_control c d : In (nat_of_ascii c, d) named -> control c /\ In (nat_of_ascii c) [0; 9; 10; 13].
Proof. unfold control. cbn. intros H. repeat destruct H as [H|H]; try contradiction; injection H as H _; split; [left; lia | auto | left; lia | auto | left; lia | auto | left; lia | auto]. Qed.
Lemma named_inj k d d' : In (k, d) named -> In (k, d') named -> d = d'.
Proof. cbn. intros H K. repeat destruct H as [H|H]; try contradiction; injection H as <- <-; repeat destruct K as [K|K]; try contradiction; congruence. Qed.
Lemma quote_plain c : c = "034"%char \/ c = "\"%char -> ~ control c.
Proof. unfold control. intros [-> | ->]; cbn; lia. Qed.
Lemma char_fun c t t' : literal_char c t -> literal_char c t' -> t = t'.
Proof.
  intros H H'. destruct H as [N N1 N2|H|d H|h C N X], H' as [M M1 M2|H'|d' H'|h' C' N' X']; try reflexivity.
  - tauto.
  - destruct (named_control _ _ H'). contradiction.
  - contradiction.
  - tauto.
  - destruct (named_control _ _ H'). now destruct (quote_plain _ H).
  - now destruct (quote_plain _ H).
  - destruct (named_control _ _ H). contradiction.
  - destruct (named_control _ _ H). now destruct (quote_plain _ H').
  - now rewrite (named_inj _ _ _ H H').
  - destruct (named_control _ _ H). contradiction.
  - contradiction.
  - now destruct (quote_plain _ H').
  - destruct (named_control _ _ H'). contradiction.
  - now rewrite (hex_fun _ _ _ X X').
Qed.
Lemma literal_fun s t t' : literal s t -> literal s t' -> t = t'.
Proof.
  intros [l F] [l' F']. f_equal. f_equal. f_equal. revert l' F'. induction F as [|c w s l H F IH]; intros l' F'; inversion F' as [|? w' ? k' H' K']; subst; [reflexivity|].
  cbn [concat]. rewrite (char_fun _ _ _ H H'). f_equal. now apply IH.
Qed.
Lemma more_fun l t : more_literals l t -> forall t', more_literals l t' -> t = t'.
Proof.
  induction 1 as [|s l t r H M IH]; intros t' M'; inversion M' as [|s' k' u' r' H' K']; subst; [reflexivity|]. rewrite (literal_fun _ _ _ H H'), (IH _ K'). reflexivity.
Qed.
Lemma literals_fun l t t' : literals l t -> literals l t' -> t = t'.
Proof.
  intros M M'. destruct M as [|s l t r H M]; inversion M' as [|s' k' u' r' H' K']; subst; [reflexivity|]. rewrite (literal_fun _ _ _ H H'), (more_fun _ _ M _ K'). reflexivity.
Qed.
