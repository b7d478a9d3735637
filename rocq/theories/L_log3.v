(** The log of a whole analysis. *)
From Coq Require Import Permutation Sorted.
From Verif Require Import M_base M_stack M_graph M_analysis M_filter M_names M_thumb M_ty M_parse M_build M_run M_log S_names S_sig S_build S_run S_log.
From Verif Require Import L_base L_names L_build1 L_build2 L_build3 L_build4 L_build5 L_run L_log L_log2 L_literal.

(** ** Sorting *)
Lemma str_leb_iff a : forall b, str_leb a b = true <-> str_le a b.
Proof.
  induction a as [|c a IH]; intros b; cbn [str_leb]; [split; [intros _; apply le_nil | reflexivity]|]. destruct b as [|d b]; [split; [discriminate | intros H; inversion H]|].
  destruct (Nat.ltb_spec (nat_of_ascii c) (nat_of_ascii d)) as [L|L]; [split; [intros _; apply le_less; exact L | reflexivity]|].
  destruct (Nat.ltb_spec (nat_of_ascii d) (nat_of_ascii c)) as [L'|L'].
  - split; [discriminate|]. intros H. inversion H; subst; lia.
  - assert (X : c = d) by (rewrite <- (ascii_nat_embedding c), <- (ascii_nat_embedding d); f_equal; lia). subst d. rewrite IH. split; [apply le_same|]. intros H. inversion H; subst; [lia | assumption].
Qed.
Lemma str_leb_total a : forall b, str_leb a b = false -> str_le b a.
Proof.
  induction a as [|c a IH]; intros b; cbn [str_leb]; [discriminate|]. destruct b as [|d b]; [intros _; apply le_nil|].
  destruct (Nat.ltb_spec (nat_of_ascii c) (nat_of_ascii d)) as [L|L]; [discriminate|]. destruct (Nat.ltb_spec (nat_of_ascii d) (nat_of_ascii c)) as [L'|L']; [intros _; apply le_less; exact L'|].
  assert (X : c = d) by (rewrite <- (ascii_nat_embedding c), <- (ascii_nat_embedding d); f_equal; lia). subst d. intros H. apply le_same. exact (IH b H).
Qed.
Lemma insert_perm s l : Permutation (insert_str s l) (s :: l).
Proof. induction l as [|t l IH]; cbn [insert_str]; [apply Permutation_refl|]. destruct (str_leb s t); [apply Permutation_refl|]. rewrite IH. apply perm_swap. Qed.
Lemma sort_perm l : Permutation (sort_strs l) l.
Proof. induction l as [|s l IH]; [apply Permutation_refl|]. unfold sort_strs in *. cbn [fold_right]. rewrite insert_perm. apply perm_skip. exact IH. Qed.
Lemma insert_sorted s l : Sorted str_le l -> Sorted str_le (insert_str s l).
Proof.
  induction 1 as [|t l H IH Hd]; cbn [insert_str]; [repeat constructor|]. destruct (str_leb s t) eqn:E; [constructor; [constructor; assumption | constructor; apply str_leb_iff; exact E]|].
  constructor; [exact IH|]. apply str_leb_total in E. destruct l as [|t' l]; cbn [insert_str]; [constructor; exact E|]. destruct (str_leb s t'); constructor; [exact E | inversion Hd; assumption].
Qed.
Lemma sort_sorted l : Sorted str_le (sort_strs l).
Proof. induction l as [|s l IH]; [constructor|]. unfold sort_strs in *. cbn [fold_right]. apply insert_sorted. exact IH. Qed.

(** ** The start point *)
Section Start.
Variables (demangle : str -> str) (o : orders) (p : prog) (b : built).
Hypothesis (W : wf_prog p) (Fo : fair o) (E : build demangle o p = Ret b).
Lemma start_notes start g ms : filter_start_log demangle (b_indices b) start (b_g b) = (ms, Ret g) -> start_log demangle p start ms.
Proof.
  unfold filter_start_log. destruct start as [s|]; [|intros K; apply lret_inv in K; destruct K as [-> _]; apply st_none]. intros K. destruct (lbind_inv _ _ _ _ K) as [m1 [i [m2 [E1 [E2 ->]]]]]. clear K.
  unfold resolve_start_log in E1. cbv zeta in E1. fold (hits demangle b s) in E1. pose proof (sget_shown demangle o p b W Fo E s) as Sh. destruct (sget (b_indices b) s) as [u|].
  - apply lret_inv in E1. destruct E1 as [-> ->]. destruct (quiet_inv _ _ _ E2) as [-> _]. apply st_name. apply Sh. exists u. reflexivity.
  - assert (N : ~ shown_name p s) by (intros K; apply Sh in K; destruct K as [u K]; discriminate K). pose proof (hits_iff demangle o p b W Fo E s) as HI. pose proof (hits_nodup demangle o p b W E s) as HN. destruct (hits demangle b s) as [|[n1 u1] [|[n2 u2] l]].
    + apply lret_inv in E1. destruct E1 as [-> ->]. injection E2 as <- _. apply st_missing; [exact N|]. intros m Sm Hm. apply (proj2 (HI m)). split; assumption.
    + apply lret_inv in E1. destruct E1 as [-> ->]. destruct (quiet_inv _ _ _ E2) as [-> _]. apply (st_hash _ _ s n1); [exact N|]. intros m. rewrite <- HI. cbn. split; [intros [<-|[]]; reflexivity | intros ->; left; reflexivity].
    + destruct (lbind_inv _ _ _ _ E1) as [q1 [u [q2 [Q1 [Q2 ->]]]]]. apply lret_inv in Q2. destruct Q2 as [-> ->]. injection Q1 as <-. injection E2 as <- _.
      set (hs := sort_strs (map fst ((n1, u1) :: (n2, u2) :: l))). assert (P : Permutation hs (map fst ((n1, u1) :: (n2, u2) :: l))) by (unfold hs; apply sort_perm).
      pose proof (st_multiple demangle p s hs (debug_list hs)) as Q. match goal with |- start_log _ _ _ ?ms => replace ms with [start_multiple s (debug_list hs); start_missing]; [apply Q; clear Q|] end.
      * apply debug_list_literals.
      * exact N.
      * apply Permutation_length in P. rewrite P. cbn. lia.
      * exact (Permutation_NoDup (Permutation_sym P) HN).
      * apply sort_sorted.
      * intros m. rewrite <- HI. split; apply Permutation_in; [exact P | symmetry; exact P].
      * unfold start_multiple, tick. rewrite <- !app_assoc. reflexivity.
Qed.
End Start.

(** * The analysis *)
Theorem report_log_notes demangle o start p r ms : wf_prog p -> fair o -> report_log demangle o start p = (ms, Ret r) -> notes demangle p start ms.
Proof.
  intros W Fo E. unfold report_log in E. destruct (lbind_inv _ _ _ _ E) as [a [b [x [E1 [E2 ->]]]]]. clear E. assert (Eb : build demangle o p = Ret b) by (rewrite <- (build_erase demangle o p), E1; reflexivity).
  destruct (lbind_inv _ _ _ _ E2) as [m2 [g [y [E3 [E4 ->]]]]]. clear E2. destruct (lbind_inv _ _ _ _ E4) as [m3 [[g2 cs] [z [E5 [E6 ->]]]]]. clear E4.
  destruct (qbind_inv _ _ _ _ E6) as [g3 [_ E7]]. apply lret_inv in E7. destruct E7 as [-> _]. rewrite app_nil_r. exists a, m2, m3. split; [reflexivity|]. split; [exact (build_log_notes demangle o p b a W Fo E1)|].
  split; [exact (start_notes demangle o p b W Fo Eb start g m2 E3)|]. destruct (build_spec demangle o p b W Fo Eb) as [_ [_ [_ [_ [_ [_ Hm]]]]]]. unfold max_stack_log in E5. destruct (b_info b); cbn [negb] in E5.
  - destruct (quiet_inv _ _ _ E5) as [-> _]. apply pt_no. intros K. apply K. apply Hm. reflexivity.
  - injection E5 as <- _. apply pt_yes. intros K. apply Hm in K. discriminate K.
Qed.
