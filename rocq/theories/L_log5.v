(** Which messages the log contains, and how often. *)
From Coq Require Import Permutation Sorted.
From Verif Require Import M_base M_stack M_graph M_analysis M_filter M_names M_thumb M_ty M_parse M_build M_run M_log S_names S_sig S_build S_run S_log.
From Verif Require Import L_base L_names L_build1 L_build2 L_build3 L_build4 L_build5 L_run L_log L_log2 L_literal L_log3 L_log4.

Lemma str_le_trans a b c : str_le a b -> str_le b c -> str_le a c.
Proof.
  intros H. revert c. induction H as [b|x a y b L|x a b H IH]; intros c K; [apply le_nil | |].
  - inversion K; subst; apply le_less; lia.
  - inversion K; subst; [apply le_less; lia | apply le_same; apply IH; assumption].
Qed.
Lemma str_le_anti a b : str_le a b -> str_le b a -> a = b.
Proof.
  intros H. induction H as [b|x a y b L|x a b H IH]; intros K; inversion K; subst; try lia; try reflexivity. f_equal. apply IH. assumption.
Qed.
Lemma sorted_same (a b : list str) : Sorted str_le a -> Sorted str_le b -> Permutation a b -> a = b.
Proof.
  intros A B. apply Sorted_StronglySorted in A; [|intros x y z; apply str_le_trans]. apply Sorted_StronglySorted in B; [|intros x y z; apply str_le_trans].
  revert b B. induction A as [|x a A IH F]; intros b B P; [symmetry; now apply Permutation_nil|].
  destruct B as [|y b B G]; [symmetry in P; apply Permutation_nil in P; discriminate P|].
  rewrite Forall_forall in F, G. assert (x = y).
  { destruct (Permutation_in x P (or_introl eq_refl)) as [K|K]; [now symmetry|]. destruct (Permutation_in y (Permutation_sym P) (or_introl eq_refl)) as [J|J]; [exact J|].
    apply str_le_anti; [exact (F y J) | exact (G x K)]. }
  subst y. f_equal. apply IH; [exact B|]. exact (Permutation_cons_inv P).
Qed.

Section Exact.
Variables (demangle : str -> str) (p : prog).
Hypothesis W : wf_prog p.
Definition voids (void : option str) : Prop := match void with Some v => true_void p v | None => forall v, ~ true_void p v end.
Lemma start_same start a b : start_log demangle p start a -> start_log demangle p start b -> a = b.
Proof.
  assert (D : forall s hits n, 2 <= length hits -> NoDup hits -> (forall m, In m hits <-> shown_name p m /\ hashed_start demangle s m) -> (forall m, shown_name p m /\ hashed_start demangle s m <-> m = n) -> False).
  { intros s hits n L N H U. destruct hits as [|x [|y l]]; cbn in L; try lia. assert (X : x = n) by (apply U, H; left; reflexivity). assert (Y : y = n) by (apply U, H; right; left; reflexivity).
    inversion N as [|? ? K _]; subst. apply K. left. reflexivity. }
  intros A B. destruct A as [|s S|s n S U|s S M|s hits text Lt S L N O H]; inversion B as [|s' S'|s' n' S' U'|s' S' M'|s' hits' text' Lt' S' L' N' O' H']; subst; try reflexivity; try contradiction.
  - destruct (U n) as [_ K]. destruct (K eq_refl) as [K1 K2]. now destruct (M' n K1).
  - exfalso. exact (D _ _ _ L' N' H' U).
  - destruct (U' n') as [_ K]. destruct (K eq_refl) as [K1 K2]. now destruct (M n' K1).
  - destruct hits' as [|x l]; [cbn in L'; lia|]. destruct (proj1 (H' x) (or_introl eq_refl)) as [K1 K2]. now destruct (M x K1).
  - exfalso. exact (D _ _ _ L N H U').
  - destruct hits as [|x l]; [cbn in L; lia|]. destruct (proj1 (H x) (or_introl eq_refl)) as [K1 K2]. now destruct (M' x K1).
  - assert (P : Permutation hits hits') by (apply NoDup_Permutation; [assumption | assumption|]; intros m; rewrite H, H'; tauto).
    rewrite (sorted_same hits hits') in Lt by assumption. now rewrite (literals_fun _ _ _ Lt Lt').
Qed.

Theorem notes_exact start ms : notes demangle p start ms -> exists void, voids void /\ forall x, In x ms <-> announces demangle p start void x.
Proof.
  intros [bs [sl [fg [-> [B [Sl Fg]]]]]]. destruct B as [void [a [tr [b [c [d [e [V [-> [A [T [Sb [Cc [D E]]]]]]]]]]]]]].
  exists void. split; [exact V|]. intros x. rewrite !in_app_iff. pose proof (trace_body p W _ T) as Bd. split.
  - intros [[I|[I|[I|[I|I]]]]|[I|I]].
    + apply (F2_concat _ _ _ x A) in I. destruct I as [i [ms [K1 [K2 [_ K4]]]]]. destruct (named p i ms (or_introl K2)) as [n C]. apply (symbol_In p i n ms x K2 C) in K4.
      destruct K4 as [[T' [U ->]]|[U ->]]; [apply (an_usage _ _ _ _ i n C U); congruence | exact (an_type _ _ _ _ i n C U)].
    + apply (stmts_In p _ _ _ x Sb) in I. destruct I as [pre [y [post [Et N]]]]. cbn [app] in N.
      assert (Iy : In y tr) by (rewrite Et; apply in_or_app; right; left; reflexivity). inversion N; subst y x; apply Bd in Iy.
      * eapply an_asm; [eassumption|]. exists tr, pre, post. repeat split; assumption.
      * eapply an_cast; [eassumption|]. exists tr, pre, i, post. repeat split; assumption.
      * eapply an_lowered; eassumption.
    + destruct Cc as [[_ ->]|[[T1 [T2 ->]]|[T1 [T2 [mss [F ->]]]]]]; [destruct I | destruct I as [<-|[]]; apply an_text; assumption|].
      apply (F2_concat _ _ _ x F) in I. destruct I as [i [ms [K1 [K2 [_ K4]]]]]. destruct (named p i ms (or_intror K2)) as [n C]. apply (code_In p W i n ms x K2 C) in K4.
      destruct K4 as [[m [k [why [O ->]]]]|[[U ->]|[Bl ->]]]; [exact (an_override _ _ _ _ i n m k why C O) | exact (an_usage _ _ _ _ i n C U (fun _ => T2)) | exact (an_blind _ _ _ _ i n C Bl)].
    + apply (part_In _ _ _ x D) in I. destruct I as [U ->]. exact (an_untyped _ _ _ _ U).
    + destruct E as [sigs [mss [_ [Q [F ->]]]]]. apply (F2_concat _ _ _ x F) in I. destruct I as [s [ms [K1 [K2 [_ K4]]]]]. apply Q in K1. destruct (label_exists void s) as [l L]. apply (sig_In p void s l ms x K2 L) in K4.
      destruct K4 as [[[v [E1 E2]] [E3 ->]]|[E1 [E2 ->]]]; [eapply an_fmt; eassumption | eapply an_callees; eassumption].
    + eapply an_start; eassumption.
    + apply (part_In _ _ _ x Fg) in I. destruct I as [M ->]. exact (an_figures _ _ _ _ M).
  - intros An. destruct An as [i n C U Tx|i n C U|i code n C [tr' [pre [post [T' [E1 E2]]]]]|f N [tr' [pre [i [post [T' [E1 E2]]]]]]|i f Th Bf As|i n m k why C O|i n C Bl|T1 T2|U|v s E1 E2 E3 E4|s l E1 E2 E3 E4|b0 m S I|M].
    + pose proof (chosen_lt p i n C) as Lt. destruct (is_thumb (pg_target p)) eqn:Th.
      * left. right. right. left. destruct Cc as [[? _]|[[_ [T2 _]]|[_ [_ [mss [F ->]]]]]]; [congruence | exfalso; exact (Tx eq_refl T2)|].
        destruct (F2_at _ _ _ i F (proj2 (seq_lt _ _) Lt)) as [ms [K1 K2]]. apply in_concat. exists ms. split; [exact K2|]. apply (code_In p W i n ms _ K1 C). right. left. split; [exact U | reflexivity].
      * left. left. destruct (F2_at _ _ _ i A (proj2 (seq_lt _ _) Lt)) as [ms [K1 K2]]. apply in_concat. exists ms. split; [exact K2|]. apply (symbol_In p i n ms _ K1 C). left. repeat split; assumption.
    + pose proof (chosen_lt p i n C) as Lt. left. left. destruct (F2_at _ _ _ i A (proj2 (seq_lt _ _) Lt)) as [ms [K1 K2]]. apply in_concat. exists ms. split; [exact K2|]. apply (symbol_In p i n ms _ K1 C). right. split; [exact U | reflexivity].
    + left. right. left. apply (stmts_In p _ _ _ _ Sb). rewrite (trace_fun p W _ _ _ T' T) in E1. exists pre, (i, Asm code), post. split; [exact E1|]. apply nw_asm; assumption.
    + left. right. left. apply (stmts_In p _ _ _ _ Sb). rewrite (trace_fun p W _ _ _ T' T) in E1. exists pre, (i, BitcastCall (Some f)), post. split; [exact E1|]. apply nw_cast; assumption.
    + left. right. left. apply (stmts_In p _ _ _ _ Sb). apply Bd in Bf. destruct (split_first _ (is_call f) tr _ Bf (ex_intro _ i eq_refl)) as [pre [y [post [E1 [[k ->] E2]]]]].
      exists pre, (k, DirectCall f), post. split; [exact E1|]. apply nw_lowered; [assumption | assumption|]. intros k' K. apply (E2 _ K). now exists k'.
    + assert (X : is_thumb (pg_target p) = true /\ pg_text p <> None).
      { assert (exists addr size a, analysed p i addr size a) as [addr [size [an [H1 [stext [text [y [code [H2 _]]]]]]]]] by (inversion O; subst; do 3 eexists; eassumption). split; [exact H1|]. congruence. }
      destruct X as [X1 X2]. left. right. right. left. destruct Cc as [[? _]|[[_ [? _]]|[_ [_ [mss [F ->]]]]]]; [congruence | contradiction|].
      destruct (F2_at _ _ _ i F (proj2 (seq_lt _ _) (chosen_lt p i n C))) as [ms [K1 K2]]. apply in_concat. exists ms. split; [exact K2|]. apply (code_In p W i n ms _ K1 C). left. exists m, k, why. split; [exact O | reflexivity].
    + assert (X : is_thumb (pg_target p) = true /\ pg_text p <> None).
      { destruct Bl as [[addr [size [an [[H1 [stext [text [y [code [H2 _]]]]]] _]]]] _]. split; [exact H1|]. congruence. }
      destruct X as [X1 X2]. left. right. right. left. destruct Cc as [[? _]|[[_ [? _]]|[_ [_ [mss [F ->]]]]]]; [congruence | contradiction|].
      destruct (F2_at _ _ _ i F (proj2 (seq_lt _ _) (chosen_lt p i n C))) as [ms [K1 K2]]. apply in_concat. exists ms. split; [exact K2|]. apply (code_In p W i n ms _ K1 C). right. right. split; [exact Bl | reflexivity].
    + left. right. right. left. destruct Cc as [[? _]|[[_ [_ ->]]|[_ [? _]]]]; [congruence | left; reflexivity | contradiction].
    + left. right. right. right. left. apply (part_In _ _ _ _ D). split; [exact U | reflexivity].
    + left. right. right. right. right. destruct E as [sigs [mss [_ [Q [F ->]]]]]. apply Q in E3. destruct (F2_at _ _ _ s F E3) as [ms [K1 K2]]. apply in_concat. exists ms. split; [exact K2|].
      destruct (label_exists void s) as [l L]. apply (sig_In p void s l ms _ K1 L). left. split; [now exists v|]. split; [exact E4 | reflexivity].
    + left. right. right. right. right. destruct E as [sigs [mss [_ [Q [F ->]]]]]. apply Q in E1. destruct (F2_at _ _ _ s F E1) as [ms [K1 K2]]. apply in_concat. exists ms. split; [exact K2|].
      apply (sig_In p void s l ms _ K1 E2). right. repeat split; assumption.
    + right. left. rewrite (start_same _ _ _ Sl S). exact I.
    + right. right. apply (part_In _ _ _ _ Fg). split; [exact M | reflexivity].
Qed.
End Exact.
