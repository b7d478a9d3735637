(** The messages by kind, and how often they occur. *)
From Coq Require Import Permutation Sorted.
From Verif Require Import M_base M_stack M_graph M_analysis M_filter M_names M_thumb M_ty M_parse M_build M_run M_log S_names S_sig S_build S_run S_log.
From Verif Require Import L_base L_names L_build1 L_build2 L_build3 L_build4 L_build5 L_run L_log L_log2 L_log3 L_log4 L_log5.

(** ** Texts *)
Lemma tick_inj a b : tick a = tick b -> a = b.
Proof. unfold tick. intros H. apply app_inv_head in H. now apply app_inv_tail in H. Qed.
Lemma no_usage_inj a b : no_usage a = no_usage b -> a = b.
Proof. intros H. apply (f_equal snd) in H. unfold no_usage in H. cbn [snd] in H. apply app_inv_head in H. now apply tick_inj. Qed.
Lemma no_type_inj a b : no_type a = no_type b -> a = b.
Proof. intros H. apply (f_equal snd) in H. unfold no_type in H. cbn [snd] in H. apply app_inv_head in H. now apply tick_inj. Qed.
Lemma no_information_inj a b : no_information a = no_information b -> a = b.
Proof. intros H. apply (f_equal snd) in H. unfold no_information in H. cbn [snd] in H. apply app_inv_head in H. now apply tick_inj. Qed.
Lemma lowering_inj a b : lowering_note a = lowering_note b -> a = b.
Proof. intros H. apply (f_equal snd) in H. unfold lowering_note in H. cbn [snd] in H. apply app_inv_head in H. apply app_inv_tail in H. now apply tick_inj. Qed.
Lemma blind_inj a b : blind_note a = blind_note b -> a = b.
Proof. intros H. apply (f_equal snd) in H. unfold blind_note in H. cbn [snd] in H. apply app_inv_tail in H. now apply tick_inj. Qed.
Lemma no_callee_inj a b : no_callee a = no_callee b -> a = b.
Proof. intros H. apply (f_equal snd) in H. unfold no_callee in H. cbn [snd] in H. apply app_inv_head in H. now apply tick_inj. Qed.

(** ** Once *)
Lemma once_In m ms : once m ms -> In m ms.
Proof. intros [a [b [-> _]]]. apply in_or_app. right. left. reflexivity. Qed.
Lemma once_one m : once m [m].
Proof. exists [], []. split; [reflexivity | intros []]. Qed.
Lemma once_left m a b : once m a -> ~ In m b -> once m (a ++ b).
Proof. intros [x [y [-> N]]] K. exists x, (y ++ b). split; [now rewrite <- app_assoc|]. rewrite !in_app_iff in *. tauto. Qed.
Lemma once_right m a b : ~ In m a -> once m b -> once m (a ++ b).
Proof. intros K [x [y [-> N]]]. exists (a ++ x), y. split; [now rewrite <- app_assoc|]. rewrite !in_app_iff in *. tauto. Qed.
Lemma once_concat {A} (Q : A -> list message -> Prop) l mss i m : Forall2 Q l mss -> NoDup l -> In i l ->
  (forall ms, Q i ms -> once m ms) -> (forall j ms, In j l -> j <> i -> Q j ms -> ~ In m ms) -> once m (concat mss).
Proof.
  intros F N I O D. assert (Z : forall l' mss', Forall2 Q l' mss' -> (forall j, In j l' -> In j l /\ j <> i) -> ~ In m (concat mss')).
  { intros l' mss' F' H K. apply (F2_concat _ _ _ m F') in K. destruct K as [j [ms [K1 [K2 [_ K4]]]]]. destruct (H j K1) as [H1 H2]. exact (D j ms H1 H2 K2 K4). }
  apply in_split in I. destruct I as [l1 [l2 ->]]. apply Forall2_app_inv_l in F. destruct F as [m1 [m2 [F1 [F2 ->]]]]. inversion F2 as [|? ms ? m3 H F3]; subst.
  rewrite concat_app. cbn [concat]. apply NoDup_remove in N. destruct N as [_ N]. rewrite in_app_iff in N.
  apply once_right; [apply (Z _ _ F1); intros j J; split; [apply in_or_app; now left | intros ->; tauto]|]. apply once_left; [exact (O ms H)|].
  apply (Z _ _ F3). intros j J. split; [apply in_or_app; right; now right | intros ->; tauto].
Qed.

Section Kinds.
Variables (demangle : str -> str) (p : prog).
Hypothesis W : wf_prog p.
Variables (start void : option str).
Notation ann := (announces demangle p start void).
(** The kinds of the messages about the start point. *)
Lemma start_kinds b m : start_log demangle p start b -> In m b -> exists s, start = Some s /\ ~ shown_name p s /\
  ((m = start_missing /\ ((forall n, shown_name p n -> ~ hashed_start demangle s n) \/ exists hits, 2 <= length hits /\ NoDup hits /\ (forall n, In n hits <-> shown_name p n /\ hashed_start demangle s n))) \/
   exists hits text, m = start_multiple s text /\ literals hits text /\ 2 <= length hits /\ NoDup hits /\ Sorted str_le hits /\ (forall n, In n hits <-> shown_name p n /\ hashed_start demangle s n)).
Proof.
  intros S I. destruct S as [|s S|s n S U|s S M|s hits text Lt S L N O H]; cbn [In] in I; try contradiction; exists s; (split; [reflexivity|]); (split; [exact S|]).
  - destruct I as [<-|[]]. left. split; [reflexivity|]. now left.
  - destruct I as [<-|[<-|[]]]; [right; exists hits, text | left; split; [reflexivity|]; right; exists hits]; repeat split; try assumption; apply H; assumption.
Qed.
Ltac other := match goal with
  | S : start_log _ _ _ ?b, I : In ?m ?b |- _ => let s := fresh in let E := fresh in destruct (start_kinds _ _ S I) as [s [_ [_ [[E _]|[? [? [E _]]]]]]]; discriminate E
  | E : _ = _ :> message |- _ => discriminate E end.
Ltac kinds := let An := fresh "An" in let x := fresh "x" in let E := fresh "E" in
  intros An; match type of An with announces _ _ _ _ ?m => remember m as x eqn:E in An end; destruct An; subst; try (exfalso; other).
Lemma kind_usage n : ann (no_usage n) <-> exists i, chosen p i n /\ usage p i LUnknown /\ (is_thumb (pg_target p) = true -> pg_text p <> None).
Proof. split; [|intros [i [C [U T]]]; now apply (an_usage _ _ _ _ i)]. kinds. apply no_usage_inj in E. subst. exists i. repeat split; assumption. Qed.
Lemma kind_type n : ann (no_type n) <-> exists i, chosen p i n /\ untyped_fn p i.
Proof. split; [|intros [i [C U]]; now apply (an_type _ _ _ _ i)]. kinds. apply no_type_inj in E. subst. exists i. split; assumption. Qed.
Lemma kind_cast f : ann (no_information f) <-> (forall j, ~ chosen p j f) /\ first_cast p f.
Proof. split; [|intros [N C]; now apply an_cast]. kinds. apply no_information_inj in E. subst. split; assumption. Qed.
Lemma kind_lowered f : ann (lowering_note f) <-> is_thumb (pg_target p) = false /\ assumed f /\ exists i, body p i (DirectCall f).
Proof. split; [|intros [T [A [i B]]]; now apply (an_lowered _ _ _ _ i)]. kinds. apply lowering_inj in E. subst. split; [assumption|]. split; [assumption|]. now exists i. Qed.
Lemma kind_blind n : ann (blind_note n) <-> exists i, chosen p i n /\ blind p i.
Proof. split; [|intros [i [C U]]; now apply (an_blind _ _ _ _ i)]. kinds. apply blind_inj in E. subst. exists i. split; assumption. Qed.
Lemma kind_asm code n : ann (asm_note code n) -> exists i code' n', chosen p i n' /\ first_asm p i code' /\ asm_note code n = asm_note code' n'.
Proof. kinds. exists i, code0, n0. repeat split; try assumption. now symmetry. Qed.
Lemma kind_override n m k why : ann (override_note n m k why) -> exists i n' m' k' why', chosen p i n' /\ overridden p i m' k' why' /\ override_note n m k why = override_note n' m' k' why'.
Proof. kinds. exists i, n0, m0, k0, why0. repeat split; try assumption. now symmetry. Qed.
Lemma kind_text : ann no_text <-> is_thumb (pg_target p) = true /\ pg_text p = None.
Proof. split; [|intros [A B]; now apply an_text]. kinds. split; assumption. Qed.
Lemma kind_untyped : ann untyped_note <-> untyped p.
Proof. split; [|apply an_untyped]. kinds. assumption. Qed.
Lemma kind_figures : ann no_figures <-> ~ measured p.
Proof. split; [|apply an_figures]. kinds. assumption. Qed.
Lemma kind_callee l : ann (no_callee l) <->
  exists s, called_sig p s /\ ((exists v, void = Some v /\ s = fmt_sig (TAlias v) /\ l = show_sig s /\ forall j r, ~ typed_by_def p j (fmt_sig r)) \/ (sig_label void s l /\ ~ untyped p /\ forall j, ~ pointee p void s j)).
Proof.
  split.
  - kinds; apply no_callee_inj in E; subst; eexists; (split; [eassumption|]); [left; eexists; repeat split; eassumption | right; repeat split; assumption].
  - intros [s [C [[v [V [-> [-> N]]]]|[L [U N]]]]]; [eapply an_fmt; try eassumption; reflexivity | eapply an_callees; eassumption].
Qed.
Lemma kind_missing : ann start_missing <-> exists b, start_log demangle p start b /\ In start_missing b.
Proof. split; [|intros [b [S I]]; now apply (an_start _ _ _ _ b)]. kinds. now exists b. Qed.
End Kinds.
