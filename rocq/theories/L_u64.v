(** The stack usages in the graph are numbers of 64 bits. *)
From Verif Require Import M_base M_stack M_graph M_thumb M_ty M_parse M_build S_graph S_build S_run
  L_base L_build1 L_build5 L_build6.

Definition small_st (s : st) : Prop := forall k, stack s = Some k -> (k < two64)%N.
Lemma small_lower n s : small_st (lower_sp n s).
Proof. intros k. cbn [lower_sp stack]. destruct (stack s); [|discriminate]. intros E. injection E as <-. apply N.mod_lt. vm_compute. discriminate. Qed.
Lemma small_push_b imm i len s : small_st s -> small_st (push_b imm i len s).
Proof. intros H k. unfold push_b. cbv zeta. cbn [stack]. destruct (_ && _); [discriminate | apply H]. Qed.
Lemma small_push_bl imm i s : small_st s -> small_st (push_bl imm i s).
Proof. intros H k. exact (H k). Qed.
Lemma small_indirect s : small_st s -> small_st (set_indirect s).
Proof. intros H k. exact (H k). Qed.
Lemma small_exec16 k h i len s s' : small_st s -> exec16 k h i len s = Ret s' -> small_st s'.
Proof.
  intros H. unfold exec16. cbv zeta. destruct k; repeat (match goal with |- context [if ?c then _ else _] => destruct c end); intros E; try discriminate E; injection E as <-;
    first [exact H | apply small_lower | now apply small_push_b | now apply small_indirect].
Qed.
Lemma small_exec32 v7 f2 w i len s s' : small_st s -> exec32 v7 f2 w i len s = Ret s' -> small_st s'.
Proof.
  intros H. unfold exec32. cbv zeta.
  do 8 (intros E; apply bind_Ret in E; destruct E as [[|] [_ E]];
    [revert E; repeat (match goal with |- context [if ?c then _ else _] => destruct c end); intros E; injection E as <-;
     first [exact H | apply small_lower | now apply small_push_b | now apply small_push_bl] |]; revert E).
  intros E. injection E as <-. exact H.
Qed.
Lemma small_aloop v7 address tags len n : forall hs i skip s s', length hs <= n -> small_st s -> aloop v7 address tags len hs i skip s = Ret s' -> small_st s'.
Proof.
  induction n as [|n IH]; intros hs i skip s s' L H E; destruct hs as [|first rest]; cbn [aloop] in E; try (injection E as <-; exact H); cbn [length] in L; [lia|].
  destruct (skip =? 0)%N; [|exact (IH _ _ _ _ _ (le_S_n _ _ L) H E)]. apply bind_Ret in E. destruct E as [a [_ E]].
  destruct a as [|m|]; [|exact (IH _ _ _ _ _ (le_S_n _ _ L) H E) | injection E as <-; exact H].
  apply bind_Ret in E. destruct E as [[k|] [_ E]].
  - apply bind_Ret in E. destruct E as [s2 [E2 E]]. exact (IH _ _ _ _ _ (le_S_n _ _ L) (small_exec16 _ _ _ _ _ _ H E2) E).
  - destruct rest as [|second rest]; [discriminate E|]. apply bind_Ret in E. destruct E as [s2 [E2 E]]. cbn [length] in L.
    refine (IH _ _ _ _ _ _ (small_exec32 _ _ _ _ _ _ _ H E2) E). lia.
Qed.
Lemma small_analyze bytes address v7 tags a : analyze bytes address v7 tags = Ret a -> small_st a.
Proof. unfold analyze. intros E. apply (small_aloop v7 address tags _ (length (chunks2 bytes)) _ _ _ _ _ (le_n _)) in E; [exact E|]. intros k K. cbn in K. injection K as <-. vm_compute. reflexivity. Qed.
Lemma usage_u64 p i k : sizes_u64 p -> usage p i (LExact k) -> (k < two64)%N.
Proof.
  intros S H. assert (Ll : forall m, llvm_size p i (Some m) -> (m < two64)%N) by (intros m [n [_ I]]; exact (S n m I)).
  assert (An : forall addr size a m, analysed p i addr size a -> stack a = Some m -> (m < two64)%N) by (intros addr size a m [_ [stext [text [x [code [_ [_ [_ [_ [_ A]]]]]]]]]] K; exact (small_analyze _ _ _ _ _ A m K)).
  inversion H; subst; first [eapply Ll; eassumption | eapply An; eassumption | vm_compute; reflexivity].
Qed.
Lemma graph_u64 p ks void g : graph_of p ks void g -> sizes_u64 p -> usages_u64 g.
Proof.
  intros G S v k K. unfold known, local_of in K. destruct (nth_error (gnodes g) v) as [nd|] eqn:E; [|discriminate K]. cbn in K. injection K as K.
  destruct (key_at _ _ _ _ G _ _ E) as [x [_ X]]. inversion X; subst; cbn [nlocal] in K; subst; try discriminate K; [eapply usage_u64; eassumption | injection K as <-; vm_compute; reflexivity].
Qed.
Lemma Forall_u64 p : forallb (fun x => (snd x <? 2 ^ 64)%N) (pg_sizes p) = true -> sizes_u64 p.
Proof. intros H n k I. apply N.ltb_lt. rewrite forallb_forall in H. exact (H _ I). Qed.
