(** Calls through registers that are overlooked without a message (C106). *)
From Verif Require Import M_base M_stack M_graph M_analysis M_filter M_names M_thumb M_ty M_parse M_render M_build M_run M_log
  S_names S_sig S_thumb S_machine S_log L_base L_ir2 L_driver3 L_filter2 S_graph S_build S_run S_types S_silent S_silent2 L_build1 L_build3 L_build4 L_build6 L_build7 L_build8 L_run L_run2 L_machine X_build X_below X_fold X_types X_silent X_machine.
Local Open Scope string_scope.
Local Open Scope list_scope.

(** main: push {r4, lr}; blx r0; pop {r4, pc}.  The second function: push {r4, lr}; pop {r4, pc}.  The third: bx lr. *)
Definition k_lay (i : nat) : list S_thumb.item := match i with 0 => c_main | 1 => c_big | 2 => c_leaf | _ => [] end.
Definition k_prog (defs : list (str * define)) (decls : list (str * option fnsig)) (sizes : list (str * N)) (names1 names2 : list str) : prog :=
  mkProg Thumbv7m defs decls sizes [(4096%N, mkSym [lit "main"] 6); (4102%N, mkSym names1 4); (4106%N, mkSym names2 2)] [] [(4096%N, TThumb)]
    (Some (4096%N, encode c_main ++ encode c_big ++ encode c_leaf)).
Section family.
Variables (defs : list (str * define)) (decls : list (str * option fnsig)) (sizes : list (str * N)) (names1 names2 : list str).
Let p := k_prog defs decls sizes names1 names2.
Lemma k_layout : layout p k_lay.
Proof.
  constructor.
  - reflexivity.
  - intros a s [H|[H|[H|[]]]]; injection H as <- <-; reflexivity.
  - intros [|[|[|i]]] addr s H; [..|destruct i; discriminate H]; injection H as <- <-; do 3 eexists; (split; [reflexivity|]); (split; [reflexivity|]);
      (split; [apply code_size_iff; vm_compute; reflexivity|]); (split; [apply slice_iff; vm_compute; reflexivity|]); apply m_ok; try reflexivity; vm_compute; discriminate.
Qed.
Lemma k_plain : S_machine.plain p k_lay.
Proof.
  intros [|[|[|i]]] x H; [..|destruct H]; cbn [k_lay c_main c_big c_leaf In] in H;
    repeat (destruct H as [H|H]; [injection H as <-; split; reflexivity|]); destruct H.
Qed.
Lemma k_exec : invokes p 0 1 -> executes p k_lay 0 [mkFrame 1 2 8; mkFrame 0 2 8].
Proof.
  intros V. apply ex_step with [mkFrame 1 0 0; mkFrame 0 2 8].
  - apply ex_step with [mkFrame 0 2 8].
    + apply ex_step with [mkFrame 0 0 0]; [constructor; cbn; lia|]. apply ma_step with (I16 0xb510); [left; reflexivity | exact (go_next _ 0 (I16 0xb510)) | reflexivity | vm_compute; discriminate].
    + apply ma_register with (I16 0x4780); [right; left; reflexivity | reflexivity | cbn; lia | exact V].
  - apply ma_step with (I16 0xb510); [left; reflexivity | exact (go_next _ 0 (I16 0xb510)) | reflexivity | vm_compute; discriminate].
Qed.
Lemma k_promised i : (forall m, llvm_size p i (Some m) -> total_drop true (k_lay i) = m) -> promised p k_lay i.
Proof.
  intros H m R. exfalso. destruct R as [pos x imm L I B _|L _ D _ _].
  - destruct i as [|[|[|i]]]; cbn [k_lay] in I; vm_compute in I; each I; injection I as <- <-; vm_compute in B; discriminate B.
  - elim D. exact (H m L).
Qed.
Lemma k_fits n0 n1 n2 b : wf_prog p -> build idd o_id p = Ret b -> (exists rest, gnodes (b_g b) = rest /\ map nlocal (firstn 3 rest) = [LExact n0; LExact n1; LExact n2]) -> fold_right N.add 0%N [n0; n1; n2] = 16%N -> fits p.
Proof.
  intros W E [rest [Er Ln]] Sm. exists (fun i => nth i [n0; n1; n2] 0%N). split; [|cbn in *; lia]. intros i k U.
  assert (Li : i < 3).
  { assert (L : forall s, llvm_size p i s -> i < 3) by (intros s [n [C _]]; exact (live_lt p _ _ (chosen_live p _ _ C))). inversion U; eapply L; eassumption. }
  destruct (c42_nodes idd o_id p b W o_id_fair E) as [N _]. destruct (N i Li) as [n [l [N1 [_ [N2 _]]]]]. pose proof (usage_fun _ _ _ _ W U N2) as <-.
  rewrite Er in N1. destruct rest as [|r0 [|r1 [|r2 rest]]]; try discriminate Ln. injection Ln as H0 H1 H2. destruct i as [|[|[|i]]]; [..|lia]; cbn in N1; injection N1 as ->; cbn in H0, H1, H2 |- *; congruence.
Qed.
End family.

Ltac k_sizes := intros m [n [C I]]; apply chosen_live, liveb_ok in C; cbn in I; each I; injection I as <- <-;
  match goal with |- total_drop true (k_lay ?i) = _ => destruct i as [|[|[|i]]]; try (vm_compute; reflexivity); try discriminate C; unfold liveb in C; cbn in C; destruct i; discriminate C end.
Ltac k_stmts B := apply body_in in B; let n := fresh in let d := fresh in let I := fresh in let K := fresh "K" in destruct B as [n [d [I K]]]; cbn in I; each I; injection I as <- <-; cbn in K; each K.
Ltac k_quiet := do 2 eexists; exists 8%N, [mkFrame 1 2 8; mkFrame 0 2 8]; split; [vm_compute; reflexivity|]; split; [eexists; split; reflexivity|]; split; [apply k_exec | reflexivity].
Ltac k_start := split; [apply wf_progb_sound; vm_compute; reflexivity|]; split; [eapply (k_fits _ _ _ _ _ 8 8 0); [apply wf_progb_sound; vm_compute; reflexivity | vm_compute; reflexivity | eexists; split; reflexivity | reflexivity]|]; split; [apply k_layout|]; split; [k_quiet|].
Ltac k_sound := intros i; split; [exact (plain_seen _ _ i (k_layout _ _ _ _ _) (k_plain _ _ _ _ _))|]; split; [apply k_promised; k_sizes|].

(** `memcmp` is called by its first name, but shown as `bcmp`. *)
Definition k_memcmp : prog := k_prog [fdef "main" (fsig [] None) [DirectCall (lit "memcmp")]; fdef "memcmp" bin []; fdef "leaf" bin []] []
  [(lit "main", 8%N); (lit "bcmp", 8%N); (lit "leaf", 0%N)] [lit "memcmp"; lit "bcmp"] [lit "leaf"].
Lemma k_memcmp_slips : slips idd o_id k_memcmp k_lay OfMemcmp.
Proof.
  k_start.
  - apply iv_direct with memcmp; [rewrite bodies_ok; vm_compute; tauto | intros [r K]; discriminate K | live_tac].
  - k_sound. intros [| | | |] N; try (destruct (N eq_refl)); try (intros T; discriminate T).
    + intros s' j s r B. k_stmts B; discriminate K.
    + intros s' j s B. k_stmts B; discriminate K.
Qed.
(** `fmt_impl` is only declared. *)
Definition k_fmt : prog := k_prog [fdef "main" (fsig [] None) [IndirectCall void_sig]; fdef "fmt_def" void_sig []] [(lit "fmt_impl", Some void_sig)]
  [(lit "main", 8%N); (lit "fmt_impl", 8%N); (lit "fmt_def", 0%N)] [lit "fmt_impl"] [lit "fmt_def"].
Lemma k_fmt_slips : slips idd o_id k_fmt k_lay OfFormatting.
Proof.
  k_start.
  - apply iv_pointer with void_sig void_sig; [rewrite bodies_ok; vm_compute; tauto | | apply sig_loose_iff; reflexivity]. exists (lit "fmt_impl"). split; [live_tac | right; left; reflexivity].
  - k_sound. intros [| | | |] N; try (destruct (N eq_refl)); try (intros T; discriminate T).
    + intros B. k_stmts B; discriminate K.
    + intros s' j s B Be M. exists s. split; [exact (fmt_typed j s Be) | exact M].
Qed.
(** `a` and `b` are one function, which has the type of `a`. *)
Definition k_apart : prog := k_prog [fdef "main" (fsig [] None) [IndirectCall un]; fdef "a" bin []; fdef "b" un []; fdef "c" un []] []
  [(lit "main", 8%N); (lit "a", 8%N); (lit "b", 8%N); (lit "c", 0%N)] [lit "a"; lit "b"] [lit "c"].
Lemma k_apart_slips : slips idd o_id k_apart k_lay OfSecondType.
Proof.
  k_start.
  - apply iv_pointer with un un; [rewrite bodies_ok; vm_compute; tauto | | apply sig_loose_iff; reflexivity]. exists (lit "b"). split; [live_tac|]. left. eexists. split; [cbn; right; right; left; reflexivity | reflexivity].
  - k_sound. intros [| | | |] N; try (destruct (N eq_refl)); try (intros T; discriminate T).
    + intros B. k_stmts B; discriminate K.
    + intros s' j s r _ [ns [n [_ [_ [_ []]]]]].
Qed.
Lemma each_slips c : In c [OfMemcmp; OfFormatting; OfSecondType] -> exists p lay, slips idd o_id p lay c.
Proof. intros [<-|[<-|[<-|[]]]]; eexists; exists k_lay; [exact k_memcmp_slips | exact k_fmt_slips | exact k_apart_slips]. Qed.
