(** A function with two types (C40, C58), one whose code is not read, a program without section .text, and inline assembly that calls (C58). *)
From Verif Require Import M_base M_stack M_graph M_analysis M_filter M_names M_thumb M_ty M_parse M_render M_build M_run M_log
  S_names S_sig S_thumb S_log L_base L_ir2 L_driver3 L_filter2 S_graph S_build S_run S_types L_build1 L_build3 L_build4 L_build6 L_build8 L_run L_run2 X_build X_below X_fold.
Local Open Scope string_scope.
Local Open Scope list_scope.

(** In [q_apart], `a` and `b` are one function; `b` is called through pointers of its type, which is not that of `a`. *)
Lemma apart_call : body q_apart 0 (IndirectCall un).
Proof. rewrite bodies_ok. vm_compute. tauto. Qed.
Lemma apart_bears : bears q_apart 1 un.
Proof. exists (lit "b"). split; [live_tac|]. left. eexists. split; [cbn; right; right; left; reflexivity | reflexivity]. Qed.
Lemma apart_matches : sig_matches un un.
Proof. apply sig_loose_iff. reflexivity. Qed.
Ltac apart B := apply body_in in B; let n := fresh in let d := fresh in let I := fresh in let K := fresh "K" in destruct B as [n [d [I K]]]; cbn in I; each I; injection I as <- <-; cbn in K; each K; discriminate K.
Lemma apart_lost : wf_prog q_apart /\ body q_apart 0 (IndirectCall un) /\ bears q_apart 1 un /\ sig_matches un un /\
  exists b, build idd o_id q_apart = Ret b /\ ~ (exists d, In (0, d) (gedges (b_g b)) /\ In (d, 1) (gedges (b_g b))).
Proof.
  split; [apply wf_progb_sound; vm_compute; reflexivity|]. split; [exact apart_call|]. split; [exact apart_bears|]. split; [exact apart_matches|].
  eexists. split; [vm_compute; reflexivity|]. intros [d [A B]]. cbn in A, B. each A; injection A as <-; each B; discriminate B.
Qed.
Lemma apart_runs : wf_prog q_apart /\ fits q_apart /\ (exists g cs, report idd o_id None q_apart = Ret (g, cs) /\ reported g 0 (MExact 12)) /\ runs q_apart 0 [0; 1] /\ depth q_apart [0; 1] 108 /\
  covered_except q_apart OneType.
Proof.
  split; [apply wf_progb_sound; vm_compute; reflexivity|]. split; [|split; [eexists; eexists; split; [vm_compute; reflexivity | eexists; split; reflexivity]|]].
  - exists (fun i => nth i [8; 100; 4]%N 0%N). split; [|vm_compute; reflexivity]. intros i k U.
    assert (L : llvm_size q_apart i (Some k)) by (inversion U; try assumption; match goal with A : analysed _ _ _ _ _ |- _ => destruct A as [A _]; discriminate A end).
    destruct L as [n [C I]]. apply chosen_live, liveb_ok in C. cbn in I. each I; injection I as <- <-; destruct i as [|[|[|i]]]; try reflexivity; try discriminate C; unfold liveb in C; cbn in C; destruct i; discriminate C.
  - split; [|split; [|split; [|split]]].
    + apply runs_call with 1; [|constructor; cbn; lia]. exact (iv_pointer _ _ _ un un apart_call apart_bears apart_matches).
    + change 108%N with (8 + (100 + 0))%N. constructor; [|constructor; [|constructor]].
      * apply us_llvm; [left; reflexivity|]. exists (lit "main"). split; [apply chosen_find; vm_compute; reflexivity | cbn; left; reflexivity].
      * apply us_llvm; [left; reflexivity|]. exists (lit "a"). split; [apply chosen_find; vm_compute; reflexivity | cbn; right; left; reflexivity].
    + intros i. constructor.
      * intros B. apply body_in in B. destruct B as [n [d [I K]]]. cbn in I. each I; injection I as <- <-; cbn in K; each K; discriminate K.
      * intros f j B. exfalso. apply body_in in B. destruct B as [n [d [I K]]]. cbn in I. each I; injection I as <- <-; cbn in K; each K; discriminate K.
      * intros _ f n j B. exfalso. apply body_in in B. destruct B as [m [d [I K]]]. cbn in I. each I; injection I as <- <-; cbn in K; each K; discriminate K.
      * intros s' j s r _ [ns [n [_ [_ [_ []]]]]].
      * intros [j [ns [n [[x [E ->]] [_ [D _]]]]]]. exfalso. destruct j as [|[|[|j]]]; cbn in E; [injection E as <-..|destruct j; discriminate E];
          [apply (proj1 (D (lit "main") (or_introl eq_refl))) | apply (proj1 (D (lit "a") (or_introl eq_refl))) | apply (proj1 (D (lit "c") (or_introl eq_refl)))];
          eexists; cbn; (left; reflexivity) + (right; left; reflexivity) + (right; right; left; reflexivity) + (right; right; right; left; reflexivity).
    + intros i [| | |] N; [destruct (N eq_refl) | apply all_read; vm_compute; reflexivity | intros T; discriminate T | intros [[c B] _]; apart B].
    + intros H. destruct (H 0 un 1 un apart_call apart_bears apart_matches) as [t [T M]]. destruct T as [[ns [n [d [[x [Nm ->]] [Fi [I ->]]]]]]|[ns [n [_ [_ [_ []]]]]]].
      cbn in Nm. injection Nm as <-. destruct Fi as [l1 [l2 [E [Dn K]]]]. cbn in E. apply sig_loose_iff in M. cbn in I. each I; injection I as <- <-; try (vm_compute in M; discriminate M).
      all: destruct l1 as [|y l1]; [discriminate E|]; injection E as <- E; apply (K (lit "a") (or_introl eq_refl)); eexists; cbn; right; left; reflexivity.
Qed.

(** `c_fn` has a stack size but no LLVM IR, and machine code of this target is not read. *)
Definition p_foreign : prog := mkProg OtherTarget
  [fdef "main" (fsig [] None) [DirectCall (lit "c_fn")]; fdef "big" (fsig [] None) []]
  [(lit "c_fn", Some (fsig [] None))] [(lit "main", 8%N); (lit "c_fn", 16%N); (lit "big", 100%N)]
  [at_ 4096 ["main"]; at_ 4112 ["c_fn"]; at_ 4128 ["big"]] [] [] None.
Lemma foreign_unread : unread p_foreign 1.
Proof.
  split; [cbn; lia|]. split; [|intros addr size a [A _]; discriminate A].
  intros n d I L. apply liveb_ok in L. cbn in I. each I; injection I as <- <-; discriminate L.
Qed.
Lemma foreign_stmts i st : body p_foreign i st -> st = DirectCall (lit "c_fn").
Proof. intros B. apply body_in in B. destruct B as [n [d [I K]]]. cbn in I. each I; injection I as <- <-; cbn in K; each K; now symmetry. Qed.
Lemma foreign_runs : wf_prog p_foreign /\ fits p_foreign /\ (exists g cs, report idd o_id None p_foreign = Ret (g, cs) /\ reported g 0 (MExact 24)) /\ runs p_foreign 0 [0; 1; 2] /\ depth p_foreign [0; 1; 2] 124 /\
  covered_except p_foreign CodeRead.
Proof.
  split; [apply wf_progb_sound; vm_compute; reflexivity|]. split; [|split; [eexists; eexists; split; [vm_compute; reflexivity | eexists; split; reflexivity]|]].
  - exists (fun i => nth i [8; 16; 100]%N 0%N). split; [|vm_compute; reflexivity]. intros i k U.
    assert (L : llvm_size p_foreign i (Some k)) by (inversion U; try assumption; match goal with A : analysed _ _ _ _ _ |- _ => destruct A as [A _]; discriminate A end).
    destruct L as [n [C I]]. apply chosen_live, liveb_ok in C. cbn in I. each I; injection I as <- <-; destruct i as [|[|[|i]]]; try reflexivity; try discriminate C; unfold liveb in C; cbn in C; destruct i; discriminate C.
  - split; [|split; [|split; [|split]]].
    + apply runs_call with 1; [|apply runs_call with 2; [|constructor; cbn; lia]].
      * apply iv_direct with (lit "c_fn"); [rewrite bodies_ok; vm_compute; tauto | intros [r K]; discriminate K | live_tac].
      * apply iv_unread. exact foreign_unread.
    + change 124%N with (8 + (16 + (100 + 0)))%N. constructor; [|constructor; [|constructor; [|constructor]]].
      * apply us_llvm; [left; reflexivity|]. exists (lit "main"). split; [apply chosen_find; vm_compute; reflexivity | cbn; left; reflexivity].
      * apply us_llvm; [left; reflexivity|]. exists (lit "c_fn"). split; [apply chosen_find; vm_compute; reflexivity | cbn; right; left; reflexivity].
      * apply us_llvm; [left; reflexivity|]. exists (lit "big"). split; [apply chosen_find; vm_compute; reflexivity | cbn; right; right; left; reflexivity].
    + intros i. constructor.
      * intros B. apply foreign_stmts in B. discriminate B.
      * intros f j B. apply foreign_stmts in B. discriminate B.
      * intros _ f n j B M. apply foreign_stmts in B. injection B as ->. exfalso. inversion M as [r m I E|r m I E|r m I E]; discriminate E.
      * intros s' j s r B. apply foreign_stmts in B. discriminate B.
      * intros _ s' B. apply foreign_stmts in B. discriminate B.
    + intros i [| | |] N; [intros s' j s B; apply foreign_stmts in B; discriminate B | destruct (N eq_refl) | intros T; discriminate T | intros [[c B] _]; apply foreign_stmts in B; discriminate B].
    + intros H. exact (H 1 foreign_unread).
Qed.

(** A thumb program whose file has no section `.text`: an error is logged, and the sizes of LLVM are used. *)
Definition p_textless : prog := mkProg Thumbv7m
  [fdef "main" (fsig [] None) [DirectCall (lit "llvm.memcpy.p0i8.p0i8.i32")]; fdef "__aeabi_memcpy" (fsig [] None) []]
  [] [(lit "main", 8%N); (lit "__aeabi_memcpy", 100%N)]
  [at_ 4096 ["main"]; at_ 4112 ["__aeabi_memcpy"]] [] [] None.
Lemma textless_stmts i st : body p_textless i st -> st = DirectCall (lit "llvm.memcpy.p0i8.p0i8.i32").
Proof. intros B. apply body_in in B. destruct B as [n [d [I K]]]. cbn in I. each I; injection I as <- <-; cbn in K; each K; now symmetry. Qed.
Lemma textless_call : body p_textless 0 (DirectCall (lit "llvm.memcpy.p0i8.p0i8.i32")).
Proof. rewrite bodies_ok. vm_compute. tauto. Qed.
Lemma textless_does : implements (lit "llvm.memcpy.p0i8.p0i8.i32") (lit "__aeabi_memcpy").
Proof. apply (im_memcpy (lit "p0i8.p0i8.i32")). cbn. tauto. Qed.
Lemma textless_runs : wf_prog p_textless /\ fits p_textless /\ (exists g cs, report_log idd o_id None p_textless = ([(M_log.Error, lit ".text section not found")], Ret (g, cs)) /\ reported g 0 (MExact 8)) /\
  runs p_textless 0 [0; 1] /\ depth p_textless [0; 1] 108 /\ covered_except p_textless HasText.
Proof.
  split; [apply wf_progb_sound; vm_compute; reflexivity|]. split; [|split; [eexists; eexists; split; [vm_compute; reflexivity | eexists; split; reflexivity]|]].
  - exists (fun i => nth i [8; 100]%N 0%N). split; [|vm_compute; reflexivity]. intros i k U.
    assert (L : llvm_size p_textless i (Some k)) by (inversion U; try assumption; match goal with A : analysed _ _ _ _ _ |- _ => destruct A as [_ [x1 [x2 [x3 [x4 [A _]]]]]]; discriminate A end).
    destruct L as [n [C I]]. apply chosen_live, liveb_ok in C. cbn in I. each I; injection I as <- <-; destruct i as [|[|i]]; try reflexivity; try discriminate C; unfold liveb in C; cbn in C; destruct i; discriminate C.
  - split; [|split; [|split; [|split]]].
    + apply runs_call with 1; [|constructor; cbn; lia]. exact (iv_mem p_textless 0 1 _ _ (or_intror eq_refl) textless_call textless_does ltac:(live_tac)).
    + change 108%N with (8 + (100 + 0))%N. constructor; [|constructor; [|constructor]].
      * apply us_llvm; [right; reflexivity|]. exists (lit "main"). split; [apply chosen_find; vm_compute; reflexivity | cbn; left; reflexivity].
      * apply us_llvm; [right; reflexivity|]. exists (lit "__aeabi_memcpy"). split; [apply chosen_find; vm_compute; reflexivity | cbn; right; left; reflexivity].
    + intros i. constructor.
      * intros B. apply textless_stmts in B. discriminate B.
      * intros f j B. apply textless_stmts in B. discriminate B.
      * intros T. discriminate T.
      * intros s' j s r B. apply textless_stmts in B. discriminate B.
      * intros _ s' B. apply textless_stmts in B. discriminate B.
    + intros i [| | |] N; [intros s' j s B; apply textless_stmts in B; discriminate B | apply all_read; vm_compute; reflexivity | destruct (N eq_refl) | intros [[c B] _]; apply textless_stmts in B; discriminate B].
    + intros H. exact (H 0 eq_refl eq_refl _ _ 1 textless_call textless_does ltac:(live_tac)).
Qed.

(** Inline assembly which calls through a register; the branch is found in the machine code, push {r4, lr}; blx r0; pop {r4, pc}, but nothing is made of it. *)
Definition c_main : list S_thumb.item := [Ins (I16 0xb510); Ins (I16 0x4780); Ins (I16 0xbd10)].
Definition c_big : list S_thumb.item := [Ins (I16 0xb510); Ins (I16 0xbd10)].
Definition p_calling : prog := mkProg Thumbv7m
  [fdef "main" (fsig [] None) [Asm (lit "blx r0")]; fdef "big" (fsig [] None) []] [] [(lit "main", 8%N); (lit "big", 8%N)]
  [(4096%N, mkSym [lit "main"] 6); (4102%N, mkSym [lit "big"] 4)] [] [(4096%N, TThumb)] (Some (4096%N, encode c_main ++ encode c_big)).
Lemma calling_wf : wf_prog p_calling. Proof. apply wf_progb_sound. vm_compute. reflexivity. Qed.
Lemma calling_stmts i st : body p_calling i st -> st = Asm (lit "blx r0").
Proof. intros B. apply body_in in B. destruct B as [n [d [I K]]]. cbn in I. each I; injection I as <- <-; cbn in K; each K; now symmetry. Qed.
Lemma calling_code : (exists a, analysed p_calling 0 4096 6 a /\ indirect a = true /\ stack a = Some 8%N) /\ (exists a, analysed p_calling 1 4102 4 a /\ indirect a = false /\ stack a = Some 8%N).
Proof.
  split; eexists; (split; [split; [reflexivity|]; do 4 eexists; (split; [reflexivity|]); (split; [reflexivity|]); (split; [reflexivity|]);
    (split; [apply code_size_iff; vm_compute; reflexivity|]); (split; [apply slice_iff; vm_compute; reflexivity | vm_compute; reflexivity]) | split; reflexivity]).
Qed.
Lemma calling_asm : asm_calls p_calling 0.
Proof.
  split; [exists (lit "blx r0"); rewrite bodies_ok; vm_compute; tauto|]. intros addr size a A. destruct calling_code as [[a' [A' [I _]]] _]. destruct (analysed_fun _ _ _ _ _ _ _ _ A A') as [_ [_ ->]]. exact I.
Qed.
Lemma calling_report : exists g cs, report_log idd o_id None p_calling = ([asm_note (lit "blx r0") (lit "main")], Ret (g, cs)) /\ reported g 0 (MExact 8).
Proof. eexists. eexists. split; [vm_compute; reflexivity | eexists; split; reflexivity]. Qed.
Lemma calling_runs : wf_prog p_calling /\ fits p_calling /\ (exists g cs, report_log idd o_id None p_calling = ([asm_note (lit "blx r0") (lit "main")], Ret (g, cs)) /\ reported g 0 (MExact 8)) /\
  runs p_calling 0 [0; 1] /\ depth p_calling [0; 1] 16 /\ covered_except p_calling AsmQuiet.
Proof.
  split; [exact calling_wf|]. split; [|split; [exact calling_report|]].
  - exists (fun i => nth i [8; 8]%N 0%N). split; [|vm_compute; reflexivity]. intros i k U. destruct calling_code as [[a0 [A0 [_ S0]]] [a1 [A1 [_ S1]]]].
    assert (L : llvm_size p_calling i (Some k)).
    { inversion U; try assumption; match goal with A : analysed _ _ _ _ _ |- _ => pose proof A as [_ [x1 [x2 [x3 [x4 [_ [Nx _]]]]]]] end; destruct i as [|[|i]]; try (destruct i; discriminate Nx);
        match goal with A : analysed _ _ _ _ _ |- _ => (destruct (analysed_fun _ _ _ _ _ _ _ _ A A0) as [_ [_ ->]] || destruct (analysed_fun _ _ _ _ _ _ _ _ A A1) as [_ [_ ->]]) end; rewrite ?S0, ?S1 in *;
        try match goal with H : Some _ = None |- _ => discriminate H end; match goal with H : Some _ = Some ?k |- _ => injection H as <- | _ => idtac end;
        ((exists (lit "main"); split; [apply chosen_find; vm_compute; reflexivity | cbn; left; reflexivity]) || (exists (lit "big"); split; [apply chosen_find; vm_compute; reflexivity | cbn; right; left; reflexivity])). }
    destruct L as [n [C I]]. apply chosen_live, liveb_ok in C. cbn in I. each I; injection I as <- <-; destruct i as [|[|i]]; try reflexivity; try discriminate C; unfold liveb in C; cbn in C; destruct i; discriminate C.
  - destruct calling_code as [[a0 [A0 [_ S0]]] [a1 [A1 [F1 S1]]]]. split; [|split; [|split; [|split]]].
    + apply runs_call with 1; [|constructor; cbn; lia]. apply iv_asm. exact calling_asm.
    + change 16%N with (8 + (8 + 0))%N. constructor; [|constructor; [|constructor]].
      * apply (us_agree _ _ _ _ _ 8 A0); [|exact S0]. exists (lit "main"). split; [apply chosen_find; vm_compute; reflexivity | cbn; left; reflexivity].
      * apply (us_agree _ _ _ _ _ 8 A1); [|exact S1]. exists (lit "big"). split; [apply chosen_find; vm_compute; reflexivity | cbn; right; left; reflexivity].
    + intros i. constructor.
      * intros B. apply calling_stmts in B. discriminate B.
      * intros f j B. apply calling_stmts in B. discriminate B.
      * intros T. discriminate T.
      * intros s' j s r B. apply calling_stmts in B. discriminate B.
      * intros _ s' B. apply calling_stmts in B. discriminate B.
    + intros i [| | |] N; [intros s' j s B; apply calling_stmts in B; discriminate B | apply all_read; vm_compute; reflexivity | intros _ T; discriminate T | destruct (N eq_refl)].
    + intros H. exact (H 0 calling_asm).
Qed.
(** The clauses are those of [covered_fn]. *)
Lemma covered_iff p i : covered_fn p i <-> covered_but p i /\ forall c, obeys p i c.
Proof.
  split.
  - intros [c1 c2 c3 c4 c5 c6 c7 c8 c9]. split; [constructor; assumption|]. intros [| | |]; assumption.
  - intros [[c1 c2 c3 c4 c5] H]. constructor; try assumption; [exact (H OneType) | exact (H CodeRead) | exact (H HasText) | exact (H AsmQuiet)].
Qed.
