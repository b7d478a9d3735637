(** Calls that are overlooked without a message (C106). *)
From Verif Require Import M_base M_stack M_graph M_analysis M_filter M_names M_thumb M_ty M_parse M_render M_build M_run M_log
  S_names S_sig S_thumb S_log L_base L_ir2 L_driver3 L_filter2 S_graph S_build S_run S_types S_silent L_build1 L_build3 L_build4 L_build6 L_build8 L_run L_run2 X_build X_below X_fold X_types.
Local Open Scope string_scope.
Local Open Scope list_scope.

Ltac quiet_fits p sizes k :=
  exists (fun i => nth i sizes 0%N); split; [|vm_compute; reflexivity]; intros i n U;
  assert (L : llvm_size p i (Some n)) by (inversion U; try assumption; match goal with A : analysed _ _ _ _ _ |- _ => destruct A as [A _]; discriminate A end);
  destruct L as [m [C I]]; apply chosen_live, liveb_ok in C; cbn in I; each I; injection I as <- <-; destruct i as k; try reflexivity; try discriminate C; unfold liveb in C; cbn in C; destruct i; discriminate C.
Ltac sized n := apply us_llvm; [left; reflexivity|]; exists (lit n); split; [apply chosen_find; vm_compute; reflexivity | cbn; repeat ((left; reflexivity) || right)].

Definition q_memcmp : prog := mkProg OtherTarget
  [fdef "main" (fsig [] None) [DirectCall (lit "memcmp")]; fdef "memcmp" bin []] [] [(lit "main", 8%N); (lit "bcmp", 64%N)]
  [at_ 4096 ["main"]; at_ 4112 ["memcmp"; "bcmp"]] [] [] None.
Lemma memcmp_stmts i st : body q_memcmp i st -> st = DirectCall memcmp.
Proof. intros B. apply body_in in B. destruct B as [n [d [I K]]]. cbn in I. each I; injection I as <- <-; cbn in K; each K; now symmetry. Qed.
Lemma memcmp_overlooked : overlooks idd o_id q_memcmp OfMemcmp.
Proof.
  split; [apply wf_progb_sound; vm_compute; reflexivity|]. split; [quiet_fits q_memcmp [8; 64]%N ipattern:([|[|i]])|]. split.
  - do 2 eexists. exists 8%N, [0; 1], 72%N. split; [vm_compute; reflexivity|]. split; [eexists; split; reflexivity|]. split; [|split; [|reflexivity]].
    + apply runs_call with 1; [|constructor; cbn; lia]. apply iv_direct with memcmp; [rewrite bodies_ok; vm_compute; tauto | intros [r K]; discriminate K | live_tac].
    + change 72%N with (8 + (64 + 0))%N. constructor; [sized "main" | constructor; [sized "bcmp" | constructor]].
  - intros i [| | | |] N; try (destruct (N eq_refl)).
    + intros _ f n j B M. apply memcmp_stmts in B. injection B as ->. exfalso. inversion M as [r m I E|r m I E|r m I E]; discriminate E.
    + intros s' j s r B. apply memcmp_stmts in B. discriminate B.
    + intros s' j s B. apply memcmp_stmts in B. discriminate B.
    + intros _. apply all_read. vm_compute. reflexivity.
Qed.

Definition q_move : prog := mkProg OtherTarget
  [fdef "main" (fsig [] None) [DirectCall (lit "llvm.memmove.p0.p0.i64")]; fdef "memmove" bin []] [] [(lit "main", 8%N); (lit "memmove", 32%N)]
  [at_ 4096 ["main"]; at_ 4112 ["memmove"]] [] [] None.
Lemma move_stmts i st : body q_move i st -> st = DirectCall (lit "llvm.memmove.p0.p0.i64").
Proof. intros B. apply body_in in B. destruct B as [n [d [I K]]]. cbn in I. each I; injection I as <- <-; cbn in K; each K; now symmetry. Qed.
Lemma move_overlooked : overlooks idd o_id q_move ByIntrinsic.
Proof.
  split; [apply wf_progb_sound; vm_compute; reflexivity|]. split; [quiet_fits q_move [8; 32]%N ipattern:([|[|i]])|]. split.
  - do 2 eexists. exists 8%N, [0; 1], 40%N. split; [vm_compute; reflexivity|]. split; [eexists; split; reflexivity|]. split; [|split; [|reflexivity]].
    + apply runs_call with 1; [|constructor; cbn; lia]. apply iv_mem with (lit "llvm.memmove.p0.p0.i64") (lit "memmove"); [left; reflexivity | rewrite bodies_ok; vm_compute; tauto | apply (im_memmove (lit "p0.p0.i64")); cbn; tauto | live_tac].
    + change 40%N with (8 + (32 + 0))%N. constructor; [sized "main" | constructor; [sized "memmove" | constructor]].
  - intros i [| | | |] N; try (destruct (N eq_refl)).
    + intros B. apply move_stmts in B. discriminate B.
    + intros s' j s r B. apply move_stmts in B. discriminate B.
    + intros s' j s B. apply move_stmts in B. discriminate B.
    + intros _. apply all_read. vm_compute. reflexivity.
Qed.

Lemma type_overlooked : overlooks idd o_id q_apart OfSecondType.
Proof.
  destruct apart_runs as [W [F [_ [R [D [C [O _]]]]]]]. split; [exact W|]. split; [exact F|]. split.
  - do 2 eexists. exists 12%N, [0; 1], 108%N. split; [vm_compute; reflexivity|]. split; [eexists; split; reflexivity|]. split; [exact R|]. split; [exact D | reflexivity].
  - intros i [| | | |] N; [exact (cb_memcmp _ _ (C i)) | exact (cb_mem _ _ (C i)) | exact (cb_fmt _ _ (C i)) | destruct (N eq_refl) | intros _; exact (O i CodeRead ltac:(discriminate))].
Qed.
Lemma unread_overlooked : overlooks idd o_id p_foreign ByUnread.
Proof.
  destruct foreign_runs as [W [F [_ [R [D [C [O _]]]]]]]. split; [exact W|]. split; [exact F|]. split.
  - do 2 eexists. exists 24%N, [0; 1; 2], 124%N. split; [vm_compute; reflexivity|]. split; [eexists; split; reflexivity|]. split; [exact R|]. split; [exact D | reflexivity].
  - intros i [| | | |] N; [exact (cb_memcmp _ _ (C i)) | exact (cb_mem _ _ (C i)) | exact (cb_fmt _ _ (C i)) | exact (O i OneType ltac:(discriminate)) | destruct (N eq_refl)].
Qed.

(** `fmt_impl`, push {r4, lr}; pop {r4, pc}, is only declared; `fmt_def`, bx lr, is defined with the type of a formatting function. *)
Definition c_leaf : list S_thumb.item := [Ins (I16 0x4770)].
Definition q_fmt : prog := mkProg Thumbv7m
  [fdef "main" (fsig [] None) [IndirectCall void_sig]; fdef "fmt_def" void_sig []] [(lit "fmt_impl", Some void_sig)]
  [(lit "main", 8%N); (lit "fmt_impl", 8%N); (lit "fmt_def", 0%N)]
  [(4096%N, mkSym [lit "main"] 6); (4102%N, mkSym [lit "fmt_impl"] 4); (4106%N, mkSym [lit "fmt_def"] 2)] [] [(4096%N, TThumb)]
  (Some (4096%N, encode c_main ++ encode c_big ++ encode c_leaf)).
Lemma fmt_wf : wf_prog q_fmt. Proof. apply wf_progb_sound. vm_compute. reflexivity. Qed.
Lemma fmt_stmts i st : body q_fmt i st -> st = IndirectCall void_sig.
Proof. intros B. apply body_in in B. destruct B as [n [d [I K]]]. cbn in I. each I; injection I as <- <-; cbn in K; each K; now symmetry. Qed.
Lemma fmt_code : (exists a, analysed q_fmt 0 4096 6 a /\ stack a = Some 8%N) /\ (exists a, analysed q_fmt 1 4102 4 a /\ stack a = Some 8%N) /\ (exists a, analysed q_fmt 2 4106 2 a /\ stack a = Some 0%N).
Proof.
  split; [|split]; eexists; (split; [split; [reflexivity|]; do 4 eexists; (split; [reflexivity|]); (split; [reflexivity|]); (split; [reflexivity|]);
    (split; [apply code_size_iff; vm_compute; reflexivity|]); (split; [apply slice_iff; vm_compute; reflexivity | vm_compute; reflexivity]) | reflexivity]).
Qed.
Lemma fmt_silent : exists g cs, report_log idd o_id None q_fmt = ([], Ret (g, cs)) /\ reported g 0 (MExact 8).
Proof. eexists. eexists. split; [vm_compute; reflexivity | eexists; split; reflexivity]. Qed.
Lemma fmt_typed j s : bears q_fmt j s -> typed q_fmt j s.
Proof.
  intros [n [L D]]. apply liveb_ok in L. destruct D as [[d [I ->]]|I].
  - left. exists [n], n, d. split; [|split; [apply first_here; exists d; exact I | split; [exact I | reflexivity]]].
    cbn in I. each I; injection I as <- <-; destruct j as [|[|[|j]]]; try discriminate L; try (unfold liveb in L; cbn in L; destruct j; discriminate L); eexists; split; reflexivity.
  - right. cbn in I. each I; injection I as <- <-. exists [lit "fmt_impl"], (lit "fmt_impl"). split; [|split; [|split; [apply first_here; exists void_sig; left; reflexivity | left; reflexivity]]].
    + destruct j as [|[|[|j]]]; try discriminate L; try (unfold liveb in L; cbn in L; destruct j; discriminate L). eexists. split; reflexivity.
    + intros m [<-|[]] [d [H|[H|[]]]]; discriminate H.
Qed.
Lemma fmt_overlooked : overlooks idd o_id q_fmt OfFormatting.
Proof.
  destruct fmt_code as [[a0 [A0 S0]] [[a1 [A1 S1]] [a2 [A2 S2]]]]. split; [exact fmt_wf|]. split; [|split].
  - exists (fun i => nth i [8; 8; 0]%N 0%N). split; [|vm_compute; reflexivity]. intros i k U.
    assert (L : llvm_size q_fmt i (Some k)).
    { inversion U; try assumption; match goal with A : analysed _ _ _ _ _ |- _ => pose proof A as [_ [x1 [x2 [x3 [x4 [_ [Nx _]]]]]]] end; destruct i as [|[|[|i]]]; try (destruct i; discriminate Nx);
        match goal with A : analysed _ _ _ _ _ |- _ => (destruct (analysed_fun _ _ _ _ _ _ _ _ A A0) as [_ [_ ->]] || destruct (analysed_fun _ _ _ _ _ _ _ _ A A1) as [_ [_ ->]] || destruct (analysed_fun _ _ _ _ _ _ _ _ A A2) as [_ [_ ->]]) end; rewrite ?S0, ?S1, ?S2 in *;
        try match goal with H : Some _ = None |- _ => discriminate H end; match goal with H : Some _ = Some ?k |- _ => injection H as <- | _ => idtac end;
        ((exists (lit "main"); split; [apply chosen_find; vm_compute; reflexivity | cbn; left; reflexivity]) || (exists (lit "fmt_impl"); split; [apply chosen_find; vm_compute; reflexivity | cbn; right; left; reflexivity])
         || (exists (lit "fmt_def"); split; [apply chosen_find; vm_compute; reflexivity | cbn; right; right; left; reflexivity])). }
    destruct L as [n [C I]]. apply chosen_live, liveb_ok in C. cbn in I. each I; injection I as <- <-; destruct i as [|[|[|i]]]; try reflexivity; try discriminate C; unfold liveb in C; cbn in C; destruct i; discriminate C.
  - destruct fmt_silent as [g [cs [E R]]]. exists g, cs, 8%N, [0; 1], 16%N. split; [exact E|]. split; [exact R|]. split; [|split; [|reflexivity]].
    + apply runs_call with 1; [|constructor; cbn; lia]. apply iv_pointer with void_sig void_sig; [rewrite bodies_ok; vm_compute; tauto | | apply sig_loose_iff; reflexivity].
      exists (lit "fmt_impl"). split; [live_tac | right; left; reflexivity].
    + change 16%N with (8 + (8 + 0))%N. constructor; [|constructor; [|constructor]].
      * apply (us_agree _ _ _ _ _ 8 A0); [|exact S0]. exists (lit "main"). split; [apply chosen_find; vm_compute; reflexivity | cbn; left; reflexivity].
      * apply (us_agree _ _ _ _ _ 8 A1); [|exact S1]. exists (lit "fmt_impl"). split; [apply chosen_find; vm_compute; reflexivity | cbn; right; left; reflexivity].
  - intros i [| | | |] N; try (destruct (N eq_refl)).
    + intros B. apply fmt_stmts in B. discriminate B.
    + intros T. discriminate T.
    + intros s' j s B Be M. exists s. split; [exact (fmt_typed j s Be) | exact M].
    + intros T. discriminate T.
Qed.
Lemma each_overlooked c : exists p, overlooks idd o_id p c.
Proof. destruct c; eexists; [exact memcmp_overlooked | exact move_overlooked | exact fmt_overlooked | exact type_overlooked | exact unread_overlooked]. Qed.
