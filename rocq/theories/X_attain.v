(** Examples for the chains that reach the maxima. *)
From Verif Require Import M_base M_stack M_graph M_names M_thumb M_ty M_parse M_build M_run S_names S_graph S_sig S_build S_run S_attain L_base L_names L_ir2 L_build1 L_build2 L_build3 L_build8 L_run L_run2 X_build.
Local Open Scope string_scope.
Local Open Scope list_scope.

(** `llvm.memmove` in an executable with `memmove` and `memset`. *)
Definition p_moves : prog := mkProg OtherTarget
  [fdef "main" (fsig [] None) [DirectCall (lit "llvm.memmove.p0.p0.i64")]] [(lit "memmove", None); (lit "memset", None)]
  [(lit "main", 8%N); (lit "memmove", 32%N); (lit "memset", 100%N)] [at_ 4096 ["main"]; at_ 4112 ["memmove"]; at_ 4128 ["memset"]] [] [] None.
Lemma moves_body i st : body p_moves i st -> i = 0 /\ st = DirectCall (lit "llvm.memmove.p0.p0.i64").
Proof.
  intros [n [d [I [L K]]]]. cbn in I. each I. injection I as <- <-. cbn in K. each K. apply live_find in L. destruct i as [|[|[|i]]]; try (vm_compute in L; discriminate L); [split; [reflexivity | now symmetry]|].
  cbn [nth_error pg_defined p_moves] in L. destruct i; destruct L.
Qed.
Lemma moves_calls i j : may_call p_moves i j -> i = 0 /\ j = 1.
Proof.
  assert (Dj : forall n, In n (map lit ["memmove"; "__aeabi_memmove"; "__aeabi_memmove4"; "__aeabi_memmove8"]) -> live p_moves n j -> j = 1).
  { intros n I L. apply live_find in L. destruct j as [|[|[|j]]]; [ | reflexivity | | cbn [nth_error pg_defined p_moves] in L; destruct j; destruct L];
    cbn [map In] in I; repeat (destruct I as [<-|I]; [vm_compute in L; discriminate L|]); destruct I. }
  intros C. destruct C as [f B N L|f B L|f n T B M L|s' s B T M|s' v r B V M T|J].
  - exfalso. destruct (moves_body i _ B) as [_ K]. injection K as ->. apply N. exists (lit "memmove.p0.p0.i64"). reflexivity.
  - destruct (moves_body i _ B) as [_ K]. discriminate K.
  - destruct (moves_body i _ B) as [-> K]. split; [reflexivity|]. injection K as ->. inversion M as [r m I E|r m I E|r m I E]; try discriminate E. exact (Dj n I L).
  - destruct (moves_body i _ B) as [_ K]. discriminate K.
  - destruct (moves_body i _ B) as [_ K]. discriminate K.
  - exfalso. destruct J as [x1 [x2 [x3 [[A _] _]]]]. discriminate A.
Qed.
Lemma moves_usage i k : usage p_moves i (LExact k) -> i < 2 -> (k <= nth i [8; 32] 0)%N.
Proof.
  intros U Li. assert (L : llvm_size p_moves i (Some k)) by (inversion U; try assumption; match goal with A : analysed _ _ _ _ _ |- _ => destruct A as [A _]; discriminate A end).
  destruct L as [n [C I]]. assert (K : forall m, choose_b p_moves i = Some m -> m = n) by (intros m K; exact (chosen_fun p_moves _ _ _ (chosen_find _ _ _ K) C)).
  destruct i as [|[|i]]; [| |lia]; specialize (K _ eq_refl); subst n; cbn in I; each I; try discriminate I; injection I as <-; cbn; lia.
Qed.
Lemma moves_unreached : exists p g cs nd, wf_prog p /\ fits p /\ report idd o_id None p = Ret (g, cs) /\ nth_error (gnodes g) 0 = Some nd /\ chosen p 0 (nname nd) /\ nmax nd = Some (MExact 108) /\
  forall l d, stacked p 0 l -> known_depth p l d -> (d <= 40)%N.
Proof.
  exists p_moves. eexists. eexists. eexists. split; [apply wf_progb_sound; vm_compute; reflexivity|]. split.
  { exists (fun i => nth i [8; 32; 100]%N 0%N). split; [|vm_compute; reflexivity]. intros i k U.
    assert (L : llvm_size p_moves i (Some k)) by (inversion U; try assumption; match goal with A : analysed _ _ _ _ _ |- _ => destruct A as [A _]; discriminate A end).
    destruct L as [n [C I]]. assert (K : forall m, choose_b p_moves i = Some m -> m = n) by (intros m K; exact (chosen_fun p_moves _ _ _ (chosen_find _ _ _ K) C)).
    pose proof (live_lt p_moves _ _ (chosen_live p_moves _ _ C)) as Lt. cbn in Lt. destruct i as [|[|[|i]]]; [| | |lia]; specialize (K _ eq_refl); subst n; cbn in I; each I; try discriminate I; injection I as <-; reflexivity. }
  split; [vm_compute; reflexivity|]. split; [reflexivity|]. split; [apply chosen_find; vm_compute; reflexivity|]. split; [reflexivity|].
  assert (End : forall i l, i = 1 -> stacked p_moves i l -> l = [1]).
  { intros i l -> S1. remember 1 as i0 eqn:E0. destruct S1 as [i Hi|i j l C S1]; [subst; reflexivity|]. exfalso. destruct (moves_calls i j C). subst. discriminate. }
  assert (Dp : forall i l d, i < 2 -> known_depth p_moves (i :: l) d -> exists d', known_depth p_moves l d' /\ (d <= nth i [8; 32] 0 + d')%N).
  { intros i l d Li K. inversion K as [|a k b d' U K' E1 E2|a b d' U K' E1 E2]; subst.
    - exists d'. split; [exact K'|]. pose proof (moves_usage i k U Li). lia.
    - exists d. split; [exact K' | lia]. }
  assert (Dn : forall d, known_depth p_moves [] d -> d = 0%N) by (intros d K; inversion K; reflexivity).
  intros l d S1 K. remember 0 as i0 eqn:E0. destruct S1 as [i Hi|i j l C S1]; subst i.
  - destruct (Dp 0 [] d ltac:(lia) K) as [d1 [K1 L1]]. rewrite (Dn d1 K1) in L1. cbn [nth] in L1. lia.
  - destruct (moves_calls 0 j C) as [_ ->]. rewrite (End 1 l eq_refl S1) in K. destruct (Dp 0 [1] d ltac:(lia) K) as [d1 [K1 L1]]. destruct (Dp 1 [] d1 ltac:(lia) K1) as [d2 [K2 L2]]. rewrite (Dn d2 K2) in L2. cbn [nth] in L1, L2. lia.
Qed.

(** [p3] *)
Lemma p3_moves : no_memmove p3.
Proof. intros _ i r B. apply body_in in B. destruct B as [n [d [I K]]]. cbn in I. each I; injection I as <- <-; cbn in K; each K; discriminate K. Qed.
Lemma p3_void v : ~ true_void p3 v.
Proof.
  intros [[j T] _]. assert (H : exists n d, In (n, d) (pg_defines p3) /\ fmt_sig (TAlias v) = d_sig d).
  { destruct T as [[ns [n [d [_ [_ [I E]]]]]]|[ns [n [_ [_ [_ []]]]]]]. exists n, d. split; assumption. }
  destruct H as [n [d [I E]]]. cbn in I. each I; injection I as <- <-; discriminate E.
Qed.
(** A lower bound. *)
Lemma untyped_moves : no_memmove p_untyped.
Proof. intros _ i r B. apply body_in in B. destruct B as [n [d [I K]]]. cbn in I. each I; injection I as <- <-; cbn in K; each K; discriminate K. Qed.
Lemma untyped_report : exists g cs nd, report idd o_id None p_untyped = Ret (g, cs) /\ nth_error (gnodes g) 0 = Some nd /\ nmax nd = Some (MLower 24).
Proof. eexists. eexists. eexists. split; [vm_compute; reflexivity|]. split; reflexivity. Qed.
Lemma untyped_stacked : stacked p_untyped 0 [0; 1] /\ known_depth p_untyped [0; 1] 24.
Proof.
  split.
  - apply sk_call with 1; [|constructor; cbn; lia]. apply mc_pointer with bin bin; [body_tac | | apply sig_loose_iff; reflexivity]. left. eexists. exists (lit "foo"). eexists. split; [eexists; split; reflexivity|].
    split; [apply first_here; eexists; cbn; right; left; reflexivity|]. split; [cbn; right; left; reflexivity | reflexivity].
  - change 24%N with (8 + (16 + 0))%N. constructor; [|constructor; [|constructor]].
    + apply us_llvm; [left; reflexivity|]. exists (lit "main"). split; [apply chosen_find; vm_compute; reflexivity | cbn; left; reflexivity].
    + apply us_llvm; [left; reflexivity|]. exists (lit "foo"). split; [apply chosen_find; vm_compute; reflexivity | cbn; right; left; reflexivity].
Qed.
Lemma untyped_wf : wf_prog p_untyped.
Proof. apply wf_progb_sound. vm_compute. reflexivity. Qed.
