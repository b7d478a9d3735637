(** Examples for what does not count. *)
From Coq Require Import Permutation.
From Verif Require Import M_base M_stack M_graph M_filter M_names M_thumb M_ty M_parse M_render M_build M_run M_log M_wrapper M_driver S_names S_graph S_render S_build S_run S_driver S_same S_samelog S_noise
  L_base L_build1 L_build2 L_build3 L_build4 L_build7 X_build L_build8 L_build9 L_run L_u64 L_run2 L_driver1 L_driver3 L_driver4 L_driver5 X_driver X_total L_same L_same2 X_same L_log L_noise L_noise2.
Local Open Scope string_scope.
Local Open Scope list_scope.

(** The program of [ex_w], with a function that is not linked and calls another one, a declaration, comments, other instructions, globals, types and metadata. *)
Definition noisy_ll : str := lit "; ModuleID = 'my_app'
source_filename = ""my_app""
%T = type { i32, i8* }
@G = internal global i32 0

declare void @unused_decl(i8*)

; app::unused
define i32 @unused(i32 %0) {
start:
  call void @leaf()
  call void %0(i32 1)
  ret i32 0
}

define void @main() {
start:
  ; a comment
  %x = add i32 1, 2
  br label %next
next:
  call void @leaf()
  ret void
}

define void @leaf() {
start:
  ret void
}

attributes #0 = { nounwind }
!0 = !{i32 7}
".
Definition mine (n : str) : bool := existsb (str_eqb n) [lit "main"; lit "leaf"; lit "memcpy"].
Definition noisy_read (path : str) : outcome str := if str_eqb path (lit "t/release/deps/my_app-1f.ll") then Ret noisy_ll else ex_read path.
Lemma noisy_same : same_module mine ex_ll noisy_ll /\ ex_ll <> noisy_ll.
Proof.
  split; [|intros E; vm_compute in E; discriminate E]. right.
  assert (A : exists ia, parse ex_ll = Parsed ia /\ gists mine ia = [GDefine (lit "main", fsig [] None, [DirectCall (lit "leaf")]); GDefine (lit "leaf", fsig [] None, [])]) by (eexists; split; vm_compute; reflexivity).
  assert (B : exists ib, parse noisy_ll = Parsed ib /\ gists mine ib = [GDefine (lit "main", fsig [] None, [DirectCall (lit "leaf")]); GDefine (lit "leaf", fsig [] None, [])]) by (eexists; split; vm_compute; reflexivity).
  destruct A as [ia [A1 A2]], B as [ib [B1 B2]]. exists ia, ib. rewrite A2, B2. auto.
Qed.
Lemma noisy_only : noise_only mine noisy_read ex_w.
Proof.
  constructor.
  - intros path. unfold noisy_read. destruct (str_eqb_spec path (lit "t/release/deps/my_app-1f.ll")) as [->|N]; [|left; reflexivity]. right. split; [reflexivity|].
    exists ex_ll, noisy_ll. split; [reflexivity|]. split; [reflexivity|]. split; [reflexivity|]. split; [reflexivity | exact (proj1 noisy_same)].
  - intros file path Pf Ep. vm_compute in Pf. injection Pf as <-. vm_compute in Ep. injection Ep as <-. reflexivity.
  - intros elf s x n E I J. cbn in E. injection E as <-. cbn in I. each I; destruct I as [] || subst x; cbn in J; each J; subst n; reflexivity.
Qed.
Lemma view_rev l m : view l (rev m) = rev (view l m).
Proof.
  unfold view. induction m as [|x m IH]; [reflexivity|]. cbn [rev]. rewrite filter_app, map_app, IH. cbn [filter]. destruct (l (fst x)); [reflexivity | cbn [map]; rewrite app_nil_r; reflexivity].
Qed.
Lemma rev_views m m' : view mine m = view mine m' -> view mine (w_defines_order ex_w m) = view mine (rev m').
Proof. intros E. change (w_defines_order ex_w m) with (rev m). rewrite !view_rev, E. reflexivity. Qed.
Lemma noisy_example : sane ex_w /\ (forall m : list (str * define), Permutation (rev m) m) /\ noise_only mine noisy_read ex_w /\
  (forall m m', view mine m = view mine m' -> view mine (w_defines_order ex_w m) = view mine (rev m')) /\ ex_ll <> noisy_ll /\ exists t, main idd ex_w = (t, 0%Z) /\ printed t = [ex_out].
Proof.
  split; [apply ex_sane|]. split; [intros m; symmetry; apply Permutation_rev|]. split; [exact noisy_only|]. split; [exact rev_views|]. split; [exact (proj2 noisy_same)|].
  destruct ex_run as [t [R [P _]]]. exists t. split; [exact R | exact P].
Qed.
Lemma noisy_orders : sane ex_w /\ (forall m : list (str * define), Permutation m m) /\ fair o_id /\ noise_only mine noisy_read ex_w /\ (forall k, w_fault ex_w k = None) /\
  (exists t, main idd ex_w = (t, 0%Z)) /\ load ex_w (lit "x86_64-unknown-linux-gnu") (lit "my-app") (lit "t/cb.rlib") (lit "t/compiler_builtins-3f.ll") = Ret ex_p /\ stable ex_p /\ one_void ex_p /\ sizes_u64 ex_p /\ log_settled ex_p.
Proof.
  split; [apply ex_sane|]. split; [intros m; reflexivity|]. split; [exact o_id_fair|]. split; [exact noisy_only|]. split; [reflexivity|]. destruct ex_run as [t [R _]]. split; [exists t; exact R|]. split; [exact ex_load|]. destruct ex_ordered as [A [B C]]. repeat (split; [assumption|]). exact ex_settled.
Qed.

(** A program and the same without what does not count. *)
Definition noisy_p : prog := mkProg OtherTarget
  [fdef "unused" (fsig [] None) [DirectCall (lit "leaf")]; fdef "main" (fsig [] None) [Label; SComment; DirectCall (lit "leaf"); Other]; fdef "leaf" (fsig [] None) [Label; Other]] [(lit "gone", Some (fsig [] None))]
  [(lit "main", 16%N); (lit "leaf", 8%N)] [X_build.at_ 4096 ["main"]; X_build.at_ 4112 ["leaf"]] [] [] None.
Definition quiet_p : prog := mkProg OtherTarget
  [fdef "main" (fsig [] None) [DirectCall (lit "leaf")]; fdef "leaf" (fsig [] None) []] []
  [(lit "main", 16%N); (lit "leaf", 8%N)] [X_build.at_ 4096 ["main"]; X_build.at_ 4112 ["leaf"]] [] [] None.
Definition turned_p : prog := mkProg OtherTarget
  [fdef "leaf" (fsig [] None) []; fdef "main" (fsig [] None) [DirectCall (lit "leaf")]] []
  [(lit "main", 16%N); (lit "leaf", 8%N)] [X_build.at_ 4096 ["main"]; X_build.at_ 4112 ["leaf"]] [] [] None.
Lemma quiet_decl n : linked (pg_defined noisy_p) n = true -> sget (pg_declares quiet_p) n = sget (pg_declares noisy_p) n.
Proof.
  intros L. cbn [quiet_p noisy_p pg_declares sget]. destruct (str_eqb_spec (lit "gone") n) as [<-|_]; [|reflexivity]. vm_compute in L. discriminate L.
Qed.
Lemma quiet_substance : wf_prog noisy_p /\ wf_prog quiet_p /\ same_substance eq noisy_p quiet_p /\ exists g cs, report idd o_id None noisy_p = Ret (g, cs) /\ gedges g = [(0, 1)].
Proof.
  split; [apply wf_progb_sound; vm_compute; reflexivity|]. split; [apply wf_progb_sound; vm_compute; reflexivity|]. split; [constructor; try reflexivity; exact quiet_decl|]. eexists. eexists. split; vm_compute; reflexivity.
Qed.
Lemma turned_substance : wf_prog noisy_p /\ wf_prog turned_p /\ same_substance (@Permutation _) noisy_p turned_p /\ fair o_id /\ fair o_rev /\ stable noisy_p /\ one_void noisy_p /\ sizes_u64 noisy_p /\
  exists g cs, report idd o_id None noisy_p = Ret (g, cs) /\ gedges g = [(0, 1)].
Proof.
  split; [apply wf_progb_sound; vm_compute; reflexivity|]. split; [apply wf_progb_sound; vm_compute; reflexivity|]. split; [constructor; try reflexivity; [apply perm_swap | exact quiet_decl]|].
  split; [exact o_id_fair|]. split; [exact o_rev_fair|]. split; [|split; [|split; [apply Forall_u64; vm_compute; reflexivity|]]].
  - assert (N : forall n, ~ created noisy_p n).
    { intros n [[i [B [X [_ K]]]] | [i [B K]]].
      - apply body_in in B. destruct B as [m [d [I J]]]. cbn in I. each I; injection I as <- <-; cbn in J; each J; try discriminate J; injection J as <-; first [apply (K 1); live_tac | apply (K 0); live_tac].
      - apply body_in in B. destruct B as [m [d [I J]]]. cbn in I. each I; injection I as <- <-; cbn in J; each J; discriminate J. }
    intros n C. destruct (N n C).
  - intros v w [V _]. exfalso. destruct V as [j [[ns [n [d [_ [_ [I E]]]]]] | [ns [n V]]]]; [cbn in I; each I; injection I as <- <-; discriminate E|]. destruct V as [_ [_ [_ D]]]. cbn in D. each D. discriminate D.
  - eexists. eexists. split; vm_compute; reflexivity.
Qed.

(** A line that is not understood stops the run, wherever it is. *)
Definition odd_ll : str := lit "define void @unused() {
start:
  call what @leaf()
}
" ++ ex_ll.
Definition odd_read (path : str) : outcome str := if str_eqb path (lit "t/release/deps/my_app-1f.ll") then Ret odd_ll else ex_read path.
Lemma odd_stops : sane ex_w /\ (exists t, main idd ex_w = (t, 0%Z)) /\ exists t, main idd (edited odd_read (w_defines_order ex_w) (w_orders ex_w) ex_w) = (t, 1%Z).
Proof.
  split; [apply ex_sane|]. destruct ex_run as [t [R _]]. split; [exists t; exact R|]. eexists. vm_compute. reflexivity.
Qed.
