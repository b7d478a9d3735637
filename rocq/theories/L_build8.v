(** Concrete cases and counterexamples for the call graph construction. *)
From Coq Require Import Permutation.
From Verif Require Import M_base M_stack M_graph M_analysis M_filter M_names M_thumb M_ty M_parse M_build S_names S_graph S_thumb S_sig S_build L_base L_names L_ir2 L_build1 L_build3 L_build4 L_build5 L_build6 L_build7 X_build.
Local Open Scope string_scope.
Local Open Scope list_scope.

Ltac live_tac := eexists; split; [eexists; split; [reflexivity | reflexivity] | cbn; tauto].
Ltac body_tac := eexists; eexists; split; [cbn; left; reflexivity | split; [live_tac | cbn; tauto]].
Lemma first_here {A} (P : A -> Prop) x l : P x -> first P (x :: l) x.
Proof. intros H. exists [], l. split; [reflexivity | split; [exact H | intros y []]]. Qed.
Lemma first_there {A} (P : A -> Prop) y l x : ~ P y -> first P l x -> first P (y :: l) x.
Proof. intros N [a [c [-> [H K]]]]. exists (y :: a), c. split; [reflexivity | split; [exact H|]]. intros z [<- | I]; [exact N | exact (K z I)]. Qed.
(** Deciding the relations on concrete programs. *)
Lemma sized_dec p n : sized p n <-> existsb (fun x => str_eqb (fst x) n) (pg_sizes p) = true.
Proof.
  rewrite existsb_exists. split.
  - intros [k I]. exists (n, k). split; [exact I | apply str_eqb_refl].
  - intros [[m k] [I H]]. apply str_eqb_eq in H. cbn in H. subst m. exists k. exact I.
Qed.
Lemma live_find p n i : live p n i <-> match nth_error (pg_defined p) i with Some x => smem n (real_names x) = true | None => False end.
Proof.
  unfold live, names_at. destruct (nth_error (pg_defined p) i) as [x|].
  - rewrite smem_In. split; [intros [ns [[y [H ->]] I]]; injection H as <-; exact I | intros I; exists (real_names x); split; [exists x; split; reflexivity | exact I]].
  - split; [intros [ns [[y [H _]] _]]; discriminate H | intros []].
Qed.
Definition choose_b (p : prog) (i : nat) : option str :=
  match nth_error (pg_defined p) i with
  | None => None
  | Some x =>
      match find (fun n => existsb (fun z => str_eqb (fst z) n) (pg_sizes p)) (real_names x) with
      | Some n => Some n
      | None => match real_names x with [] => None | n :: _ => Some n end
      end
  end.
Lemma find_first {A} (f : A -> bool) l x : find f l = Some x -> first (fun y => f y = true) l x.
Proof.
  induction l as [|y l IH]; intros H; [discriminate H|]. cbn [find] in H. destruct (f y) eqn:E; [injection H as <-; apply first_here; exact E|].
  apply first_there; [rewrite E; discriminate | exact (IH H)].
Qed.
Lemma chosen_find p i n : choose_b p i = Some n -> chosen p i n.
Proof.
  unfold choose_b. intros H. destruct (nth_error (pg_defined p) i) as [x|] eqn:Ex; [|discriminate H]. exists (real_names x). split; [exists x; split; [exact Ex | reflexivity]|].
  destruct (find _ (real_names x)) as [m|] eqn:Ef.
  - injection H as <-. left. apply find_first in Ef. revert Ef. apply first_iff. intros y. rewrite sized_dec. reflexivity.
  - right. split.
    + intros m I S. pose proof (find_none _ _ Ef m I) as N. apply sized_dec in S. cbn in N. congruence.
    + destruct (real_names x) as [|m l]; [discriminate H|]. injection H as <-. apply first_here. exact I.
Qed.

Lemma memcmp_dropped : exists p i j b, wf_prog p /\ body p i (DirectCall memcmp) /\ live p memcmp j /\ build idd o_id p = Ret b /\ ~ In (i, j) (gedges (b_g b)).
Proof.
  exists p_memcmp, 0, 1. eexists. split; [apply wf_progb_sound; vm_compute; reflexivity|]. split; [body_tac|]. split; [live_tac|]. split; [vm_compute; reflexivity|]. cbn. intros [].
Qed.
Lemma casts_twice : exists p b, wf_prog p /\ build idd o_id p = Ret b /\ ~ NoDup (gedges (b_g b)).
Proof.
  exists p_casts. eexists. split; [apply wf_progb_sound; vm_compute; reflexivity|]. split; [vm_compute; reflexivity|]. cbn. intros N. inversion N as [|? ? N1 _]. apply N1. left. reflexivity.
Qed.
Lemma cast_alias_lost : exists p i f j b, wf_prog p /\ body p i (BitcastCall (Some f)) /\ live p f j /\ build idd o_id p = Ret b /\ ~ In (i, j) (gedges (b_g b)).
Proof.
  exists p_alias, 0, (lit "foo"), 1. eexists. split; [apply wf_progb_sound; vm_compute; reflexivity|]. split; [body_tac|]. split; [live_tac|]. split; [vm_compute; reflexivity|]. cbn. intros [H | []]. discriminate H.
Qed.
Lemma memmove_lost : exists p i r j b, wf_prog p /\ body p i (DirectCall (lit "llvm.memmove." ++ r)) /\ chosen p j (lit "memmove") /\ is_thumb (pg_target p) = false /\
  build idd o_id p = Ret b /\ gedges (b_g b) = [].
Proof.
  exists p_move, 0, (lit "p0.p0.i64"), 1. eexists. split; [apply wf_progb_sound; vm_compute; reflexivity|]. split; [body_tac|]. split; [apply chosen_find; vm_compute; reflexivity|]. split; [reflexivity|]. split; [vm_compute; reflexivity | reflexivity].
Qed.
Lemma fmt_lost : exists p i s j b, wf_prog p /\ body p i (IndirectCall s) /\ typed p j s /\ build idd o_id p = Ret b /\ ~ (exists d, In (i, d) (gedges (b_g b)) /\ In (d, j) (gedges (b_g b))).
Proof.
  exists p_fmt, 0, void_sig, 1. eexists. split; [apply wf_progb_sound; vm_compute; reflexivity|]. split; [body_tac|]. split; [|split; [vm_compute; reflexivity|]].
  - right. eexists. exists (lit "fmt_impl"). split; [eexists; split; reflexivity|]. split; [|split].
    + intros m [<- | []] [d [H | []]]. discriminate H.
    + apply first_here. exists void_sig. cbn. left. reflexivity.
    + cbn. left. reflexivity.
  - cbn. intros [d [[H | []] [K | []]]]. injection H as <-. discriminate K.
Qed.
Lemma pointer_reported_exact : exists p i s b g cs m, wf_prog p /\ untyped p /\ body p i (IndirectCall s) /\ build idd o_id p = Ret b /\
  max_stack true (b_g b) = Ret (g, cs) /\ reported g i m /\ exact m.
Proof.
  exists p_asm, 0, bin. eexists. eexists. eexists. eexists. split; [apply wf_progb_sound; vm_compute; reflexivity|]. split; [|split; [body_tac|]].
  - exists 1. eexists. exists (lit "asm_fn"). split; [eexists; split; reflexivity|]. split; [apply chosen_find; vm_compute; reflexivity|]. split.
    + intros m [<- | []]. split; [intros [d [H | []]]; discriminate H | intros [d []]].
    + intros H. apply outlined_spec in H. discriminate H.
  - split; [vm_compute; reflexivity|]. split; [vm_compute; reflexivity|]. split; [eexists; split; reflexivity | exact I].
Qed.
Lemma homonyms_lost : exists p i f j b, NoDup (map fst (pg_defined p)) /\ body p i (DirectCall f) /\ live p f j /\ build idd o_id p = Ret b /\ ~ In (i, j) (gedges (b_g b)).
Proof.
  exists p_homonyms, 0, (lit "init"), 1. eexists. split; [apply (nodupb_sound N.eqb); [apply N.eqb_refl | vm_compute; reflexivity]|]. split; [body_tac|]. split; [live_tac|]. split; [vm_compute; reflexivity|].
  cbn. intros [H | []]. discriminate H.
Qed.
Lemma order_matters : exists p q b1 b2, wf_prog p /\ same_prog p q /\ one_void p /\ build idd o_id p = Ret b1 /\ build idd o_id q = Ret b2 /\ ~ same_graph 0 (b_g b1) (b_g b2).
Proof.
  exists (p_order [f_call; f_intr]), (p_order [f_intr; f_call]). eexists. eexists. split; [apply wf_progb_sound; vm_compute; reflexivity|]. split; [|split; [|split; [vm_compute; reflexivity|split; [vm_compute; reflexivity|]]]].
  - constructor; try reflexivity. apply perm_swap.
  - intros v w [V _]. exfalso. destruct V as [j [[ns [n [d [_ [_ [I E]]]]]] | [ns [n [_ [_ [_ []]]]]]]]. cbn in I. destruct I as [H | [H | []]]; injection H as <- <-; discriminate E.
  - intros [f [f' [_ [H1 [_ [_ H2]]]]]]. cbn in *. destruct (proj1 (H2 1 2 ltac:(lia) ltac:(lia))) as [K | []]; [right; left; reflexivity|]. destruct (H1 1) as [K1 _]. cbn [nth_error] in K1.
    injection K as K _. rewrite <- K in K1. discriminate K1.
Qed.
Lemma outlined_kept : exists p i n addr size a m k b, wf_prog p /\ chosen p i n /\ analysed p i addr size a /\ In (n, m) (pg_sizes p) /\ stack a = Some k /\ m <> k /\ ~ has_asm p i /\ m <> 0%N /\
  build idd o_id p = Ret b.
Proof.
  exists p_outlined, 0, (lit "OUTLINED_FUNCTION_0"), 4096%N, 4%N. eexists. exists 4%N, 8%N. eexists. split; [apply wf_progb_sound; vm_compute; reflexivity|]. split; [apply chosen_find; vm_compute; reflexivity|].
  split; [|split; [cbn; left; reflexivity|split; [|split; [discriminate|split; [|split; [discriminate | vm_compute; reflexivity]]]]]].
  - split; [reflexivity|]. eexists. eexists. eexists. eexists. split; [reflexivity|]. split; [reflexivity|]. split; [reflexivity|]. split; [apply code_size_iff; vm_compute; reflexivity|]. split; [apply slice_iff; vm_compute; reflexivity|]. vm_compute. reflexivity.
  - reflexivity.
  - intros [c [n [d [[] _]]]].
Qed.

(** ** The main examples *)
Lemma p1_build : exists b, build idd o_id p1 = Ret b /\ (gedges (b_g b) = [(0, 1); (0, 3); (0, 2); (0, 4); (1, 4); (2, 5); (0, 6); (6, 1); (6, 2)]).
Proof. eexists. split; vm_compute; reflexivity. Qed.
Lemma p2_build : exists b, build idd o_id p2 = Ret b /\ gedges (b_g b) = [(0, 1); (1, 2)] /\ map nlocal (gnodes (b_g b)) = [LExact 8; LExact 0; LExact 0].
Proof. eexists. split; [vm_compute; reflexivity|]. split; reflexivity. Qed.
Lemma p2_main : exists a, analysed p2 0 4096 10 a /\ bls a = [10%Z] /\ bs a = [6%Z] /\ ~ leaves 4096 10 (b_target 4096 6).
Proof.
  eexists. split; [split; [reflexivity|]; eexists; eexists; eexists; eexists; split; [reflexivity|]; split; [reflexivity|]; split; [reflexivity|]; split; [apply code_size_iff; vm_compute; reflexivity|]; split; [apply slice_iff; vm_compute; reflexivity|]; vm_compute; reflexivity|].
  split; [reflexivity|]. split; [reflexivity|]. vm_compute. intros [H | H]; [discriminate H | apply H; reflexivity].
Qed.
