(** An example program for the properties of machine code. *)
From Verif Require Import M_base M_stack M_graph M_analysis M_filter M_names M_thumb M_ty M_parse M_build M_run S_names S_graph S_sig S_build S_run S_thumb S_machine X_build L_build1 L_build3 L_build4 L_build6 L_build7 L_build8 L_run L_run2 L_machine.
Local Open Scope N_scope.
Local Open Scope list_scope.

(** main: push {r7, lr}; bl foo; pop {r7, pc}.  foo: push {r4, lr}; 1: subs r0, #1; bne 1b; pop.w {r4, lr}; b bar.
    bar: bx lr. *)
Definition m_main : list S_thumb.item := [Ins (I16 0xb580); Ins (I32 0xf000 0xf801); Ins (I16 0xbd80)].
Definition m_foo : list S_thumb.item := [Ins (I16 0xb510); Ins (I16 0x3801); Ins (I16 0xd1fd); Ins (I32 0xe8bd 0x4010); Ins (I16 0xe7ff)].
Definition m_bar : list S_thumb.item := [Ins (I16 0x4770)].
Definition m_lay (i : nat) : list S_thumb.item := match i with 0%nat => m_main | 1%nat => m_foo | 2%nat => m_bar | _ => [] end.
Definition m_p : prog := mkProg Thumbv7m
  [fdef "main" (fsig [] None) [Label; DirectCall (lit "foo"); Other]; fdef "foo" (fsig [TInt 32] None) [Label; DirectCall (lit "bar"); Other]] [(lit "bar", Some (fsig [] None))]
  [(lit "main", 8); (lit "foo", 8)]
  [(4096, mkSym [lit "main"] 8); (4104, mkSym [lit "foo"] 12); (4116, mkSym [lit "bar"] 2)] []
  [(4096, TThumb)] (Some (4096, encode m_main ++ encode m_foo ++ encode m_bar)).

Lemma m_wf : wf_prog m_p.
Proof. apply wf_progb_sound. vm_compute. reflexivity. Qed.
Lemma m_run : exists b g cs nd, build idd o_id m_p = Ret b /\ finish idd None b = Ret (g, cs) /\ nth_error (gnodes g) 0 = Some nd /\ nmax nd = Some (MExact 16) /\
  gedges (b_g b) = [(0, 1); (1, 2)]%nat.
Proof. eexists. eexists. eexists. eexists. split; [vm_compute; reflexivity|]. split; [vm_compute; reflexivity|]. split; [reflexivity|]. split; reflexivity. Qed.

Lemma m_ok addr l : addr + size l <= 2 ^ 32 -> size l < 2 ^ 30 -> forallb (fun x => match x with Ins i => instr_ok true i | Pool _ => false end) l = true ->
  function_ok true addr [(4096, TThumb)] l.
Proof.
  intros L1 L2 H. split; [|split; [|split; [|split; assumption]]].
  - intros x Hx. rewrite forallb_forall in H. specialize (H x Hx). destruct x; [exact H | discriminate H].
  - intros i j a b x y Lt Hi Hj. destruct j as [|[|j]]; [lia | | ]; discriminate Hj.
  - clear L1 L2. revert addr. induction l as [|x l IH]; intros addr; [exact I|]. cbn [forallb] in H. apply andb_true_iff in H. destruct H as [Hx Hl]. cbn [tagged]. split; [|apply IH; exact Hl].
    destruct x; [|discriminate Hx]. intros [K|[]]. discriminate K.
Qed.
Lemma m_layout : layout m_p m_lay.
Proof.
  constructor.
  - reflexivity.
  - intros a s [H|[H|[H|[]]]]; injection H as <- <-; reflexivity.
  - intros [|[|[|i]]] addr s H; [..|destruct i; discriminate H]; injection H as <- <-; do 3 eexists; (split; [reflexivity|]); (split; [reflexivity|]);
      (split; [apply code_size_iff; vm_compute; reflexivity|]); (split; [apply slice_iff; vm_compute; reflexivity|]); apply m_ok; try reflexivity; vm_compute; discriminate.
Qed.
Lemma m_plain : plain m_p m_lay.
Proof.
  intros [|[|[|i]]] x H; [..|destruct H]; cbn [m_lay m_main m_foo m_bar In] in H;
    repeat (destruct H as [H|H]; [injection H as <-; split; reflexivity|]); destruct H.
Qed.
Lemma m_seen i : seen m_p m_lay i.
Proof. exact (plain_seen _ _ i m_layout m_plain). Qed.
Lemma m_near i : near m_p m_lay i.
Proof. exact (proj1 (m_seen i)). Qed.
Ltac each H := repeat (destruct H as [H|H]); try (destruct H; fail).
Lemma m_chosen i n : chosen m_p i n -> choose_b m_p i = Some n.
Proof.
  intros C. pose proof (live_lt m_p _ _ (chosen_live m_p _ _ C)) as L. cbn in L.
  assert (K : forall m, choose_b m_p i = Some m -> choose_b m_p i = Some n) by (intros m K; rewrite K; f_equal; exact (chosen_fun m_p _ _ _ (chosen_find _ _ _ K) C)).
  destruct i as [|[|[|i]]]; try lia; eapply K; vm_compute; reflexivity.
Qed.
Lemma m_llvm i m : llvm_size m_p i (Some m) -> (i < 2)%nat /\ m = 8.
Proof.
  intros [n [C I]]. apply m_chosen in C. destruct i as [|[|[|i]]]; vm_compute in C; try (destruct i; discriminate C); injection C as <-; cbn in I; each I; try discriminate I; injection I as <-; split; try reflexivity; lia.
Qed.
Lemma m_frames i pos u : (i < 3)%nat -> frame_at m_p m_lay i pos u -> u <= 8 /\ (pos = 0 -> u = 0).
Proof.
  intros Li. induction 1 as [|pos u x pos' u' F [IH1 IH2] I G L U]; [split; [lia | reflexivity]|].
  assert (A : u' <= 8 /\ pos' <> 0); [|split; [apply A | intros K; elim (proj2 A K)]].
  destruct i as [|[|[|i]]]; [..|lia]; cbn [m_lay m_main m_foo m_bar] in I; vm_compute in I; each I; injection I as <- <-;
    (match type of U with _ <= _ + ?d => let d' := eval vm_compute in d in change d with d' in U end);
    (split; [try lia; specialize (IH2 eq_refl); lia|]); inversion G as [|imm q A B|imm q A B|q A B]; subst; try discriminate; try (vm_compute in A; discriminate A);
    vm_compute in A; injection A as <-; lia.
Qed.
Lemma m_promised i : promised m_p m_lay i.
Proof.
  intros m R pos u F. assert (L : llvm_size m_p i (Some m)) by (inversion R; assumption). destruct (m_llvm i m L) as [Li ->]. apply (m_frames i pos u); [lia | exact F].
Qed.
Lemma m_covered : covered m_p.
Proof.
  intros i. constructor.
  - intros _ j L. exfalso. apply live_find in L. destruct j as [|[|[|j]]]; try (vm_compute in L; discriminate L). cbn [nth_error pg_defined m_p] in L. destruct j; exact L.
  - intros f j B L. apply body_in in B. destruct B as [n [d [I K]]]. cbn in I. each I; injection I as <- <-; cbn in K; each K; discriminate K.
  - intros K. discriminate K.
  - intros s' j s r B. exfalso. apply body_in in B. destruct B as [n [d [I K]]]. cbn in I. each I; injection I as <- <-; cbn in K; each K; discriminate K.
  - intros _ s' B. exfalso. apply body_in in B. destruct B as [n [d [I K]]]. cbn in I. each I; injection I as <- <-; cbn in K; each K; discriminate K.
  - intros s' j s B. exfalso. apply body_in in B. destruct B as [n [d [I K]]]. cbn in I. each I; injection I as <- <-; cbn in K; each K; discriminate K.
  - destruct m_run as [b [g [cs [nd [E _]]]]]. exact (code_read _ _ _ _ i m_wf E eq_refl ltac:(discriminate)).
  - intros _ X. discriminate X.
  - intros [[c B] _]. apply body_in in B. destruct B as [n [d [I K]]]. cbn in I. each I; injection I as <- <-; cbn in K; each K; discriminate K.
Qed.
Lemma m_trusted i : trusted m_p m_lay i.
Proof. constructor; [apply m_seen | apply m_promised | apply m_covered]. Qed.
Lemma m_fits : fits m_p.
Proof.
  exists (fun i => nth i [8; 8; 0] 0). split; [|vm_compute; reflexivity]. intros i k U.
  destruct m_run as [b [_ [_ [_ [E _]]]]].
  assert (Li : (i < 3)%nat).
  { assert (L : forall s, llvm_size m_p i s -> (i < 3)%nat) by (intros s [n [C _]]; exact (live_lt m_p _ _ (chosen_live m_p _ _ C))). inversion U; eapply L; eassumption. }
  destruct (c42_nodes idd o_id m_p b m_wf o_id_fair E) as [N _]. destruct (N i Li) as [n [l [N1 [_ [N2 _]]]]]. pose proof (usage_fun _ _ _ _ m_wf U N2) as <-.
  vm_compute in E. injection E as <-. destruct i as [|[|[|i]]]; [..|lia]; cbn in N1; injection N1 as _ <-; reflexivity.
Qed.
(** In the loop of foo 16 bytes are in use; then bar is called. *)
Lemma m_exec : executes m_p m_lay 0 [mkFrame 1 2 8; mkFrame 0 2 8] /\ executes m_p m_lay 0 [mkFrame 2 0 0; mkFrame 1 10 0; mkFrame 0 2 8].
Proof.
  assert (E1 : executes m_p m_lay 0 [mkFrame 0 2 8]).
  { apply ex_step with [mkFrame 0 0 0]; [constructor; cbn; lia|]. apply ma_step with (I16 0xb580); [left; reflexivity | exact (go_next _ 0 (I16 0xb580)) | reflexivity | vm_compute; discriminate]. }
  assert (E2 : executes m_p m_lay 0 [mkFrame 1 2 8; mkFrame 0 2 8]).
  { apply ex_step with [mkFrame 1 0 0; mkFrame 0 2 8].
    - apply (ex_step _ _ _ _ _ E1). eapply (ma_call m_p m_lay 0 4096 2 8 (I32 0xf000 0xf801) 2%Z 1); [right; left; reflexivity | vm_compute; reflexivity | reflexivity | eexists; vm_compute; reflexivity].
    - apply ma_step with (I16 0xb510); [left; reflexivity | exact (go_next _ 0 (I16 0xb510)) | reflexivity | vm_compute; discriminate]. }
  split; [exact E2|].
  assert (E3 : executes m_p m_lay 0 [mkFrame 1 4 8; mkFrame 0 2 8]).
  { apply (ex_step _ _ _ _ _ E2). apply ma_step with (I16 0x3801); [right; left; reflexivity | exact (go_next _ 2 (I16 0x3801)) | reflexivity | vm_compute; discriminate]. }
  assert (E4 : executes m_p m_lay 0 [mkFrame 1 6 8; mkFrame 0 2 8]).
  { apply (ex_step _ _ _ _ _ E3). apply ma_step with (I16 0xd1fd); [do 2 right; left; reflexivity | exact (go_next _ 4 (I16 0xd1fd)) | reflexivity | vm_compute; discriminate]. }
  assert (E5 : executes m_p m_lay 0 [mkFrame 1 10 0; mkFrame 0 2 8]).
  { apply (ex_step _ _ _ _ _ E4). apply ma_step with (I32 0xe8bd 0x4010); [do 3 right; left; reflexivity | exact (go_next _ 6 (I32 0xe8bd 0x4010)) | reflexivity | vm_compute; discriminate]. }
  apply (ex_step _ _ _ _ _ E5). eapply (ma_tail m_p m_lay 1 4104 10 0 (I16 0xe7ff) (-2)%Z 2); [do 4 right; left; reflexivity | vm_compute; reflexivity | vm_compute; reflexivity | reflexivity | eexists; vm_compute; reflexivity].
Qed.
Lemma m_bar_usage : chosen m_p 2 (lit "bar") /\ nth_error (pg_defined m_p) 2 = Some (4116, mkSym [lit "bar"] 2) /\ ~ sized m_p (lit "bar") /\
  existsb (inside (size (m_lay 2))) (targets (branch_imm true) (m_lay 2)) = false /\
  usage m_p 1 (LExact 8) /\ frame_at m_p m_lay 1 2 8.
Proof.
  split; [apply chosen_find; vm_compute; reflexivity|]. split; [reflexivity|]. split; [intros [k K]; cbn in K; each K; discriminate K|]. split; [vm_compute; reflexivity|]. split.
  - destruct m_run as [b [_ [_ [_ [E _]]]]]. destruct (c42_nodes idd o_id m_p b m_wf o_id_fair E) as [N _]. destruct (N 1%nat ltac:(cbn; lia)) as [n [l [N1 [_ [N2 _]]]]].
    vm_compute in E. injection E as <-. cbn in N1. injection N1 as _ <-. exact N2.
  - apply fa_step with 0 0 (I16 0xb510); [constructor | left; reflexivity | exact (go_next _ 0 (I16 0xb510)) | reflexivity | vm_compute; discriminate].
Qed.

(** ** Inline assembly *)
(** The same, but foo has inline assembly which pushes 4 bytes more: push {r4, lr}; push {r0}; 1: subs r0, #1; bne 1b; pop {r0};
    pop.w {r4, lr}; b bar.  LLVM does not count the 4 bytes. *)
Definition a_main : list S_thumb.item := [Ins (I16 0xb580); Ins (I32 0xf000 0xf801); Ins (I16 0xbd80)].
Definition a_foo : list S_thumb.item :=
  [Ins (I16 0xb510); Ins (I16 0xb401); Ins (I16 0x3801); Ins (I16 0xd1fd); Ins (I16 0xbc01); Ins (I32 0xe8bd 0x4010); Ins (I16 0xe7ff)].
Definition a_lay (i : nat) : list S_thumb.item := match i with 0%nat => a_main | 1%nat => a_foo | 2%nat => m_bar | _ => [] end.
Definition a_p : prog := mkProg Thumbv7m
  [fdef "main" (fsig [] None) [DirectCall (lit "foo")]; fdef "foo" (fsig [TInt 32] None) [Asm (lit "asm"); DirectCall (lit "bar")]] [(lit "bar", Some (fsig [] None))]
  [(lit "main", 8); (lit "foo", 8)]
  [(4096, mkSym [lit "main"] 8); (4104, mkSym [lit "foo"] 16); (4120, mkSym [lit "bar"] 2)] []
  [(4096, TThumb)] (Some (4096, encode a_main ++ encode a_foo ++ encode m_bar)).
Lemma a_wf : wf_prog a_p.
Proof. apply wf_progb_sound. vm_compute. reflexivity. Qed.
Lemma a_run : exists b g cs nd, build idd o_id a_p = Ret b /\ finish idd None b = Ret (g, cs) /\ nth_error (gnodes g) 0 = Some nd /\ nmax nd = Some (MExact 16) /\
  nlocal nd = LExact 8 /\ nname nd = lit "main".
Proof. eexists. eexists. eexists. eexists. split; [vm_compute; reflexivity|]. split; [vm_compute; reflexivity|]. split; [reflexivity|]. split; [|split]; reflexivity. Qed.
Lemma a_layout : layout a_p a_lay.
Proof.
  constructor.
  - reflexivity.
  - intros a s [H|[H|[H|[]]]]; injection H as <- <-; reflexivity.
  - intros [|[|[|i]]] addr s H; [..|destruct i; discriminate H]; injection H as <- <-; do 3 eexists; (split; [reflexivity|]); (split; [reflexivity|]);
      (split; [apply code_size_iff; vm_compute; reflexivity|]); (split; [apply slice_iff; vm_compute; reflexivity|]); apply m_ok; try reflexivity; vm_compute; discriminate.
Qed.
Lemma a_plain : plain a_p a_lay.
Proof.
  intros [|[|[|i]]] x H; [..|destruct H]; cbn [a_lay a_main a_foo m_bar In] in H;
    repeat (destruct H as [H|H]; [injection H as <-; split; reflexivity|]); destruct H.
Qed.
(** The analysis of foo finds no branch to a register. *)
Lemma a_code : exists a, analysed a_p 1 4104 16 a /\ indirect a = false.
Proof.
  eexists. split.
  - split; [reflexivity|]. do 4 eexists. split; [reflexivity|]. split; [reflexivity|]. split; [reflexivity|].
    split; [apply code_size_iff; vm_compute; reflexivity|]. split; [apply slice_iff; vm_compute; reflexivity | vm_compute; reflexivity].
  - reflexivity.
Qed.
Lemma a_covered : covered a_p.
Proof.
  intros i. constructor.
  - intros _ j L. exfalso. apply live_find in L. destruct j as [|[|[|j]]]; try (vm_compute in L; discriminate L). cbn [nth_error pg_defined a_p] in L. destruct j; exact L.
  - intros f j B L. apply body_in in B. destruct B as [n [d [I K]]]. cbn in I. each I; injection I as <- <-; cbn in K; each K; discriminate K.
  - intros K. discriminate K.
  - intros s' j s r B. exfalso. apply body_in in B. destruct B as [n [d [I K]]]. cbn in I. each I; injection I as <- <-; cbn in K; each K; discriminate K.
  - intros _ s' B. exfalso. apply body_in in B. destruct B as [n [d [I K]]]. cbn in I. each I; injection I as <- <-; cbn in K; each K; discriminate K.
  - intros s' j s B. exfalso. apply body_in in B. destruct B as [n [d [I K]]]. cbn in I. each I; injection I as <- <-; cbn in K; each K; discriminate K.
  - destruct a_run as [b [g [cs [nd [E _]]]]]. exact (code_read _ _ _ _ i a_wf E eq_refl ltac:(discriminate)).
  - intros _ X. discriminate X.
  - intros [As H]. destruct a_code as [a [A F]]. assert (i = 1%nat) as ->.
    { destruct As as [c B]. destruct B as [n [d [I [L K]]]]. apply live_find in L. cbn in I. each I; injection I as <- <-; cbn in K; each K; try discriminate K.
      destruct i as [|[|[|i]]]; [discriminate L | reflexivity | discriminate L | destruct i; destruct L]. }
    rewrite (H _ _ _ A) in F. discriminate F.
Qed.
Lemma a_fits : fits a_p.
Proof.
  exists (fun i => nth i [8; 8; 0] 0). split; [|vm_compute; reflexivity]. intros i k U.
  destruct a_run as [b [_ [_ [_ [E _]]]]].
  assert (Li : (i < 3)%nat).
  { assert (L : forall s, llvm_size a_p i s -> (i < 3)%nat) by (intros s [n [C _]]; exact (live_lt a_p _ _ (chosen_live a_p _ _ C))). inversion U; eapply L; eassumption. }
  destruct (c42_nodes idd o_id a_p b a_wf o_id_fair E) as [N _]. destruct (N i Li) as [n [l [N1 [_ [N2 _]]]]]. pose proof (usage_fun _ _ _ _ a_wf U N2) as <-.
  vm_compute in E. injection E as <-. destruct i as [|[|[|i]]]; [..|lia]; cbn in N1; injection N1 as _ <-; reflexivity.
Qed.
Lemma a_exec : executes a_p a_lay 0 [mkFrame 1 4 12; mkFrame 0 2 8].
Proof.
  apply ex_step with [mkFrame 1 2 8; mkFrame 0 2 8]; [|apply ma_step with (I16 0xb401); [right; left; reflexivity | exact (go_next _ 2 (I16 0xb401)) | reflexivity | vm_compute; discriminate]].
  apply ex_step with [mkFrame 1 0 0; mkFrame 0 2 8]; [|apply ma_step with (I16 0xb510); [left; reflexivity | exact (go_next _ 0 (I16 0xb510)) | reflexivity | vm_compute; discriminate]].
  apply ex_step with [mkFrame 0 2 8]; [|apply (ma_call a_p a_lay 0 4096 2 8 (I32 0xf000 0xf801) 2%Z 1 (mkSym [lit "main"] 8)); [right; left; reflexivity | vm_compute; reflexivity | reflexivity | eexists; vm_compute; reflexivity]].
  apply ex_step with [mkFrame 0 0 0]; [constructor; cbn; lia|]. apply ma_step with (I16 0xb580); [left; reflexivity | exact (go_next _ 0 (I16 0xb580)) | reflexivity | vm_compute; discriminate].
Qed.
Lemma asm_exceeds : exists p lay b g cs nd n fs, layout p lay /\ plain p lay /\ wf_prog p /\ covered p /\ fits p /\
  build idd o_id p = Ret b /\ finish idd None b = Ret (g, cs) /\ nth_error (gnodes g) 0 = Some nd /\ nmax nd = Some (MExact n) /\
  executes p lay 0 fs /\ n < in_use fs /\ has_asm p 1.
Proof.
  destruct a_run as [b [g [cs [nd [E1 [E2 [E3 [E4 _]]]]]]]]. exists a_p, a_lay, b, g, cs, nd, 16, [mkFrame 1 4 12; mkFrame 0 2 8].
  split; [exact a_layout|]. split; [exact a_plain|]. split; [exact a_wf|]. split; [exact a_covered|]. split; [exact a_fits|]. split; [exact E1|]. split; [exact E2|]. split; [exact E3|]. split; [exact E4|].
  split; [exact a_exec|]. split; [vm_compute; reflexivity|].
  exists (lit "asm"). eexists. eexists. split; [cbn; right; left; reflexivity|]. split; [live_tac | cbn; tauto].
Qed.
