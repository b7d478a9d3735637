(** Examples for C102. *)
From Verif Require Import M_base M_stack M_graph M_analysis M_filter M_names M_thumb M_ty M_parse M_render M_build M_run
  S_names S_sig L_base L_ir2 L_driver3 L_filter2 S_graph S_build S_run S_below S_more L_build1 L_build3 L_build6 L_build8 L_below L_more X_build X_below.
Local Open Scope string_scope.
Local Open Scope list_scope.

(** `main` also calls `other`, and `foo` uses more stack. *)
Definition q_more : prog := mkProg OtherTarget
  [fdef "main" (fsig [] None) [Label; DirectCall (lit "other"); IndirectCall bin; DirectCall (lit "foo")]; fdef "foo" bin []; fdef "other" (fsig [] None) [DirectCall (lit "foo")]] []
  [(lit "main", 8%N); (lit "foo", 40%N); (lit "other", 100%N)] [X_build.at_ 4096 ["main"]; X_build.at_ 4112 ["foo"]; X_build.at_ 4128 ["other"]] [] [] None.
Lemma more_types : forall n s, (exists d, In (n, d) (pg_defines q_more) /\ d_sig d = s) <-> (exists d, In (n, d) (pg_defines (low [] 100)) /\ d_sig d = s).
Proof.
  intros n s. split; intros [d [I <-]]; cbn in I; each I; injection I as <- <-; eexists; (split; [cbn; (left; reflexivity) + (right; left; reflexivity) + (right; right; left; reflexivity) | reflexivity]).
Qed.
Lemma more_extended : extended (low [] 100) q_more.
Proof.
  constructor; try reflexivity.
  - exact more_types.
  - intros n. split; intros [c I]; cbn in I; each I; injection I as <- <-; eexists; cbn; eauto.
  - intros n c I. cbn in I. each I; injection I as <- <-; eexists; (split; [cbn; (left; reflexivity) + (right; left; reflexivity) + (right; right; left; reflexivity) | vm_compute; discriminate]).
  - intros j st B. destruct j as [|[|[|j]]]; [rewrite bodies_ok in *; vm_compute in B; each B; subst; vm_compute; tauto..|].
    exfalso. destruct B as [n [d [_ [L _]]]]. apply liveb_ok in L. unfold liveb in L. cbn in L. destruct j; discriminate L.
Qed.
Lemma more_fits : fits q_more.
Proof.
  exists (fun i => nth i [8; 40; 100]%N 0%N). split; [|vm_compute; reflexivity]. intros i k U.
  assert (L : llvm_size q_more i (Some k)) by (inversion U; try assumption; match goal with A : analysed _ _ _ _ _ |- _ => destruct A as [A _]; discriminate A end).
  destruct L as [n [C I]]. apply chosen_live, liveb_ok in C. cbn in I. each I; injection I as <- <-; destruct i as [|[|[|i]]]; try reflexivity; try discriminate C; unfold liveb in C; cbn in C; destruct i; discriminate C.
Qed.
Lemma more_example : wf_prog (low [] 100) /\ wf_prog q_more /\ one_void (low [] 100) /\ fits q_more /\ settled (low [] 100) (reaches (low [] 100) 0) /\ extended (low [] 100) q_more /\
  (exists g cs, report idd o_id None (low [] 100) = Ret (g, cs) /\ reported g 0 (MExact 24)) /\
  exists g cs, report idd o_rev None q_more = Ret (g, cs) /\ reported g 0 (MExact 148).
Proof.
  split; [apply wf_progb_sound; vm_compute; reflexivity|]. split; [apply wf_progb_sound; vm_compute; reflexivity|]. split; [apply low_one|]. split; [exact more_fits|].
  split; [apply low_settled, low_reaches|]. split; [exact more_extended|]. split; eexists; eexists; (split; [vm_compute; reflexivity | eexists; split; reflexivity]).
Qed.

(** Two functions, of which the second also calls the first. *)
Definition pair (back : list stmt) : prog := mkProg OtherTarget
  [fdef "f" (fsig [] None) [DirectCall (lit "g")]; fdef "g" (fsig [] None) back] []
  [(lit "f", 8%N); (lit "g", 8%N)] [X_build.at_ 4096 ["f"]; X_build.at_ 4112 ["g"]] [] [] None.
Lemma pair_differ : wf_prog (pair []) /\ wf_prog (pair [DirectCall (lit "f")]) /\ extended (pair []) (pair [DirectCall (lit "f")]) /\
  (exists g cs, report idd o_id None (pair []) = Ret (g, cs) /\ reported g 0 (MExact 16)) /\
  exists g cs, report idd o_id None (pair [DirectCall (lit "f")]) = Ret (g, cs) /\ reported g 0 (MLower 8).
Proof.
  split; [apply wf_progb_sound; vm_compute; reflexivity|]. split; [apply wf_progb_sound; vm_compute; reflexivity|].
  split; [|split; eexists; eexists; (split; [vm_compute; reflexivity | eexists; split; reflexivity])].
  constructor; try reflexivity.
  - intros n s. split; intros [d [I <-]]; cbn in I; each I; injection I as <- <-; eexists; (split; [cbn; (left; reflexivity) + (right; left; reflexivity) | reflexivity]).
  - intros n c I. exists c. split; [exact I | lia].
  - intros j st B. destruct j as [|[|j]]; [rewrite bodies_ok in *; vm_compute in B; each B; subst; vm_compute; tauto..|].
    exfalso. destruct B as [n [d [_ [L _]]]]. apply liveb_ok in L. unfold liveb in L. cbn in L. destruct j; discriminate L.
Qed.

(** ** Two functions with the same code, which the linker puts at one address *)
Definition folded (l : list (N * symbol)) : prog := mkProg OtherTarget
  [fdef "main" (fsig [] None) [DirectCall (lit "a"); DirectCall (lit "b")]; fdef "a" (fsig [] None) [DirectCall (lit "leaf")]; fdef "b" (fsig [] None) [DirectCall (lit "leaf")]; fdef "leaf" (fsig [] None) []] []
  [(lit "main", 8%N); (lit "a", 16%N); (lit "b", 16%N); (lit "leaf", 4%N)] l [] [] None.
Definition p_fold : prog := folded [X_build.at_ 4096 ["main"]; X_build.at_ 4112 ["a"]; X_build.at_ 4128 ["b"]; X_build.at_ 4144 ["leaf"]].
Definition q_fold : prog := folded [X_build.at_ 4096 ["main"]; X_build.at_ 4112 ["a"; "b"]; X_build.at_ 4128 ["leaf"]].
Definition fold_place (j : nat) : nat := nth j [0; 1; 1; 2] j.
Lemma folded_typed l j s : typed (folded l) j s -> s = fsig [] None.
Proof. intros [[ns [n [d [_ [_ [I ->]]]]]]|[ns [n [_ [_ [_ []]]]]]]. cbn in I. each I; injection I as <- <-; reflexivity. Qed.
Lemma folded_void l v : ~ true_void (folded l) v.
Proof. intros [[j T] _]. apply folded_typed in T. discriminate T. Qed.
Lemma folded_stmts l j st : body (folded l) j st -> exists n, st = DirectCall (lit n) /\ In n ["a"; "b"; "leaf"].
Proof. intros [n [d [I [_ S]]]]. cbn in I. each I; injection I as <- <-; cbn in S; each S; subst; first [exists "a"; split; [reflexivity | cbn; tauto] | exists "b"; split; [reflexivity | cbn; tauto] | exists "leaf"; split; [reflexivity | cbn; tauto]]. Qed.
Lemma folded_looks l j st n : body (folded l) j st -> ~ looks_up st n.
Proof.
  intros B U. destruct (folded_stmts l j st B) as [m [-> I]]. inversion U as [E|g n' Lo E|]; subst; [cbn in I; each I; subst m; discriminate|]. inversion Lo; subst; cbn in I; each I; subst m; discriminate.
Qed.
Lemma folded_code l j addr size a : ~ analysed (folded l) j addr size a.
Proof. intros [T _]. discriminate T. Qed.
Lemma fold_chosen l i n : chosen (folded l) i n -> forall m, choose_b (folded l) i = Some m -> wf_prog (folded l) -> n = m.
Proof. intros C m K W. exact (chosen_fun _ _ _ _ C (chosen_find _ _ _ K)). Qed.
Lemma fold_most R : at_most p_fold q_fold fold_place R.
Proof.
  assert (W : wf_prog q_fold) by (apply wf_progb_sound; vm_compute; reflexivity).
  constructor.
  - reflexivity.
  - intros j c _ U. inversion U as [k T L|T L|addr size a k A|addr size a k m A|addr size a k A|addr size a k m A|addr size a k A|addr size a k A|addr size a A|addr size a A]; subst; try (destruct (folded_code _ _ _ _ _ A)).
    destruct L as [n [C I]]. assert (D : j < 4 \/ 4 <= j) by lia. destruct D as [D|D].
    + destruct j as [|[|[|[|j]]]]; [| | | |lia]; rewrite (fold_chosen _ _ _ C _ eq_refl W) in I; cbn in I; each I; try discriminate I; injection I as <-; eexists; (split; [|apply N.le_refl]);
        (apply us_llvm; [left; reflexivity|]); eexists; (split; [apply chosen_find; vm_compute; reflexivity | cbn; tauto]).
    + exfalso. apply chosen_live, liveb_ok in C. unfold fold_place in C. rewrite nth_overflow in C by (cbn; lia). destruct j as [|[|[|j]]]; try lia. unfold liveb in C. cbn in C. destruct j; discriminate C.
  - intros j st _ B. destruct j as [|[|[|[|j]]]]; [rewrite bodies_ok in *; vm_compute in B; each B; subst; vm_compute; tauto..|].
    exfalso. destruct B as [n [d [_ [L _]]]]. apply liveb_ok in L. unfold liveb in L. cbn in L. destruct j; discriminate L.
  - intros j k _ [addr [size [a [A _]]]]. destruct (folded_code _ _ _ _ _ A).
  - intros j _ [[addr [size [a [A _]]]] _]. destruct (folded_code _ _ _ _ _ A).
  - intros j n k _ _ L. apply liveb_ok in L. apply liveb_ok. unfold liveb in *. destruct k as [|[|[|[|k]]]]; cbn in L; [..|destruct k; discriminate L]; apply orb_prop in L; destruct L as [L|L]; try discriminate L; apply str_eqb_eq in L; subst n; reflexivity.
  - intros j st n k _ B U. destruct (folded_looks _ _ _ _ B U).
  - intros j n _ B N y L. destruct (folded_stmts _ _ _ B) as [m [E I]]. injection E as ->. cbn in I. each I; subst m; [apply (N 1) | apply (N 2) | apply (N 3)]; live_tac.
  - intros j st n _ B U. destruct (folded_looks _ _ _ _ B U).
  - intros j s s' k _ B. destruct (folded_stmts _ _ _ B) as [m [E _]]. discriminate E.
  - intros j v s' r k _ B. destruct (folded_stmts _ _ _ B) as [m [E _]]. discriminate E.
  - intros [j [ns [n [[x [E ->]] [_ [D _]]]]]]. exfalso. destruct j as [|[|[|[|j]]]]; cbn in E; [injection E as <-..|destruct j; discriminate E];
      [apply (proj1 (D (lit "main") (or_introl eq_refl))) | apply (proj1 (D (lit "a") (or_introl eq_refl))) | apply (proj1 (D (lit "b") (or_introl eq_refl))) | apply (proj1 (D (lit "leaf") (or_introl eq_refl)))];
      eexists; cbn; (left; reflexivity) + (right; left; reflexivity) + (right; right; left; reflexivity) + (right; right; right; left; reflexivity).
  - intros v. split; intros V; destruct (folded_void _ _ V).
Qed.
Lemma fold_fits : fits q_fold.
Proof.
  exists (fun i => nth i [8; 16; 4]%N 0%N). split; [|vm_compute; reflexivity]. intros i k U.
  assert (L : llvm_size q_fold i (Some k)) by (inversion U; try assumption; match goal with A : analysed _ _ _ _ _ |- _ => destruct A as [A _]; discriminate A end).
  destruct L as [n [C I]]. apply chosen_live, liveb_ok in C. cbn in I. each I; injection I as <- <-; destruct i as [|[|[|i]]]; try reflexivity; try discriminate C; unfold liveb in C; cbn in C; destruct i; discriminate C.
Qed.
Lemma fold_example : wf_prog p_fold /\ wf_prog q_fold /\ one_void p_fold /\ fits q_fold /\ settled p_fold (reaches p_fold 0) /\ at_most p_fold q_fold fold_place (reaches p_fold 0) /\
  (exists g cs, report idd o_id None p_fold = Ret (g, cs) /\ reported g 0 (MExact 28)) /\
  exists g cs, report idd o_rev None q_fold = Ret (g, cs) /\ reported g 0 (MExact 28).
Proof.
  split; [apply wf_progb_sound; vm_compute; reflexivity|]. split; [apply wf_progb_sound; vm_compute; reflexivity|]. split; [intros v w V; destruct (folded_void _ _ V)|]. split; [exact fold_fits|].
  split; [|split; [apply fold_most | split; eexists; eexists; (split; [vm_compute; reflexivity | eexists; split; reflexivity])]].
  intros j n _ B. split; [intros ->; destruct (folded_looks _ _ _ memcmp B lu_memcmp) | intros m Lo; destruct (folded_looks _ _ _ m B (lu_lowered _ _ Lo))].
Qed.
