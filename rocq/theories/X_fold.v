(** Examples for C105. *)
From Verif Require Import M_base M_stack M_graph M_analysis M_filter M_names M_thumb M_ty M_parse M_render M_build M_run
  S_names S_sig L_base L_ir2 L_driver3 L_filter2 S_graph S_build S_run S_below S_fold L_build1 L_build3 L_build6 L_build8 L_below L_fewer L_fold L_fold2 X_build X_below X_more.
Local Open Scope string_scope.
Local Open Scope list_scope.

Lemma p_fold_live n j : live p_fold n j <-> (j = 0 /\ n = lit "main") \/ (j = 1 /\ n = lit "a") \/ (j = 2 /\ n = lit "b") \/ (j = 3 /\ n = lit "leaf").
Proof.
  rewrite <- liveb_ok. unfold liveb. split.
  - intros L. destruct j as [|[|[|[|j]]]]; cbn in L; [..|destruct j; discriminate L]; apply orb_prop in L; destruct L as [L|L]; try discriminate L; apply str_eqb_eq in L; subst n; tauto.
  - intros [[-> ->]|[[-> ->]|[[-> ->]|[-> ->]]]]; reflexivity.
Qed.
Lemma q_fold_live n j : live q_fold n j <-> (j = 0 /\ n = lit "main") \/ (j = 1 /\ n = lit "a") \/ (j = 1 /\ n = lit "b") \/ (j = 2 /\ n = lit "leaf").
Proof.
  rewrite <- liveb_ok. unfold liveb. split.
  - intros L. destruct j as [|[|[|j]]]; cbn in L; [..|destruct j; discriminate L]; repeat (apply orb_prop in L; destruct L as [L|L]); try discriminate L; apply str_eqb_eq in L; subst n; tauto.
  - intros [[-> ->]|[[-> ->]|[[-> ->]|[-> ->]]]]; reflexivity.
Qed.
Ltac p_cases H := apply p_fold_live in H; destruct H as [[? ?]|[[? ?]|[[? ?]|[? ?]]]]; subst.
Lemma p_fold_live_of j s : typed p_fold j s -> exists n, live p_fold n j.
Proof. intros [[ns [n [d [Nm [Fi _]]]]]|[ns [n [Nm [_ [Fi _]]]]]]; exists n, ns; (split; [exact Nm | exact (proj1 (first_In _ _ _ Fi))]). Qed.
Lemma p_fold_def n j : live p_fold n j -> has_def p_fold n.
Proof. intros L. p_cases L; eexists; cbn; (left; reflexivity) + (right; left; reflexivity) + (right; right; left; reflexivity) + (right; right; right; left; reflexivity). Qed.
Lemma p_fold_names n j : live p_fold n j -> names_at p_fold j [n].
Proof. intros L. p_cases L; eexists; (split; reflexivity). Qed.
Lemma fold_pairs j k : fold_place j = fold_place k -> forall n m, live p_fold n j -> live p_fold m k -> j = k \/ (j = 1 /\ k = 2) \/ (j = 2 /\ k = 1).
Proof. intros E n m L M. p_cases L; p_cases M; cbn in E; try discriminate E; tauto. Qed.
Lemma fold_by : folded_by p_fold q_fold fold_place.
Proof.
  assert (Wf : wf_prog p_fold) by (apply wf_progb_sound; vm_compute; reflexivity).
  constructor; try reflexivity.
  - intros n y. rewrite q_fold_live. split.
    + intros [[-> ->]|[[-> ->]|[[-> ->]|[-> ->]]]]; [exists 0 | exists 1 | exists 2 | exists 3]; (split; [apply p_fold_live; tauto | reflexivity]).
    + intros [j [L ->]]. p_cases L; cbn; tauto.
  - intros n m j L M. p_cases L; p_cases M; reflexivity || discriminate.
  - exact p_fold_def.
  - intros j k s E T n L. rewrite (folded_typed _ _ _ T). left. exists [n], n. destruct (p_fold_def n k L) as [d I]. exists d. split; [exact (p_fold_names n k L)|].
    split; [apply first_here; exists d; exact I|]. split; [exact I|]. cbn in I. each I; injection I as <- <-; reflexivity.
  - intros j k st E Bd n L. assert (exists m, live p_fold m j) as [m M] by (destruct Bd as [m [d [_ [M _]]]]; exists m; exact M).
    destruct (fold_pairs j k E m n M L) as [->|[[-> ->]|[-> ->]]]; [exact Bd | |]; rewrite bodies_ok in *; vm_compute in Bd; each Bd; subst; vm_compute; tauto.
  - intros j k c E [m [C S]] n L. pose proof (chosen_live _ _ _ C) as M. destruct (fold_pairs j k E m n M L) as [->|[[-> ->]|[-> ->]]]; [exists m; split; assumption | |]; p_cases M; p_cases L; try discriminate;
      (eexists; split; [apply chosen_find; vm_compute; reflexivity|]); destruct c as [c|];
      [cbn in S; each S; try discriminate S; injection S as <-; cbn; tauto | exfalso; apply S; eexists; cbn; tauto | cbn in S; each S; try discriminate S; injection S as <-; cbn; tauto | exfalso; apply S; eexists; cbn; tauto].
  - intros j st n Bd U. exact (folded_looks _ _ _ _ Bd U).
Qed.
Lemma fold_fits_p : fits p_fold.
Proof.
  exists (fun i => nth i [8; 16; 16; 4]%N 0%N). split; [|vm_compute; reflexivity]. intros i k U.
  assert (L : llvm_size p_fold i (Some k)) by (inversion U; try assumption; match goal with A : analysed _ _ _ _ _ |- _ => destruct A as [A _]; discriminate A end).
  destruct L as [n [C I]]. apply chosen_live in C. p_cases C; cbn in I; each I; try discriminate I; injection I as <-; reflexivity.
Qed.
Lemma p_fold_one : one_void p_fold.
Proof. intros v w V. destruct (folded_void _ _ V). Qed.
Lemma p_fold_u64 : sizes_u64 p_fold /\ sizes_u64 q_fold.
Proof. split; intros n k I; cbn in I; each I; injection I as <- <-; vm_compute; reflexivity. Qed.
Lemma p_fold_wf : wf_prog p_fold /\ wf_prog q_fold.
Proof. split; apply wf_progb_sound; vm_compute; reflexivity. Qed.
Lemma folding_example : wf_prog p_fold /\ wf_prog q_fold /\ folded_by p_fold q_fold fold_place /\ one_void p_fold /\ fits p_fold /\ fits q_fold /\ (exists n, live p_fold n 2) /\ fold_place 2 = 1 /\
  (exists g cs, report idd o_id None p_fold = Ret (g, cs) /\ length (gnodes g) = 4 /\ reported g 2 (MExact 20)) /\
  exists g cs, report idd o_rev None q_fold = Ret (g, cs) /\ length (gnodes g) = 3 /\ reported g 1 (MExact 20).
Proof.
  destruct p_fold_wf as [W W']. split; [exact W|]. split; [exact W'|]. split; [exact fold_by|]. split; [exact p_fold_one|]. split; [exact fold_fits_p|]. split; [exact fold_fits|].
  split; [exists (lit "b"); apply p_fold_live; tauto|]. split; [reflexivity|]. split; eexists; eexists; (split; [vm_compute; reflexivity|]); (split; [reflexivity|]); eexists; split; reflexivity.
Qed.
(** The function at one address is related to both functions: no function of addresses takes [q_fold] to [p_fold]. *)
Lemma related_example : wf_prog q_fold /\ wf_prog p_fold /\ one_void q_fold /\ fits p_fold /\ settled q_fold (on_left (flipped (folds p_fold fold_place))) /\
  followed q_fold p_fold (flipped (folds p_fold fold_place)) /\ flipped (folds p_fold fold_place) 1 1 /\ flipped (folds p_fold fold_place) 1 2 /\
  (exists g cs, report idd o_id None q_fold = Ret (g, cs) /\ reported g 1 (MExact 20)) /\ exists g cs, report idd o_rev None p_fold = Ret (g, cs) /\ reported g 2 (MExact 20).
Proof.
  destruct p_fold_wf as [W W']. split; [exact W'|]. split; [exact W|]. split; [apply (one_void_there p_fold); [exact p_fold_one | intros v; exact (fold_void p_fold q_fold fold_place W fold_by v)]|]. split; [exact fold_fits_p|].
  split; [apply (fold_settled p_fold q_fold fold_place fold_by); right; reflexivity|]. split; [exact (fold_followed_back p_fold q_fold fold_place W fold_by)|].
  split; [split; [reflexivity|]; exists (lit "a"); apply p_fold_live; tauto|]. split; [split; [reflexivity|]; exists (lit "b"); apply p_fold_live; tauto|].
  split; eexists; eexists; (split; [vm_compute; reflexivity|]); eexists; split; reflexivity.
Qed.
(** Both ways. *)
Lemma ways_example : wf_prog p_fold /\ wf_prog q_fold /\ one_void p_fold /\ fits p_fold /\ fits q_fold /\ settled p_fold (on_left (folds p_fold fold_place)) /\ followed p_fold q_fold (folds p_fold fold_place) /\
  settled q_fold (on_left (flipped (folds p_fold fold_place))) /\ followed q_fold p_fold (flipped (folds p_fold fold_place)) /\ folds p_fold fold_place 0 0 /\
  (exists g cs, report idd o_id None p_fold = Ret (g, cs) /\ reported g 0 (MExact 28)) /\ exists g cs, report idd o_rev None q_fold = Ret (g, cs) /\ reported g 0 (MExact 28).
Proof.
  destruct p_fold_wf as [W W']. split; [exact W|]. split; [exact W'|]. split; [exact p_fold_one|]. split; [exact fold_fits_p|]. split; [exact fold_fits|].
  split; [apply (fold_settled p_fold q_fold fold_place fold_by); left; reflexivity|]. split; [exact (fold_followed p_fold q_fold fold_place W fold_by)|].
  split; [apply (fold_settled p_fold q_fold fold_place fold_by); right; reflexivity|]. split; [exact (fold_followed_back p_fold q_fold fold_place W fold_by)|].
  split; [split; [reflexivity|]; exists (lit "main"); apply p_fold_live; tauto|]. split; eexists; eexists; (split; [vm_compute; reflexivity|]); eexists; split; reflexivity.
Qed.
(** Start points on one side. *)
Lemma fold_start_example : wf_prog p_fold /\ wf_prog q_fold /\ folded_by p_fold q_fold fold_place /\ sizes_u64 p_fold /\ sizes_u64 q_fold /\ one_void p_fold /\ fits p_fold /\ fits q_fold /\ live p_fold (lit "b") 2 /\
  (exists g cs, report idd o_id (Some (lit "b")) p_fold = Ret (g, cs) /\ length (gnodes g) = 2) /\ exists g cs, report idd o_rev None q_fold = Ret (g, cs) /\ length (gnodes g) = 3 /\ reported g 1 (MExact 20).
Proof.
  destruct p_fold_wf as [W W'], p_fold_u64 as [S S']. split; [exact W|]. split; [exact W'|]. split; [exact fold_by|]. split; [exact S|]. split; [exact S'|]. split; [exact p_fold_one|]. split; [exact fold_fits_p|]. split; [exact fold_fits|].
  split; [apply p_fold_live; tauto|]. split; eexists; eexists; (split; [vm_compute; reflexivity|]); [reflexivity|]. split; [reflexivity|]. eexists; split; reflexivity.
Qed.

(** ** Functions of different types at one address *)
Definition un : fnsig := fsig [TInt 8] None.
Definition typed_apart (l : list (N * symbol)) : prog := mkProg OtherTarget
  [fdef "main" (fsig [] None) [IndirectCall un]; fdef "a" bin []; fdef "b" un []; fdef "c" un []] []
  [(lit "main", 8%N); (lit "a", 100%N); (lit "b", 100%N); (lit "c", 4%N)] l [] [] None.
Definition p_apart : prog := typed_apart [X_build.at_ 4096 ["main"]; X_build.at_ 4112 ["a"]; X_build.at_ 4128 ["b"]; X_build.at_ 4144 ["c"]].
Definition q_apart : prog := typed_apart [X_build.at_ 4096 ["main"]; X_build.at_ 4112 ["a"; "b"]; X_build.at_ 4144 ["c"]].
Lemma types_differ : wf_prog p_apart /\ wf_prog q_apart /\
  pg_defines q_apart = pg_defines p_apart /\ pg_sizes q_apart = pg_sizes p_apart /\ (forall n y, live q_apart n y <-> exists j, live p_apart n j /\ y = fold_place j) /\
  (exists g cs, report idd o_id None p_apart = Ret (g, cs) /\ reported g 0 (MExact 108)) /\ exists g cs, report idd o_id None q_apart = Ret (g, cs) /\ reported g 0 (MExact 12).
Proof.
  split; [apply wf_progb_sound; vm_compute; reflexivity|]. split; [apply wf_progb_sound; vm_compute; reflexivity|]. split; [reflexivity|]. split; [reflexivity|].
  split; [|split; eexists; eexists; (split; [vm_compute; reflexivity|]); eexists; split; reflexivity].
  intros n y. split.
  - intros L. apply liveb_ok in L. unfold liveb in L. destruct y as [|[|[|y]]]; cbn in L; [..|destruct y; discriminate L]; repeat (apply orb_prop in L; destruct L as [L|L]); try discriminate L; apply str_eqb_eq in L; subst n;
      [exists 0 | exists 1 | exists 2 | exists 3]; (split; [live_tac | reflexivity]).
  - intros [j [L ->]]. apply liveb_ok in L. unfold liveb in L. apply liveb_ok. unfold liveb. destruct j as [|[|[|[|j]]]]; cbn in L; [..|destruct j; discriminate L]; apply orb_prop in L; destruct L as [L|L]; try discriminate L; apply str_eqb_eq in L; subst n; reflexivity.
Qed.
