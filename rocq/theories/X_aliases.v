(** Examples for the order of the names. *)
From Coq Require Import Permutation.
From Verif Require Import M_base M_stack M_graph M_filter M_names M_thumb M_ty M_parse M_render M_build M_run M_log M_wrapper M_driver S_names S_graph S_render S_build S_run S_driver S_aliases
  L_base L_build1 L_build2 L_build3 L_build4 L_build7 X_build L_build8 L_run L_u64 L_run2 L_driver1 L_driver3 L_driver4 L_driver5 X_driver L_aliases L_aliases2.
Local Open Scope string_scope.
Local Open Scope list_scope.

Definition with_defined (p : prog) (ss : list (N * symbol)) : prog := mkProg (pg_target p) (pg_defines p) (pg_declares p) (pg_sizes p) ss (pg_undefined p) (pg_tags p) (pg_text p).
Ltac pairs := repeat (constructor; [first [reflexivity | split; [reflexivity|]; split; [reflexivity|]; first [apply Permutation_refl | apply perm_swap]]|]); constructor.

(** [foo] has the definition, [foo_alias] the size. *)
Definition q1 : prog := with_defined p1 [X_build.at_ 4096 ["main"]; X_build.at_ 4112 ["foo_alias"; "foo"]; X_build.at_ 4128 ["bar"]; X_build.at_ 4144 ["memcpy"]; X_build.at_ 4160 ["leaf"]].
Lemma q1_relisted : relisted p1 q1.
Proof. constructor; try reflexivity; [pairs | intros _; pairs]. Qed.
(** A check of [unambiguous]. *)
Definition few {A} (l : list A) : bool := Nat.leb (length l) 1.
Definition declb (p : prog) (n : str) : bool := existsb (fun x => str_eqb n (fst x) && match snd x with Some _ => true | None => false end) (pg_declares p).
Definition unambiguousb (p : prog) : bool :=
  forallb (fun x => let ns := real_names x in (few ns || Nat.eqb (length (filter (shas (pg_sizes p)) ns)) 1) && few (filter (shas (pg_defines p)) ns) && few (filter (declb p) ns)) (pg_defined p).
Lemma few_same {A} (l : list A) a b : few l = true -> In a l -> In b l -> a = b.
Proof. intros F I J. apply Nat.leb_le in F. destruct l as [|c [|d l]]; [destruct I | | cbn [length] in F; lia]. destruct I as [<-|[]], J as [<-|[]]. reflexivity. Qed.
Lemma unambiguousb_sound p : unambiguousb p = true -> unambiguous p.
Proof.
  intros H. unfold unambiguousb in H. rewrite forallb_forall in H.
  assert (K : forall i ns, names_at p i ns -> (few ns = true \/ length (filter (shas (pg_sizes p)) ns) = 1) /\ few (filter (shas (pg_defines p)) ns) = true /\ few (filter (declb p) ns) = true).
  { intros i ns [x [Nx ->]]. specialize (H x (nth_error_In _ _ Nx)). cbv zeta in H. apply andb_true_iff in H. destruct H as [H H3]. apply andb_true_iff in H. destruct H as [H1 H2]. split; [|split; assumption].
    apply orb_true_iff in H1. destruct H1 as [H1|H1]; [left; exact H1 | right; apply Nat.eqb_eq; exact H1]. }
  constructor.
  - intros i ns Na. destruct (K i ns Na) as [[F|F] _]; [left; apply Nat.leb_le; exact F|]. right. destruct (filter (shas (pg_sizes p)) ns) as [|n [|m l]] eqn:E; try discriminate F.
    assert (I : In n (filter (shas (pg_sizes p)) ns)) by (rewrite E; left; reflexivity). apply filter_In in I. exists n. split; [exact (proj1 I)|]. split; [apply shas_iff; exact (proj2 I)|].
    intros m J S. assert (Im : In m (filter (shas (pg_sizes p)) ns)) by (apply filter_In; split; [exact J | apply shas_iff; exact S]). rewrite E in Im. destruct Im as [<-|[]]. reflexivity.
  - intros i ns n m Na In_ Im Dn Dm. destruct (K i ns Na) as [_ [F _]]. apply (few_same _ _ _ F); apply filter_In; (split; [assumption | apply shas_iff; assumption]).
  - intros i ns n m Na _ In_ Im Dn Dm. destruct (K i ns Na) as [_ [_ F]]. apply (few_same _ _ _ F); apply filter_In; (split; [assumption|]);
      [destruct Dn as [s D] | destruct Dm as [s D]]; (apply existsb_exists; eexists; split; [exact D|]; cbn [fst snd]; rewrite str_eqb_refl; reflexivity).
Qed.
Lemma q1_example : wf_prog p1 /\ relisted p1 q1 /\ unambiguous p1 /\ p1 <> q1 /\ exists g cs, report idd o_id None p1 = Ret (g, cs) /\ map nname (firstn 5 (gnodes g)) = map lit ["main"; "foo_alias"; "bar"; "memcpy"; "leaf"].
Proof.
  split; [exact p1_wf|]. split; [exact q1_relisted|]. split; [apply unambiguousb_sound; vm_compute; reflexivity|]. split; [intros E; discriminate E|].
  eexists. eexists. split; vm_compute; reflexivity.
Qed.
(** Both names have a definition, of the same type. *)
Definition p_equal : prog := mkProg OtherTarget
  [fdef "main" (fsig [] None) [DirectCall (lit "foo"); IndirectCall bin]; fdef "foo" bin []; fdef "foo_alias" bin []] []
  [(lit "main", 8%N); (lit "foo", 16%N)] [X_build.at_ 4096 ["main"]; X_build.at_ 4112 ["foo"; "foo_alias"]] [] [] None.
Definition q_equal : prog := with_defined p_equal [X_build.at_ 4096 ["main"]; X_build.at_ 4112 ["foo_alias"; "foo"]].
Lemma equal_example : wf_prog p_equal /\ relisted p_equal q_equal /\ same_choice p_equal q_equal /\ ~ unambiguous p_equal.
Proof.
  assert (Rl : relisted p_equal q_equal) by (constructor; try reflexivity; [pairs | intros _; pairs]).
  split; [apply wf_progb_sound; vm_compute; reflexivity|]. split; [exact Rl|].
  assert (N0 : names_at q_equal 0 [lit "main"]) by (eexists; split; [reflexivity | vm_compute; reflexivity]).
  assert (N1 : names_at q_equal 1 (map lit ["foo_alias"; "foo"])) by (eexists; split; [reflexivity | vm_compute; reflexivity]).
  split; [constructor|].
  - intros i n C. destruct i as [|[|i]].
    + destruct C as [ns [Na C]]. destruct Na as [x [E ->]]. cbn in E. injection E as <-. change (choose p_equal [lit "main"] n) in C. exists [lit "main"]. split; [exact N0 | exact C].
    + assert (F : chosen p_equal 1 (lit "foo")) by (apply chosen_find; vm_compute; reflexivity). rewrite (chosen_fun p_equal 1 _ _ C F). apply chosen_find. vm_compute. reflexivity.
    + destruct C as [ns [[x [E _]] _]]. destruct i; discriminate E.
  - intros i s [ns [n [d [Na [F [I E]]]]]]. destruct i as [|[|i]].
    + destruct Na as [x [Ex ->]]. cbn in Ex. injection Ex as <-. exists [lit "main"], n, d. split; [exact N0|]. split; [exact F|]. split; [exact I | exact E].
    + exists (map lit ["foo_alias"; "foo"]), (lit "foo_alias"), (snd (fdef "foo_alias" bin [])). split; [exact N1|].
      assert (Df : has_def q_equal (lit "foo_alias")) by (eexists; right; right; left; reflexivity).
      split; [apply first_cons; left; split; [exact Df | reflexivity]|]. split; [right; right; left; reflexivity|].
      destruct Na as [x [Ex ->]]. cbn in Ex. injection Ex as <-. destruct (first_In _ _ _ F) as [J _]. cbn in J. cbn in I. each J; subst n; each I; first [discriminate I | injection I as <-; exact E].
    + destruct Na as [x [Ex _]]. destruct i; discriminate Ex.
  - intros i s [ns [n [_ [_ [_ []]]]]].
  - intros U. assert (Z : lit "foo" = lit "foo_alias"); [|discriminate Z].
    assert (Np : names_at p_equal 1 (map lit ["foo"; "foo_alias"])) by (eexists; split; [reflexivity | vm_compute; reflexivity]).
    apply (ua_def _ U 1 _ (lit "foo") (lit "foo_alias") Np); [left; reflexivity | right; left; reflexivity | eexists; right; left; reflexivity | eexists; right; right; left; reflexivity].
Qed.

(** ** Where the order matters *)
(** Two names with different sizes. *)
Definition p_two : prog := mkProg OtherTarget
  [fdef "main" (fsig [] None) [DirectCall (lit "foo")]; fdef "foo" (fsig [] None) []] []
  [(lit "main", 8%N); (lit "foo", 16%N); (lit "foo_alias", 64%N)] [X_build.at_ 4096 ["main"]; X_build.at_ 4112 ["foo"; "foo_alias"]] [] [] None.
Definition q_two : prog := with_defined p_two [X_build.at_ 4096 ["main"]; X_build.at_ 4112 ["foo_alias"; "foo"]].
Lemma two_differ : wf_prog p_two /\ relisted p_two q_two /\ exists g cs g' cs', report idd o_id None p_two = Ret (g, cs) /\ report idd o_id None q_two = Ret (g', cs') /\
  (exists x, nth_error (gnodes g) 0 = Some x /\ nmax x = Some (MExact 24)) /\ (exists x, nth_error (gnodes g') 0 = Some x /\ nmax x = Some (MExact 72)).
Proof.
  split; [apply wf_progb_sound; vm_compute; reflexivity|]. split; [constructor; try reflexivity; [pairs | intros _; pairs]|].
  eexists. eexists. eexists. eexists. split; [vm_compute; reflexivity|]. split; [vm_compute; reflexivity|]. split; eexists; (split; [reflexivity | vm_compute; reflexivity]).
Qed.
(** No name has a size, and a call through a cast names one of them. *)
Definition p_cast : prog := mkProg OtherTarget
  [fdef "main" (fsig [] None) [BitcastCall (Some (lit "foo"))]; fdef "foo" (fsig [] None) []] []
  [(lit "main", 8%N)] [X_build.at_ 4096 ["main"]; X_build.at_ 4112 ["foo"; "foo_alias"]] [] [] None.
Definition q_cast : prog := with_defined p_cast [X_build.at_ 4096 ["main"]; X_build.at_ 4112 ["foo_alias"; "foo"]].
Lemma cast_differ : wf_prog p_cast /\ relisted p_cast q_cast /\ (forall n, In n (map lit ["foo"; "foo_alias"]) -> ~ sized p_cast n) /\
  exists g cs g' cs', report idd o_id None p_cast = Ret (g, cs) /\ report idd o_id None q_cast = Ret (g', cs') /\ gedges g = [(0, 1)] /\ gedges g' = [(0, 2)].
Proof.
  split; [apply wf_progb_sound; vm_compute; reflexivity|]. split; [constructor; try reflexivity; [pairs | intros _; pairs]|].
  split; [intros n I [k S]; cbn in I, S; each I; subst n; each S; discriminate S|].
  eexists. eexists. eexists. eexists. split; [vm_compute; reflexivity|]. split; [vm_compute; reflexivity|]. split; vm_compute; reflexivity.
Qed.
(** A mapping symbol in front. *)
Definition p_tagged : prog := mkProg Thumbv7m
  [fdef "main" (fsig [] None) []] [] [(lit "main", 0%N)] [(0%N, mkSym (map lit ["main"; "$x"]) 2)] [] [(0%N, TThumb)] (Some (0%N, map ascii_of_nat [112; 71])).
Definition q_tagged : prog := with_defined p_tagged [(0%N, mkSym (map lit ["$x"; "main"]) 2)].
Lemma tagged_differ : wf_prog p_tagged /\ wf_prog q_tagged /\ q_tagged = mkProg (pg_target p_tagged) (pg_defines p_tagged) (pg_declares p_tagged) (pg_sizes p_tagged) (pg_defined q_tagged) (pg_undefined p_tagged) (pg_tags p_tagged) (pg_text p_tagged) /\ Forall2 same_entry (pg_defined p_tagged) (pg_defined q_tagged) /\
  (exists g cs, report idd o_id None p_tagged = Ret (g, cs)) /\ exists m, report idd o_id None q_tagged = Panic m.
Proof.
  split; [apply wf_progb_sound; vm_compute; reflexivity|]. split; [apply wf_progb_sound; vm_compute; reflexivity|]. split; [reflexivity|]. split; [pairs|].
  split; [eexists; eexists; vm_compute; reflexivity | eexists; vm_compute; reflexivity].
Qed.

(** ** A run *)
Definition leaf_names (ns : list string) (_ : str) : outcome elf_symbols := Ret (mkElf [X_build.at_ 4096 ["main"]; X_build.at_ 4112 ns; X_build.at_ 4128 ["memcpy"]] []).
Definition alias_w : world := listing (leaf_names ["leaf_alias"; "leaf"]) ex_w.
Lemma alias_sane : sane alias_w.
Proof.
  destruct (ex_sane ex_args None good None ex_stderr (Some 0%Z)) as [U D O _]. constructor; [exact U | exact D | exact O|].
  intros elf s E. cbn in E. injection E as <-. split; [apply (nodupb_sound N.eqb); [apply N.eqb_refl | reflexivity] | apply (nodupb_sound str_eqb); [apply L_base.str_eqb_refl | vm_compute; reflexivity]].
Qed.
Lemma alias_run : sane alias_w /\ names_reordered (leaf_names ["leaf"; "leaf_alias"]) alias_w /\ (exists t, main idd alias_w = (t, 0%Z) /\ printed t = [ex_out]) /\
  exists p, load alias_w (lit "x86_64-unknown-linux-gnu") (lit "my-app") (lit "t/cb.rlib") (lit "t/compiler_builtins-3f.ll") = Ret p /\ unambiguous p.
Proof.
  split; [exact alias_sane|]. split; [|split].
  - intros elf s E. cbn in E. injection E as <-. eexists. split; [reflexivity|]. split; [reflexivity|]. cbn [el_defined]. split; pairs.
  - eexists. split; vm_compute; reflexivity.
  - eexists. split; [vm_compute; reflexivity|]. apply unambiguousb_sound. vm_compute. reflexivity.
Qed.
