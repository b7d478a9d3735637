(** Adding a function to a program. *)
From Verif Require Import M_base M_stack M_graph M_analysis M_filter M_names M_thumb M_ty M_parse M_render M_build M_run
  S_names S_sig L_base L_ir2 L_driver3 L_filter2 S_graph S_mono S_build S_run S_below L_build1 L_build3 L_below.

Lemma looks_uses st n : looks_up st n -> uses st n.
Proof. intros [|g m L|g]; [apply uses_call | apply uses_lowered; exact L | apply uses_cast]. Qed.
Section Added.
Variables (p q : prog) (R : nat -> Prop) (l1 : list (N * symbol)) (x : N * symbol) (l2 : list (N * symbol)) (d : define) (k : N).
Hypothesis (W : wf_prog p) (W' : wf_prog q) (Ad : added p q R l1 x l2 d k).
Notation f := (shifted l1).
Notation n0 := (d_name d).
Lemma shifted_inj a b : f a = f b -> a = b.
Proof. unfold shifted. destruct (Nat.ltb a (length l1)) eqn:A, (Nat.ltb b (length l1)) eqn:B; first [apply Nat.ltb_lt in A | apply Nat.ltb_ge in A]; first [apply Nat.ltb_lt in B | apply Nat.ltb_ge in B]; lia. Qed.
Lemma shifted_entry j : nth_error (pg_defined q) (f j) = nth_error (pg_defined p) j.
Proof.
  rewrite (ad_after _ _ _ _ _ _ _ _ Ad), (ad_before _ _ _ _ _ _ _ _ Ad). unfold shifted. destruct (Nat.ltb j (length l1)) eqn:A.
  - apply Nat.ltb_lt in A. rewrite !nth_error_app1 by exact A. reflexivity.
  - apply Nat.ltb_ge in A. rewrite nth_error_app2 by lia. rewrite nth_error_app2 by exact A. replace (S j - length l1) with (S (j - length l1)) by lia. reflexivity.
Qed.
Lemma entry_cases y e : nth_error (pg_defined q) y = Some e -> e = x \/ exists j, y = f j.
Proof.
  intros E. rewrite (ad_after _ _ _ _ _ _ _ _ Ad) in E. unfold shifted. destruct (Nat.lt_trichotomy y (length l1)) as [L|[L|L]].
  - right. exists y. rewrite (proj2 (Nat.ltb_lt _ _) L). reflexivity.
  - left. subst y. rewrite nth_error_app2 in E by lia. rewrite Nat.sub_diag in E. injection E as <-. reflexivity.
  - right. exists (y - 1). replace (Nat.ltb (y - 1) (length l1)) with false by (symmetry; apply Nat.ltb_ge; lia). lia.
Qed.
Lemma ad_names j ns : names_at q (f j) ns <-> names_at p j ns.
Proof. unfold names_at. rewrite shifted_entry. reflexivity. Qed.
Lemma ad_live n j : live q n (f j) <-> live p n j.
Proof. unfold live. split; intros [ns [N I]]; exists ns; (split; [apply ad_names; exact N | exact I]). Qed.
Lemma names_cases y ns : names_at q y ns -> ns = [n0] \/ exists j, y = f j /\ names_at p j ns.
Proof.
  intros N. pose proof N as [e [E ->]]. destruct (entry_cases y e E) as [->|[j ->]]; [left; exact (ad_name _ _ _ _ _ _ _ _ Ad) | right; exists j; split; [reflexivity | apply ad_names; exact N]].
Qed.
Lemma ad_other_name j ns n : names_at p j ns -> In n ns -> n <> n0.
Proof. intros N I ->. apply (ad_new _ _ _ _ _ _ _ _ Ad j). exists ns. split; assumption. Qed.
Lemma ad_sized n : n <> n0 -> (sized q n <-> sized p n).
Proof.
  intros Hn. unfold sized. split; intros [c I]; exists c.
  - apply (ad_sizes _ _ _ _ _ _ _ _ Ad) in I. destruct I as [[E _]|I]; [destruct (Hn E) | exact I].
  - apply (ad_sizes _ _ _ _ _ _ _ _ Ad). right. exact I.
Qed.
Lemma first_in {A} (P Q : A -> Prop) l z : (forall y, In y l -> (P y <-> Q y)) -> first P l z -> first Q l z.
Proof.
  intros H [a [b [E [Pz N]]]]. exists a, b. split; [exact E|]. split; [apply H; [rewrite E; apply in_or_app; right; left; reflexivity | exact Pz]|].
  intros y I Qy. apply (N y I). apply H; [rewrite E; apply in_or_app; left; exact I | exact Qy].
Qed.
Lemma ad_chosen n j : chosen q (f j) n <-> chosen p j n.
Proof.
  unfold chosen. split; intros [ns [N H]].
  - apply ad_names in N. exists ns. split; [exact N|]. assert (Sz : forall y, In y ns -> (sized q y <-> sized p y)) by (intros y I; apply ad_sized; exact (ad_other_name j ns y N I)).
    destruct H as [F|[N2 F]]; [left; exact (first_in _ _ _ _ Sz F) | right; split; [intros m I X; apply (N2 m I); apply (Sz m I); exact X | exact F]].
  - exists ns. split; [apply ad_names; exact N|]. assert (Sz : forall y, In y ns -> (sized p y <-> sized q y)) by (intros y I; symmetry; apply ad_sized; exact (ad_other_name j ns y N I)).
    destruct H as [F|[N2 F]]; [left; exact (first_in _ _ _ _ Sz F) | right; split; [intros m I X; apply (N2 m I); apply (Sz m I); exact X | exact F]].
Qed.
Lemma ad_def n e : n <> n0 -> (In (n, e) (pg_defines q) <-> In (n, e) (pg_defines p)).
Proof. intros Hn. rewrite (ad_defines _ _ _ _ _ _ _ _ Ad). split; [intros [[E _]|I]; [destruct (Hn E) | exact I] | intros I; right; exact I]. Qed.
Lemma ad_has_def n : n <> n0 -> (has_def q n <-> has_def p n).
Proof. intros Hn. unfold has_def. split; intros [e I]; exists e; apply (ad_def n e Hn); exact I. Qed.
Lemma ad_has_decl n : has_decl q n <-> has_decl p n.
Proof. unfold has_decl. rewrite (ad_declares _ _ _ _ _ _ _ _ Ad). reflexivity. Qed.
Lemma ad_body j st : body q (f j) st <-> body p j st.
Proof.
  split; intros [n [e [I [L S]]]]; exists n, e.
  - apply ad_live in L. pose proof L as [ns [N In_]]. split; [apply (ad_def n e (ad_other_name j ns n N In_)); exact I|]. split; [exact L | exact S].
  - pose proof L as [ns [N In_]]. split; [apply (ad_def n e (ad_other_name j ns n N In_)); exact I|]. split; [apply ad_live; exact L | exact S].
Qed.
Lemma ad_typed_def j s : typed_by_def q (f j) s <-> typed_by_def p j s.
Proof.
  split; intros [ns [n [e [N [F [I E]]]]]]; exists ns, n, e.
  - apply ad_names in N. split; [exact N|]. assert (In_ : In n ns) by (destruct F as [a [b [-> _]]]; apply in_or_app; right; left; reflexivity).
    split; [revert F; apply first_in; intros y Iy; apply ad_has_def; exact (ad_other_name j ns y N Iy)|]. split; [apply (ad_def n e (ad_other_name j ns n N In_)); exact I | exact E].
  - assert (In_ : In n ns) by (destruct F as [a [b [-> _]]]; apply in_or_app; right; left; reflexivity). split; [apply ad_names; exact N|].
    split; [revert F; apply first_in; intros y Iy; symmetry; apply ad_has_def; exact (ad_other_name j ns y N Iy)|]. split; [apply (ad_def n e (ad_other_name j ns n N In_)); exact I | exact E].
Qed.
Lemma ad_typed_decl j s : typed_by_decl q (f j) s <-> typed_by_decl p j s.
Proof.
  split; intros [ns [n [N [D [F I]]]]]; exists ns, n.
  - apply ad_names in N. split; [exact N|]. split; [intros m Im X; apply (D m Im); apply (ad_has_def m (ad_other_name j ns m N Im)); exact X|].
    split; [revert F; apply first_in; intros y _; apply ad_has_decl | rewrite <- (ad_declares _ _ _ _ _ _ _ _ Ad); exact I].
  - split; [apply ad_names; exact N|]. split; [intros m Im X; apply (D m Im); apply (ad_has_def m (ad_other_name j ns m N Im)); exact X|].
    split; [revert F; apply first_in; intros y _; symmetry; apply ad_has_decl | rewrite (ad_declares _ _ _ _ _ _ _ _ Ad); exact I].
Qed.
(** The new function has the type of its definition. *)
Lemma new_def : has_def q n0.
Proof. exists d. apply (ad_defines _ _ _ _ _ _ _ _ Ad). left. split; reflexivity. Qed.
Lemma first_one {A} (P : A -> Prop) a z : first P [a] z -> z = a.
Proof. intros [u [v [E _]]]. destruct u as [|b u]; cbn in E; [injection E as -> _; reflexivity | injection E as _ E; destruct u; discriminate E]. Qed.
Lemma new_def_only e : In (n0, e) (pg_defines q) -> e = d.
Proof.
  intros I. assert (I0 : In (n0, d) (pg_defines q)) by (apply (ad_defines _ _ _ _ _ _ _ _ Ad); left; split; reflexivity).
  apply (sget_In _ _ _ (wf_defines _ W')) in I, I0. congruence.
Qed.
Lemma typed_def_cases y s : typed_by_def q y s -> s = d_sig d \/ exists j, y = f j /\ typed_by_def p j s.
Proof.
  intros T. pose proof T as [ns [n [e [N [F [I E]]]]]]. destruct (names_cases y ns N) as [->|[j [-> Nj]]].
  - left. rewrite (first_one _ _ _ F) in I. rewrite (new_def_only e I) in E. exact E.
  - right. exists j. split; [reflexivity | apply ad_typed_def; exact T].
Qed.
Lemma typed_cases y s : typed q y s -> s = d_sig d \/ exists j, y = f j /\ typed p j s.
Proof.
  intros [T|T].
  - destruct (typed_def_cases y s T) as [->|[j [-> Tj]]]; [left; reflexivity | right; exists j; split; [reflexivity | left; exact Tj]].
  - pose proof T as [ns [n [N [D _]]]]. destruct (names_cases y ns N) as [->|[j [-> Nj]]]; [destruct (D n0 (or_introl eq_refl) new_def)|].
    right. exists j. split; [reflexivity | right; apply ad_typed_decl; exact T].
Qed.
Lemma ad_typed j s : typed p j s -> typed q (f j) s.
Proof. intros [T|T]; [left; apply ad_typed_def; exact T | right; apply ad_typed_decl; exact T]. Qed.
Lemma ad_untyped : untyped q <-> untyped p.
Proof.
  split; intros [y [ns [n [N [C [D O]]]]]].
  - destruct (names_cases y ns N) as [->|[j [-> Nj]]]; [destruct (proj1 (D n0 (or_introl eq_refl)) new_def)|]. exists j, ns, n. split; [exact Nj|]. split; [apply ad_chosen; exact C|]. split; [|exact O].
    intros m I. destruct (D m I) as [D1 D2]. split; intros X; [apply D1; apply (ad_has_def m (ad_other_name j ns m Nj I)); exact X | apply D2; apply ad_has_decl; exact X].
  - exists (f y), ns, n. split; [apply ad_names; exact N|]. split; [apply ad_chosen; exact C|]. split; [|exact O].
    intros m I. destruct (D m I) as [D1 D2]. split; intros X; [apply D1; apply (ad_has_def m (ad_other_name y ns m N I)); exact X | apply D2; apply ad_has_decl; exact X].
Qed.
Lemma ad_void v : true_void q v <-> true_void p v.
Proof.
  assert (V : forall r, void_candidate q r <-> void_candidate p r).
  { intros r. split; intros [j T]; [|exists (f j); exact (ad_typed j _ T)]. destruct (typed_cases j _ T) as [E|[j' [_ Tj]]]; [destruct (ad_fmt _ _ _ _ _ _ _ _ Ad (TAlias r) (eq_sym E)) | exists j'; exact Tj]. }
  unfold true_void. rewrite (V v), (V (lit "fmt::Void")).
  assert (X : (forall r, ~ void_candidate q (lit "core::fmt::Void" ++ r)) <-> (forall r, ~ void_candidate p (lit "core::fmt::Void" ++ r))) by (split; intros H r Y; apply (H r); apply V; exact Y).
  assert (Y : (forall w, void_candidate q w -> w = v) <-> (forall w, void_candidate p w -> w = v)) by (split; intros H w Z; apply H; apply V; exact Z).
  rewrite X, Y. reflexivity.
Qed.
Lemma no_code_p j addr size a : ~ analysed p j addr size a.
Proof. intros [T _]. pose proof (ad_other _ _ _ _ _ _ _ _ Ad). congruence. Qed.
Lemma no_code_q j addr size a : ~ analysed q j addr size a.
Proof. intros [T _]. pose proof (ad_other _ _ _ _ _ _ _ _ Ad). rewrite (ad_target _ _ _ _ _ _ _ _ Ad) in T. congruence. Qed.
Lemma ad_usage j l : usage p j l -> usage q (f j) l.
Proof.
  assert (Sz : forall n c, chosen p j n -> (match c with Some c => In (n, c) (pg_sizes p) | None => ~ sized p n end) -> llvm_size q (f j) c).
  { intros n c C H. exists n. split; [apply ad_chosen; exact C|]. destruct (chosen_live p j n C) as [ns [N I]]. destruct c as [c|].
    - apply (ad_sizes _ _ _ _ _ _ _ _ Ad). right. exact H.
    - intros X. apply H. apply (ad_sized n (ad_other_name j ns n N I)). exact X. }
  intros U. destruct U as [c _ L|_ L|addr size a c A|addr size a c m A|addr size a c A|addr size a c m A|addr size a c A|addr size a c A|addr size a A|addr size a A]; try (destruct (no_code_p _ _ _ _ A)).
  - destruct L as [n [C H]]. apply us_llvm; [left; rewrite (ad_target _ _ _ _ _ _ _ _ Ad); exact (ad_other _ _ _ _ _ _ _ _ Ad) | exact (Sz n (Some c) C H)].
  - destruct L as [n [C H]]. apply us_none; [left; rewrite (ad_target _ _ _ _ _ _ _ _ Ad); exact (ad_other _ _ _ _ _ _ _ _ Ad) | exact (Sz n None C H)].
Qed.
Lemma added_below : same_below p q f R.
Proof.
  constructor.
  - exact (ad_target _ _ _ _ _ _ _ _ Ad).
  - intros a b _ _ E. exact (shifted_inj a b E).
  - intros j l _ U. exact (ad_usage j l U).
  - intros j st _. exact (ad_body j st).
  - intros j y _. split; [intros [addr [size [a [A _]]]]; destruct (no_code_q _ _ _ _ A) | intros [j' [[addr [size [a [A _]]]] _]]; destruct (no_code_p _ _ _ _ A)].
  - intros j _. split; intros [[addr [size [a [A _]]]] _]; [destruct (no_code_q _ _ _ _ A) | destruct (no_code_p _ _ _ _ A)].
  - intros j n y Rj B. split.
    + intros L. pose proof L as [ns [N I]]. destruct (names_cases y ns N) as [->|[j' [-> _]]].
      * destruct I as [<-|[]]. destruct (ad_unused _ _ _ _ _ _ _ _ Ad j _ Rj B (uses_call _)).
      * exists j'. split; [apply ad_live; exact L | reflexivity].
    + intros [j' [L ->]]. apply ad_live. exact L.
  - intros j st n y Rj B U. split.
    + intros C. pose proof (chosen_live q y n C) as [ns [N I]]. destruct (names_cases y ns N) as [->|[j' [-> _]]].
      * destruct I as [<-|[]]. apply looks_uses in U. destruct (ad_unused _ _ _ _ _ _ _ _ Ad j st Rj B U).
      * exists j'. split; [apply ad_chosen; exact C | reflexivity].
    + intros [j' [C ->]]. apply ad_chosen. exact C.
  - intros j s s' y Rj B M. split.
    + intros T. destruct (typed_cases y s T) as [->|[j' [-> Tj]]]; [destruct (ad_pointer _ _ _ _ _ _ _ _ Ad j s' Rj B M) | exists j'; split; [exact Tj | reflexivity]].
    + intros [j' [T ->]]. exact (ad_typed j' s T).
  - intros j v s' r y Rj B M. split.
    + intros T. destruct (typed_def_cases y _ T) as [E|[j' [-> Tj]]]; [destruct (ad_fmt _ _ _ _ _ _ _ _ Ad r (eq_sym E)) | exists j'; split; [exact Tj | reflexivity]].
    + intros [j' [T ->]]. apply ad_typed_def. exact T.
  - exact ad_untyped.
  - exact ad_void.
Qed.
End Added.
Lemma added_decides demangle o o' p q l1 x l2 d k i g cs g' cs' m m' : wf_prog p -> wf_prog q -> fair o -> fair o' -> sizes_u64 p -> sizes_u64 q -> one_void p ->
  added p q (reaches p i) l1 x l2 d k -> settled p (reaches p i) -> settled q (fun y => exists j, reaches p i j /\ y = shifted l1 j) -> i < length (pg_defined p) ->
  report demangle o None p = Ret (g, cs) -> report demangle o' None q = Ret (g', cs') -> reported g i m -> reported g' (shifted l1 i) m' -> m = m'.
Proof.
  intros W W' Fo Fo' Sz Sz' Ov Ad St St' Hi. apply (below_decides demangle o o' p q (shifted l1) i); try assumption.
  - exact (added_below p q _ l1 x l2 d k W' Ad).
  - apply nth_error_Some. rewrite (shifted_entry p q _ l1 x l2 d k Ad). apply nth_error_Some. exact Hi.
Qed.
