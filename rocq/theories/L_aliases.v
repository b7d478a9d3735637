(** Reports of programs that differ in the order of the names at the addresses. *)
From Coq Require Import Permutation.
From Verif Require Import M_base M_stack M_graph M_analysis M_filter M_names M_thumb M_ty M_parse M_render M_build M_run M_log L_base L_names L_build1 L_build2 L_build3 S_build S_aliases L_log L_noise.

(** Computations with the same messages and related results. *)
Definition lrel {A B} (R : A -> B -> Prop) (x : lg A) (y : lg B) : Prop :=
  fst x = fst y /\ match snd x, snd y with Ret a, Ret b => R a b | Fail a, Fail b => a = b | Panic a, Panic b => a = b | Fuel, Fuel => True | _, _ => False end.
Lemma lrel_bind {A B C D} (R : A -> B -> Prop) (S : C -> D -> Prop) x y f g : lrel R x y -> (forall a b, snd x = Ret a -> snd y = Ret b -> R a b -> lrel S (f a) (g b)) -> lrel S (lbind x f) (lbind y g).
Proof.
  intros [E H] K. unfold lbind. destruct x as [t [a| | |]], y as [u [b| | |]]; cbn [fst snd] in *; subst; try destruct H; try (split; [reflexivity | cbn; congruence || exact I]).
  specialize (K a b eq_refl eq_refl H). destruct K as [E K]. split; cbn [fst snd]; [rewrite E; reflexivity | exact K].
Qed.
Lemma lrel_refl {A} (x : lg A) : lrel eq x x.
Proof. split; [reflexivity|]. destruct (snd x); reflexivity || exact I. Qed.
Lemma lrel_eq {A} (x y : lg A) : lrel eq x y -> x = y.
Proof. destruct x as [t [a| | |]], y as [u [b| | |]]; intros [E H]; cbn in *; subst; try destruct H; reflexivity. Qed.
Lemma lrel_fold {X Y S} (R : S -> S -> Prop) (P : X -> Y -> Prop) f g l m : Forall2 P l m -> (forall s t x y, P x y -> R s t -> lrel R (f s x) (g t y)) -> forall s t, R s t -> lrel R (lfold f l s) (lfold g m t).
Proof.
  intros F K. induction F as [|x y l m H F IH]; intros s t Q; cbn [lfold]; [split; [reflexivity | exact Q]|].
  apply (lrel_bind R); [exact (K s t x y H Q)|]. intros a b _ _ Q'. exact (IH a b Q').
Qed.

Lemma forall2_nth {A B} (R : A -> B -> Prop) l m : Forall2 R l m -> forall i x, nth_error l i = Some x -> exists y, nth_error m i = Some y /\ R x y.
Proof.
  induction 1 as [|a b l m H F IH]; intros [|i] x E; cbn [nth_error] in *; try discriminate E; [injection E as <-; exists b; split; [reflexivity | exact H]|]. exact (IH i x E).
Qed.
Lemma perm_filter {A} (k : A -> bool) a b : Permutation a b -> Permutation (filter k a) (filter k b).
Proof.
  induction 1 as [|x a b P IH|x y a|a b c P IH Q JH]; cbn [filter]; [constructor | destruct (k x); [constructor|]; exact IH | destruct (k x), (k y); try apply Permutation_refl; apply perm_swap | exact (Permutation_trans IH JH)].
Qed.

(** The tables built of the symbols: equal, but for the order in which the aliases were put in. *)
Record alike (n m : nodes) : Prop := {
  al_g : n_g m = n_g n; al_indices : n_indices m = n_indices n; al_aliases : forall f, sget (n_aliases m) f = sget (n_aliases n) f;
  al_addr : n_addr2name m = n_addr2name n; al_ambiguous : n_ambiguous m = n_ambiguous n; al_indirects : n_indirects m = n_indirects n;
  al_fmts : n_fmts m = n_fmts n; al_info : n_info m = n_info n; al_untyped : n_untyped m = n_untyped n
}.

Section Relisted.
Variables (demangle : str -> str) (o : orders) (p q : prog).
Hypothesis (W : wf_prog p) (Rl : relisted p q) (Sc : same_choice p q).

Lemma entry_names x y : same_entry x y -> Permutation (real_names x) (real_names y).
Proof. intros [_ [_ P]]. exact (perm_filter _ _ _ P). Qed.
(** The [i]-th entries. *)
Definition entries (x y : N * symbol) : Prop := same_entry x y /\ exists i, nth_error (pg_defined p) i = Some x /\ nth_error (pg_defined q) i = Some y.
Lemma all_entries : Forall2 entries (pg_defined p) (pg_defined q).
Proof.
  pose proof (rl_defined _ _ Rl) as F. unfold entries. 
  assert (G : forall l m, Forall2 same_entry l m -> forall a b, length a = length b -> Forall2 (fun x y => same_entry x y /\ exists i, nth_error (a ++ l) i = Some x /\ nth_error (b ++ m) i = Some y) l m).
  { induction 1 as [|x y l m H F' IH]; intros a b L; constructor.
    - split; [exact H|]. exists (length a). rewrite nth_error_app2, Nat.sub_diag by lia. split; [reflexivity|]. rewrite L, nth_error_app2, Nat.sub_diag by lia. reflexivity.
    - specialize (IH (a ++ [x]) (b ++ [y])). rewrite !app_length in IH. cbn [length] in IH. specialize (IH ltac:(lia)). rewrite <- !app_assoc in IH. exact IH. }
  exact (G _ _ F [] [] eq_refl).
Qed.
Lemma entry_canonical x y : entries x y -> canonical (pg_sizes q) (untagged (snd y)) = canonical (pg_sizes p) (untagged (snd x)).
Proof.
  intros [E [i [Nx Ny]]]. rewrite !untagged_eq. pose proof (entry_names _ _ E) as P. destruct (real_names x) as [|a ns] eqn:Ex; [apply Permutation_nil in P; rewrite P; reflexivity|].
  assert (T : forall r l, l <> [] -> exists c, canonical (pg_sizes r) l = Ret c) by (intros r [|c [|d l]] N; [now destruct N | exists c; reflexivity | cbn [canonical]; destruct (find _ _); eexists; reflexivity]).
  destruct (T p (a :: ns) ltac:(discriminate)) as [c C]. destruct (T q (real_names y)) as [c' C']; [intros Z; rewrite Z in P; apply Permutation_sym, Permutation_nil in P; discriminate P|].
  rewrite C, C'. apply canonical_choose in C. apply canonical_choose in C'. f_equal.
  assert (H : chosen q i c). { apply (sc_chosen _ _ Sc). exists (a :: ns). split; [exists x; split; [exact Nx | symmetry; exact Ex] | exact C]. }
  destruct H as [ns' [[z [Nz ->]] H]]. rewrite Ny in Nz. injection Nz as <-. exact (choose_unique _ _ _ _ C' H).
Qed.
Lemma has_def_same n : has_def q n <-> has_def p n.
Proof. unfold has_def. rewrite (rl_defines _ _ Rl). reflexivity. Qed.
Lemma has_decl_same n : has_decl q n <-> has_decl p n.
Proof. unfold has_decl. rewrite (rl_declares _ _ Rl). reflexivity. Qed.
Lemma entry_def x y : entries x y -> option_map d_sig (def_of (pg_defines q) (untagged (snd y))) = option_map d_sig (def_of (pg_defines p) (untagged (snd x))).
Proof.
  intros [E [i [Nx Ny]]]. rewrite !untagged_eq. pose proof (entry_names _ _ E) as P. assert (Wq : NoDup (map fst (pg_defines q))) by (rewrite (rl_defines _ _ Rl); exact (wf_defines _ W)).
  destruct (def_of (pg_defines p) (real_names x)) as [d|] eqn:D.
  - destruct (proj1 (def_of_spec p (real_names x) (d_sig d) (wf_defines _ W)) (ex_intro _ d (conj D eq_refl))) as [n [e [F [I S]]]].
    assert (T : typed_by_def q i (d_sig d)). { apply (sc_def _ _ Sc). exists (real_names x), n, e. split; [exists x; split; [exact Nx | reflexivity]|]. split; [exact F|]. split; [exact I | exact S]. }
    destruct T as [ns' [n' [e' [[z [Nz ->]] [F' [I' S']]]]]]. rewrite Ny in Nz. injection Nz as <-.
    destruct (proj2 (def_of_spec q (real_names y) (d_sig d) Wq)) as [d' [D' Sd]]; [exists n', e'; split; [exact F'|]; split; [exact I' | exact S']|].
    rewrite D'. cbn [option_map]. f_equal. symmetry. exact Sd.
  - pose proof (proj1 (def_of_None p _) D) as Dn. assert (Dq : def_of (pg_defines q) (real_names y) = None) by (apply (def_of_None q); intros m I H; apply (Dn m); [exact (Permutation_in _ (Permutation_sym P) I) | apply has_def_same; exact H]). rewrite Dq. reflexivity.
Qed.
Lemma entry_decl x y : entries x y -> def_of (pg_defines p) (untagged (snd x)) = None -> decl_of (pg_declares q) (untagged (snd y)) = decl_of (pg_declares p) (untagged (snd x)).
Proof.
  intros [E [i [Nx Ny]]]. rewrite !untagged_eq. intros Nd. pose proof (entry_names _ _ E) as P. assert (Wq : NoDup (map fst (pg_declares q))) by (rewrite (rl_declares _ _ Rl); exact (wf_declares _ W)).
  destruct (decl_of (pg_declares p) (real_names x)) as [s|] eqn:D.
  - destruct (proj1 (decl_of_spec p (real_names x) s (wf_declares _ W)) D) as [n [F I]].
    assert (T : typed_by_decl q i s). { apply (sc_decl _ _ Sc). exists (real_names x), n. split; [exists x; split; [exact Nx | reflexivity]|]. split; [exact (proj1 (def_of_None p _) Nd)|]. split; [exact F | exact I]. }
    destruct T as [ns' [n' [[z [Nz ->]] [_ [F' I']]]]]. rewrite Ny in Nz. injection Nz as <-. apply (decl_of_spec q _ _ Wq). exists n'. split; [exact F' | exact I'].
  - pose proof (proj1 (decl_of_None p _ (wf_declares _ W)) D) as Dn. apply (decl_of_None q _ Wq). intros m I H. apply (Dn m); [exact (Permutation_in _ (Permutation_sym P) I) | apply has_decl_same; exact H].
Qed.
Lemma add_real_al s t x y : entries x y -> alike s t -> lrel alike (add_real_log demangle p s x) (add_real_log demangle q t y).
Proof.
  intros E A. pose proof (entry_canonical x y E) as C. pose proof (entry_def x y E) as D. pose proof (entry_decl x y E) as Dc. destruct E as [[Ea [_ P]] _]. unfold add_real_log. rewrite C. cbv zeta.
  destruct (canonical (pg_sizes p) (untagged (snd x))) as [c| | |]; [|split; reflexivity ..]. change (quiet (Ret c)) with (lret c). rewrite !lbind_lret.
  destruct A as [Ag Ai Al Aa Am An Af Ao Au]. rewrite (rl_sizes _ _ Rl), (rl_target _ _ Rl), Ea, Ag, Ai, Aa, Am, An, Af, Ao, Au.
  apply (lrel_bind eq); [apply lrel_refl|]. intros b b' _ _ <-. apply (lrel_bind eq); [apply lrel_refl|]. intros am am' _ _ <-. cbn [add_node].
  assert (Ga : forall f, sget (fold_left (fun m n => sput m n c) (untagged (snd y)) (n_aliases t)) f = sget (fold_left (fun m n => sput m n c) (untagged (snd x)) (n_aliases s)) f).
  { intros f. rewrite !fold_sput_get, Al. replace (smem f (untagged (snd y))) with (smem f (untagged (snd x))); [reflexivity|].
    pose proof (perm_filter (fun n => negb (is_tag_name n)) _ _ P) as Q. fold (untagged (snd x)) in Q. fold (untagged (snd y)) in Q.
    apply eq_true_iff_eq. rewrite !smem_In. split; intros I; [exact (Permutation_in _ Q I) | exact (Permutation_in _ (Permutation_sym Q) I)]. }
  destruct (def_of (pg_defines q) (untagged (snd y))) as [d'|], (def_of (pg_defines p) (untagged (snd x))) as [d|]; try discriminate D.
  - injection D as ->. split; [reflexivity|]. constructor; try reflexivity. exact Ga.
  - rewrite (Dc eq_refl). destruct (decl_of (pg_declares p) (untagged (snd x))) as [sg|]; [split; [reflexivity|]; constructor; try reflexivity; exact Ga|].
    destruct (negb _); (split; [reflexivity|]; constructor; try reflexivity; exact Ga).
Qed.
Lemma real_al : lrel alike (real_nodes_log demangle p) (real_nodes_log demangle q).
Proof. apply (lrel_fold alike entries); [exact all_entries | intros s t x y E A; exact (add_real_al s t x y E A) | constructor; reflexivity]. Qed.

Lemma stmt_al al al' c i x st : (forall f, sget al' f = sget al f) -> exec_stmt_log q al' c i x st = exec_stmt_log p al c i x st.
Proof. intros H. unfold exec_stmt_log, exec_stmt. rewrite (rl_target _ _ Rl), (rl_undefined _ _ Rl). destruct x as [s k], st as [| [f|] | f | | | | ]; try reflexivity. rewrite H. reflexivity. Qed.
Lemma define_al al al' x d : (forall f, sget al' f = sget al f) -> exec_define_log q al' x d = exec_define_log p al x d.
Proof.
  intros H. unfold exec_define_log. destruct x as [s k]. rewrite H. destruct (sget al (d_name d)) as [c|]; [|reflexivity]. cbv zeta. destruct (sget _ c) as [i|]; [|reflexivity].
  apply lfold_ext. intros s' st _. apply stmt_al. exact H.
Qed.
Lemma ir_al n m : alike n m -> ir_edges_log q m = ir_edges_log p n.
Proof.
  intros A. unfold ir_edges_log. rewrite (al_g _ _ A), (al_indices _ _ A), (al_indirects _ _ A), (rl_defines _ _ Rl). f_equal. apply lfold_ext. intros s d _. apply define_al. exact (al_aliases _ _ A).
Qed.
(** The first name of an entry is not a mapping symbol, and leads to the name of the function, or nowhere in both. *)
Definition both_heads (x y : N * symbol) : Prop := entries x y /\ same_head x y.
Lemma heads : is_thumb (pg_target p) = true -> Forall2 both_heads (pg_defined p) (pg_defined q).
Proof.
  intros T. pose proof all_entries as E. pose proof (rl_heads _ _ Rl T) as H. unfold both_heads. revert E H. generalize entries. induction 1 as [|x y l m H F IH]; intros K; [constructor|]. inversion K; subst. constructor; [split; assumption | apply IH; assumption].
Qed.
Lemma alias_of n x i f : real_nodes demangle p = Ret n -> nth_error (pg_defined p) i = Some x -> In f (real_names x) -> exists c, chosen p i c /\ sget (n_aliases n) f = Some c.
Proof.
  intros R Nx I. pose proof (real_nodes_spec demangle p n W R) as N. assert (Nn : real_names x <> []) by (intros Z; rewrite Z in I; destruct I).
  destruct (choose_exists p (real_names x) Nn) as [c C]. exists c. assert (Ch : chosen p i c) by (exists (real_names x); split; [exists x; split; [exact Nx | reflexivity] | exact C]). split; [exact Ch|].
  apply (rn_aliases _ _ _ _ N). exists i. rewrite upto_all. split; [exists (real_names x); split; [exists x; split; [exact Nx | reflexivity] | exact I] | exact Ch].
Qed.
Lemma alias_tag n f : real_nodes demangle p = Ret n -> mapping_symbol f = true -> sget (n_aliases n) f = None.
Proof.
  intros R T. pose proof (real_nodes_spec demangle p n W R) as N. destruct (sget (n_aliases n) f) as [c|] eqn:E; [|reflexivity]. apply (rn_aliases _ _ _ _ N) in E.
  destruct E as [i [[ns [[x [_ ->]] I]] _]]. apply filter_In in I. rewrite T in I. destruct I as [_ I]. discriminate I.
Qed.
Lemma head_alias n m x y : real_nodes demangle p = Ret n -> alike n m -> both_heads x y ->
  match sy_names (snd x), sy_names (snd y) with
  | [], [] => True
  | f :: _, g :: _ => sget (n_aliases m) g = sget (n_aliases n) f
  | _, _ => False
  end.
Proof.
  intros R A [[[Ea [Es P]] [i [Nx Ny]]] H]. unfold same_head in H. 
  destruct (sy_names (snd x)) as [|f fs] eqn:Ex, (sy_names (snd y)) as [|g gs] eqn:Ey; try discriminate H; [exact I|]. cbn [hd_error option_map] in H. injection H as H. rewrite (al_aliases _ _ A).
  destruct (mapping_symbol f) eqn:T; [rewrite (alias_tag n f R T), (alias_tag n g R H); reflexivity|].
  assert (If : In f (real_names x)) by (apply filter_In; rewrite Ex, T; split; [left; reflexivity | reflexivity]).
  assert (Ig : In g (real_names x)). { apply filter_In. rewrite Ex, H. split; [|reflexivity]. apply (Permutation_in _ (Permutation_sym P)). left. reflexivity. }
  destruct (alias_of n x i f R Nx If) as [c [Cf ->]]. destruct (alias_of n x i g R Nx Ig) as [c' [Cg ->]]. f_equal. exact (chosen_fun p i _ _ Cg Cf).
Qed.
Lemma code_al n m e stext text x y s : real_nodes demangle p = Ret n -> alike n m -> both_heads x y -> exec_code_log q m e stext text s y = exec_code_log p n e stext text s x.
Proof.
  intros R A H. pose proof (head_alias n m x y R A H) as Hd. destruct H as [[[Ea [Es P]] _] _]. unfold exec_code_log. destruct (sy_names (snd x)) as [|f fs], (sy_names (snd y)) as [|g gs]; try contradiction; [reflexivity|].
  rewrite Hd, Ea, (rl_target _ _ Rl), (rl_tags _ _ Rl), (al_addr _ _ A). unfold code_size. rewrite Es. reflexivity.
Qed.
Lemma machine_al n m e : real_nodes demangle p = Ret n -> alike n m -> machine_edges_log q m e = machine_edges_log p n e.
Proof.
  intros R A. unfold machine_edges_log. rewrite (rl_target _ _ Rl), (rl_text _ _ Rl). destruct (is_thumb (pg_target p)) eqn:T; [|reflexivity]. destruct (pg_text p) as [[a t]|]; [|reflexivity]. f_equal.
  apply lrel_eq. apply (lrel_fold eq (fun y x => both_heads x y)); [| |reflexivity].
  - pose proof (heads T) as H. clear -H. induction H; constructor; assumption.
  - intros s s' y x H <-. rewrite (code_al n m e _ _ x y s R A H). apply lrel_refl.
Qed.
Lemma build_al : build_log demangle o q = build_log demangle o p.
Proof.
  unfold build_log. rewrite (rl_defines _ _ Rl). apply lrel_eq. apply (lrel_bind eq); [apply lrel_refl|]. intros _ _ _ _ _.
  apply (lrel_bind (fun m n => alike n m)).
  - pose proof real_al as [E H]. split; [symmetry; exact E|]. destruct (snd (real_nodes_log demangle p)), (snd (real_nodes_log demangle q)); try exact H; congruence.
  - intros m n _ En A. assert (R : real_nodes demangle p = Ret n) by (rewrite <- En; symmetry; apply real_erase). rewrite (ir_al n m A). apply (lrel_bind eq); [apply lrel_refl|]. intros e _ _ _ <-.
    rewrite (machine_al n m e R A). apply (lrel_bind eq); [apply lrel_refl|]. intros g _ _ _ <-. rewrite (al_untyped _ _ A), (al_fmts _ _ A), (al_ambiguous _ _ A), (al_info _ _ A). apply lrel_refl.
Qed.
Theorem report_al start : report_log demangle o start q = report_log demangle o start p.
Proof. unfold report_log. rewrite build_al. reflexivity. Qed.
End Relisted.
