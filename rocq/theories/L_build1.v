(** The nodes of live functions. *)
From Verif Require Import M_base M_stack M_graph M_analysis M_filter M_names M_thumb M_ty M_parse M_build S_names S_build L_base L_names L_ir2.

(** * Maps and sets *)
Lemma sget_sput {A} (m : list (str * A)) k v k' : sget (sput m k v) k' = if str_eqb k k' then Some v else sget m k'.
Proof.
  induction m as [|[a b] m IH]; cbn [sput sget]; [reflexivity|]. destruct (str_eqb_spec a k) as [-> | N]; cbn [sget].
  - destruct (str_eqb k k'); reflexivity.
  - destruct (str_eqb_spec a k') as [-> | N']; [|exact IH]. destruct (str_eqb_spec k k') as [-> | _]; [contradiction | reflexivity].
Qed.
Lemma sput_keys {A} (m : list (str * A)) k v : forall x, In x (map fst (sput m k v)) <-> In x (map fst m) \/ x = k.
Proof.
  induction m as [|[a b] m IH]; intros x; cbn [sput map fst In]; [intuition|].
  destruct (str_eqb_spec a k) as [-> | N]; cbn [map fst In]; [intuition|]. rewrite IH. tauto.
Qed.
Lemma sput_nodup {A} (m : list (str * A)) k v : NoDup (map fst m) -> NoDup (map fst (sput m k v)).
Proof.
  induction m as [|[a b] m IH]; intros H; cbn [sput map fst]; [constructor; [exact (fun H => H) | constructor]|].
  inversion H as [|? ? H1 H2]; subst. destruct (str_eqb_spec a k) as [-> | N]; [exact H|]. cbn [map fst]. constructor; [|exact (IH H2)].
  rewrite sput_keys. intros [X | X]; [exact (H1 X) | exact (N X)].
Qed.
Lemma sget_In {A} (m : list (str * A)) k v : NoDup (map fst m) -> (sget m k = Some v <-> In (k, v) m).
Proof.
  induction m as [|[a b] m IH]; intros H; cbn [sget In]; [intuition discriminate|]. inversion H as [|? ? H1 H2]; subst.
  destruct (str_eqb_spec a k) as [-> | N].
  - split; intros E; [injection E as <-; left; reflexivity|]. destruct E as [E | E]; [injection E as <-; reflexivity|].
    exfalso. apply H1. apply (in_map fst) in E. exact E.
  - rewrite (IH H2). split; [right; assumption|]. intros [E | E]; [injection E as E1 E2; contradiction | exact E].
Qed.
Lemma sget_None {A} (m : list (str * A)) k : sget m k = None <-> ~ exists v, In (k, v) m.
Proof.
  induction m as [|[a b] m IH]; cbn [sget In]; [split; [intros _ [v []] | reflexivity]|].
  destruct (str_eqb_spec a k) as [-> | N].
  - split; [discriminate|]. intros H. exfalso. apply H. exists b. left. reflexivity.
  - rewrite IH. split; intros H [v Hv]; apply H; [destruct Hv as [E | Hv]; [injection E as E1 _; contradiction|] |]; exists v; [|right]; assumption.
Qed.
Lemma shas_iff {A} (m : list (str * A)) k : shas m k = true <-> exists v, In (k, v) m.
Proof.
  unfold shas. destruct (sget m k) as [v|] eqn:E.
  - split; [|reflexivity]. intros _. clear -E. induction m as [|[a b] m IH]; [discriminate|]. cbn [sget] in E.
    destruct (str_eqb_spec a k) as [-> | N]; [exists b; left; reflexivity|]. destruct (IH E) as [w Hw]. exists w. right. exact Hw.
  - split; [discriminate|]. apply sget_None in E. intros H. contradiction.
Qed.
Lemma bget_bput {A} (m : list (N * A)) k v k' : bget (bput m k v) k' = if (k =? k')%N then Some v else bget m k'.
Proof.
  induction m as [|[a b] m IH]; cbn [bput bget]; [reflexivity|]. destruct (N.ltb_spec k a) as [L | L]; [reflexivity|].
  destruct (N.eqb_spec a k) as [-> | N]; cbn [bget].
  - destruct (k =? k')%N; reflexivity.
  - destruct (N.eqb_spec a k') as [-> | N']; [|exact IH]. destruct (N.eqb_spec k k') as [-> | _]; [contradiction | reflexivity].
Qed.
Lemma ninsert_In s i j : In j (ninsert s i) <-> In j s \/ j = i.
Proof.
  unfold ninsert. destruct (mem_spec i s) as [H | H]; [intuition (subst; assumption)|]. rewrite in_app_iff. cbn. intuition.
Qed.
Lemma NoDup_snoc {A} (l : list A) x : NoDup l -> ~ In x l -> NoDup (l ++ [x]).
Proof.
  intros H Hx. apply NoDup_rev in H. rewrite <- (rev_involutive (l ++ [x])). apply NoDup_rev. rewrite rev_app_distr. constructor; [|exact H].
  rewrite <- in_rev. exact Hx.
Qed.
Lemma ninsert_NoDup s i : NoDup s -> NoDup (ninsert s i).
Proof. unfold ninsert. destruct (mem_spec i s) as [H | H]; [tauto|]. intros Hs. apply NoDup_snoc; assumption. Qed.
Lemma sinsert_In s i j : In j (sinsert s i) <-> In j s \/ j = i.
Proof.
  unfold sinsert. destruct (smem i s) eqn:E; [apply smem_In in E; intuition (subst; assumption)|]. rewrite in_app_iff. cbn. intuition.
Qed.

Lemma ofold_app {S X} (f : S -> X -> outcome S) l1 l2 s : ofold f (l1 ++ l2) s = let* s' := ofold f l1 s in ofold f l2 s'.
Proof. revert s. induction l1 as [|x l1 IH]; intros s; cbn [ofold app bind]; [reflexivity|]. destruct (f s x); cbn [bind]; [apply IH | | |]; reflexivity. Qed.
Lemma bind_inv {A B} (x : outcome A) (f : A -> outcome B) b : (let* y := x in f y) = Ret b -> exists a, x = Ret a /\ f a = Ret b.
Proof. destruct x; cbn [bind]; intros H; try discriminate. exists a. split; [reflexivity | exact H]. Qed.

(** * Names *)
Lemma mapping_eq n : mapping_symbol n = is_tag_name n.
Proof. unfold mapping_symbol, is_tag_name. cbn [existsb]. rewrite orb_false_r, orb_assoc. reflexivity. Qed.
Lemma untagged_eq x : untagged (snd x) = real_names x.
Proof. unfold untagged, real_names. apply filter_ext. intros n. rewrite mapping_eq. reflexivity. Qed.

Definition choose (p : prog) (ns : list str) (n : str) : Prop :=
  first (sized p) ns n \/ ((forall m, In m ns -> ~ sized p m) /\ first (fun _ => True) ns n).
Lemma first_In {A} (P : A -> Prop) l x : first P l x -> In x l /\ P x.
Proof. intros [a [b [-> [H _]]]]. split; [|exact H]. apply in_elt. Qed.
Lemma first_unique {A} (P : A -> Prop) l x y : first P l x -> first P l y -> x = y.
Proof.
  intros [a [b [E1 [P1 N1]]]] [a' [b' [E2 [P2 N2]]]]. subst l. revert a' E2 N2. induction a as [|c a IH]; intros a' E2 N2.
  - destruct a' as [|c' a']; [injection E2 as E _; exact E|]. injection E2 as <- _. exfalso. exact (N2 x (or_introl eq_refl) P1).
  - destruct a' as [|c' a'].
    + injection E2 as -> _. exfalso. exact (N1 y (or_introl eq_refl) P2).
    + injection E2 as <- E2. apply (IH (fun z Hz => N1 z (or_intror Hz)) a' E2 (fun z Hz => N2 z (or_intror Hz))).
Qed.
Lemma first_cons {A} (P : A -> Prop) x l y : first P (x :: l) y <-> (P x /\ y = x) \/ (~ P x /\ first P l y).
Proof.
  split.
  - intros [[|c a] [b [E [H N]]]]; injection E as -> ->; [left; split; [exact H | reflexivity]|]. right. split; [apply N; left; reflexivity|].
    exists a, b. repeat split; [exact H|]. intros z Hz. apply N. right. exact Hz.
  - intros [[H ->] | [H [a [b [-> [H1 H2]]]]]].
    + exists [], l. repeat split; [exact H | intros z []].
    + exists (x :: a), b. repeat split; [exact H1|]. intros z [<- | Hz]; [exact H | exact (H2 z Hz)].
Qed.
Lemma find_first {A} (f : A -> bool) l x : find f l = Some x -> first (fun y => f y = true) l x.
Proof.
  induction l as [|c l IH]; [discriminate|]. cbn [find]. destruct (f c) eqn:E; intros H.
  - injection H as ->. apply first_cons. left. split; [exact E | reflexivity].
  - apply first_cons. right. split; [rewrite E; discriminate | exact (IH H)].
Qed.
Lemma first_iff {A} (P Q : A -> Prop) l x : (forall y, P y <-> Q y) -> first P l x -> first Q l x.
Proof. intros H [a [b [E [P1 N1]]]]. exists a, b. repeat split; [exact E | apply H; exact P1|]. intros y Hy Hq. apply (N1 y Hy). apply H. exact Hq. Qed.
Lemma canonical_choose p ns c : canonical (pg_sizes p) ns = Ret c -> choose p ns c.
Proof.
  destruct ns as [|n [|n' ns]]; cbn [canonical]; [discriminate | |].
  - intros E. injection E as <-. unfold choose. destruct (shas (pg_sizes p) n) eqn:E.
    + left. apply shas_iff in E. apply first_cons. left. split; [exact E | reflexivity].
    + right. split; [|apply first_cons; left; split; [exact I | reflexivity]]. intros m [<- | []] H. apply shas_iff in H. rewrite H in E. discriminate.
  - destruct (find (shas (pg_sizes p)) (n :: n' :: ns)) as [x|] eqn:E; intros H; injection H as <-.
    + left. apply find_first in E. revert E. apply first_iff. intros y. apply shas_iff.
    + right. split; [|apply first_cons; left; split; [exact I | reflexivity]]. intros m Hm H. apply shas_iff in H.
      rewrite (find_none _ _ E m Hm) in H. discriminate.
Qed.
Lemma choose_In p ns c : choose p ns c -> In c ns.
Proof. intros [H | [_ H]]; apply first_In in H; apply H. Qed.
Lemma choose_unique p ns a b : choose p ns a -> choose p ns b -> a = b.
Proof.
  intros [H1 | [N1 H1]] [H2 | [N2 H2]].
  - exact (first_unique _ _ _ _ H1 H2).
  - destruct (first_In _ _ _ H1) as [I1 S1]. exfalso. exact (N2 _ I1 S1).
  - destruct (first_In _ _ _ H2) as [I1 S1]. exfalso. exact (N1 _ I1 S1).
  - exact (first_unique _ _ _ _ H1 H2).
Qed.
Lemma choose_exists p ns : ns <> [] -> exists c, choose p ns c.
Proof.
  intros H. destruct (canonical (pg_sizes p) ns) as [c| | |] eqn:E; [exists c; exact (canonical_choose _ _ _ E)| | |];
    exfalso; destruct ns as [|n [|n' ns]]; cbn [canonical] in E; try (destruct (find _ _)); try discriminate; apply H; reflexivity.
Qed.

Lemma first_some_spec {A B} (f : A -> option B) l y : first_some (map f l) = Some y <-> exists x, first (fun z => f z <> None) l x /\ f x = Some y.
Proof.
  unfold first_some. induction l as [|c l IH]; cbn [map somes].
  - split; [discriminate|]. intros [x [[a [b [E _]]] _]]. destruct a; discriminate E.
  - destruct (f c) as [z|] eqn:E.
    + split.
      * intros H. injection H as <-. exists c. split; [|exact E]. apply first_cons. left. split; [rewrite E; discriminate | reflexivity].
      * intros [x [H Hx]]. apply first_cons in H. destruct H as [[_ ->] | [H _]]; [congruence | rewrite E in H; exfalso; apply H; discriminate].
    + rewrite IH. split; intros [x [H Hx]]; exists x; (split; [|exact Hx]).
      * apply first_cons. right. split; [rewrite E; exact (fun K => K eq_refl) | exact H].
      * apply first_cons in H. destruct H as [[H _] | [_ H]]; [rewrite E in H; contradiction | exact H].
Qed.
Lemma first_some_None {A B} (f : A -> option B) l : first_some (map f l) = None <-> forall x, In x l -> f x = None.
Proof.
  unfold first_some. induction l as [|c l IH]; cbn [map somes]; [split; [intros _ x [] | reflexivity]|]. destruct (f c) as [z|] eqn:E.
  - split; [discriminate|]. intros H. specialize (H c (or_introl eq_refl)). congruence.
  - rewrite IH. split; [intros H x [<- | Hx]; [exact E | exact (H x Hx)] | intros H x Hx; exact (H x (or_intror Hx))].
Qed.

(** * Prefixes of the symbol table *)
Definition upto (p : prog) (l : list (N * symbol)) : prog :=
  mkProg (pg_target p) (pg_defines p) (pg_declares p) (pg_sizes p) l (pg_undefined p) (pg_tags p) (pg_text p).
Lemma upto_all p : upto p (pg_defined p) = p.
Proof. destruct p. reflexivity. Qed.

Definition Qdef (p : prog) (s : fnsig) (ns : list str) : Prop := exists n d, first (has_def p) ns n /\ In (n, d) (pg_defines p) /\ s = d_sig d.
Definition Qdecl (p : prog) (s : fnsig) (ns : list str) : Prop :=
  exists n, (forall m, In m ns -> ~ has_def p m) /\ first (has_decl p) ns n /\ In (n, Some s) (pg_declares p).
Definition Quntyped (p : prog) (ns : list str) : Prop :=
  exists n, choose p ns n /\ (forall m, In m ns -> ~ has_def p m /\ ~ has_decl p m) /\ ~ outlined_name n.
Definition at_ (p : prog) (i : nat) (Q : list str -> Prop) : Prop := exists ns, names_at p i ns /\ Q ns.

Lemma names_at_unique p i a b : names_at p i a -> names_at p i b -> a = b.
Proof. intros [x [E1 ->]] [y [E2 ->]]. rewrite E1 in E2. injection E2 as ->. reflexivity. Qed.
Lemma typed_by_def_at p i s : typed_by_def p i s <-> at_ p i (Qdef p s).
Proof. split; [intros [ns [n [d [H1 H2]]]]; exists ns; split; [exact H1|]; exists n, d; exact H2 | intros [ns [H1 [n [d H2]]]]; exists ns, n, d; tauto]. Qed.
Lemma typed_by_decl_at p i s : typed_by_decl p i s <-> at_ p i (Qdecl p s).
Proof. split; [intros [ns [n [H1 H2]]]; exists ns; split; [exact H1|]; exists n; exact H2 | intros [ns [H1 [n H2]]]; exists ns, n; tauto]. Qed.
Lemma untyped_at p i : untyped_fn p i <-> at_ p i (Quntyped p).
Proof.
  split.
  - intros [ns [n [H1 [[ns' [H2 H3]] [H4 H5]]]]]. rewrite (names_at_unique _ _ _ _ H2 H1) in H3. exists ns. split; [exact H1|]. exists n. split; [exact H3 | split; assumption].
  - intros [ns [H1 [n [H2 [H3 H4]]]]]. exists ns, n. repeat split; try tauto; try (apply H3; assumption). exists ns. split; assumption.
Qed.
Lemma at_upto p l i Q : at_ (upto p l) i Q <-> exists x, nth_error l i = Some x /\ Q (real_names x).
Proof. split; [intros [ns [[x [E ->]] H]]; exists x; split; assumption | intros [x [E H]]; exists (real_names x); split; [exists x; split; [exact E | reflexivity] | exact H]]. Qed.
Lemma nth_snoc {A} (l : list A) x i y : nth_error (l ++ [x]) i = Some y <-> nth_error l i = Some y \/ (i = length l /\ y = x).
Proof.
  split.
  - intros H. destruct (Nat.lt_ge_cases i (length l)) as [L | L]; [rewrite nth_error_app1 in H by exact L; left; exact H|].
    right. rewrite nth_error_app2 in H by exact L. destruct (i - length l) as [|k] eqn:E; [injection H as <-; split; [lia | reflexivity]|].
    destruct k; discriminate H.
  - intros [H | [-> ->]].
    + rewrite nth_error_app1; [exact H|]. apply nth_error_Some. rewrite H. discriminate.
    + rewrite nth_error_app2 by lia. rewrite Nat.sub_diag. reflexivity.
Qed.
Lemma at_snoc p l x i Q : at_ (upto p (l ++ [x])) i Q <-> at_ (upto p l) i Q \/ (i = length l /\ Q (real_names x)).
Proof.
  rewrite !at_upto. split.
  - intros [y [E H]]. apply nth_snoc in E. destruct E as [E | [-> ->]]; [left; exists y; split; assumption | right; split; [reflexivity | exact H]].
  - intros [[y [E H]] | [-> H]]; [exists y | exists x]; (split; [|exact H]); apply nth_snoc; [left; exact E | right; split; reflexivity].
Qed.
Lemma at_lt p l i Q : at_ (upto p l) i Q -> i < length l.
Proof. intros H. apply at_upto in H. destruct H as [x [E _]]. apply nth_error_Some. rewrite E. discriminate. Qed.

(** No name at two addresses. *)
Lemma nodup_app {A} (a b : list A) : NoDup (a ++ b) -> NoDup a /\ NoDup b /\ forall x, In x a -> In x b -> False.
Proof.
  induction a as [|c a IH]; cbn [app]; intros H; [split; [constructor | split; [exact H | intros x []]]|].
  inversion H as [|? ? H1 H2]; subst. destruct (IH H2) as [Ha [Hb D]]. rewrite in_app_iff in H1. split; [|split].
  - constructor; [tauto | exact Ha].
  - exact Hb.
  - intros x [<- | Hx] Hy; [tauto | exact (D x Hx Hy)].
Qed.
Lemma flat_map_nodup {A B} (f : A -> list B) l : NoDup (flat_map f l) -> forall i j x y n, nth_error l i = Some x -> nth_error l j = Some y ->
  In n (f x) -> In n (f y) -> i = j.
Proof.
  induction l as [|c l IH]; intros H i j x y n Ei Ej Hx Hy; [destruct i; discriminate|]. cbn [flat_map] in H.
  destruct (nodup_app _ _ H) as [_ [H2 D]].
  assert (K : forall k z, nth_error l k = Some z -> In n (f z) -> In n (flat_map f l)).
  { intros k z E Hz. apply in_flat_map. exists z. split; [exact (nth_error_In _ _ E) | exact Hz]. }
  destruct i as [|i], j as [|j]; cbn [nth_error] in Ei, Ej.
  - reflexivity.
  - injection Ei as <-. exfalso. exact (D n Hx (K j y Ej Hy)).
  - injection Ej as <-. exfalso. exact (D n Hy (K i x Ei Hx)).
  - f_equal. exact (IH H2 i j x y n Ei Ej Hx Hy).
Qed.
Definition names_ok (l : list (N * symbol)) : Prop := NoDup (flat_map real_names l).
Lemma names_ok_prefix l1 l2 : names_ok (l1 ++ l2) -> names_ok l1.
Proof. unfold names_ok. rewrite flat_map_app. intros H. apply (nodup_app _ _ H). Qed.
Lemma at_inj p l i j n (Q1 Q2 : list str -> Prop) : names_ok l -> (forall ns, Q1 ns -> In n ns) -> (forall ns, Q2 ns -> In n ns) ->
  at_ (upto p l) i Q1 -> at_ (upto p l) j Q2 -> i = j.
Proof.
  intros H H1 H2 A1 A2. apply at_upto in A1. destruct A1 as [x [Ex Qx]]. apply at_upto in A2. destruct A2 as [y [Ey Qy]].
  exact (flat_map_nodup _ _ H i j x y n Ex Ey (H1 _ Qx) (H2 _ Qy)).
Qed.

(** * Signatures *)
Lemma add_candidate_keys m s j : forall x, In x (map fst (add_candidate m s j)) <-> In x (map fst m) \/ x = s.
Proof.
  induction m as [|[a b] m IH]; intros x; cbn [add_candidate map fst In]; [intuition|].
  destruct (sig_eqb a s) eqn:E; cbn [map fst In]; [apply sig_eqb_eq in E; subst; intuition|]. rewrite IH. tauto.
Qed.
Lemma add_candidate_nodup m s j : NoDup (map fst m) -> NoDup (map fst (add_candidate m s j)).
Proof.
  induction m as [|[a b] m IH]; intros H; cbn [add_candidate map fst]; [constructor; [exact (fun H => H) | constructor]|].
  inversion H as [|? ? H1 H2]; subst. destruct (sig_eqb a s) eqn:E; cbn [map fst]; [constructor; assumption|]. constructor; [|exact (IH H2)].
  rewrite add_candidate_keys. intros [X | X]; [exact (H1 X)|]. subst. assert (Y : sig_eqb s s = true) by (apply sig_eqb_eq; reflexivity). congruence.
Qed.
Lemma add_candidate_In m s j : NoDup (map fst m) -> forall a ind, In (a, ind) (add_candidate m s j) <->
  (a <> s /\ In (a, ind) m) \/
  (a = s /\ ((exists old, In (s, old) m /\ ind = mkInd (ic_called old) (ic_callers old) (ninsert (ic_callees old) j)) \/
             (~ In s (map fst m) /\ ind = mkInd false [] [j]))).
Proof.
  induction m as [|[b c] m IH]; intros H a ind; cbn [add_candidate].
  - cbn [In map]. split.
    + intros [E | []]. injection E as <- <-. right. split; [reflexivity|]. right. split; [tauto | reflexivity].
    + intros [[_ []] | [-> [[old [[] _]] | [_ ->]]]]. left. reflexivity.
  - cbn [map fst] in H. inversion H as [|? ? H1 H2]; subst. destruct (sig_eqb b s) eqn:E.
    + apply sig_eqb_eq in E. subst b. cbn [In map fst]. split.
      * intros [X | X].
        -- injection X as <- <-. right. split; [reflexivity|]. left. exists c. split; [left; reflexivity | reflexivity].
        -- left. split; [|right; exact X]. intros ->. apply H1. apply (in_map fst) in X. exact X.
      * intros [[N [X | X]] | [-> [[old [[X | X] ->]] | [N _]]]].
        -- injection X as X _. congruence.
        -- right. exact X.
        -- injection X as <-. left. reflexivity.
        -- exfalso. apply H1. apply (in_map fst) in X. exact X.
        -- exfalso. apply N. left. reflexivity.
    + assert (N : b <> s) by (intros ->; assert (Y : sig_eqb s s = true) by (apply sig_eqb_eq; reflexivity); congruence).
      cbn [In map fst]. rewrite (IH H2). split.
      * intros [X | [[N' X] | [-> [[old [X ->]] | [X ->]]]]].
        -- injection X as <- <-. left. split; [exact N | left; reflexivity].
        -- left. split; [exact N' | right; exact X].
        -- right. split; [reflexivity|]. left. exists old. split; [right; exact X | reflexivity].
        -- right. split; [reflexivity|]. right. split; [intros [Y | Y]; [exact (N Y) | exact (X Y)] | reflexivity].
      * intros [[N' [X | X]] | [-> [[old [[X | X] ->]] | [X ->]]]].
        -- left. exact X.
        -- right. left. split; assumption.
        -- injection X as X _. contradiction.
        -- right. right. split; [reflexivity|]. left. exists old. split; [exact X | reflexivity].
        -- right. right. split; [reflexivity|]. right. split; [intros Y; apply X; right; exact Y | reflexivity].
Qed.
Lemma fmt_receiver_spec s r : fmt_receiver s = Some r <-> s = fmt_sig r.
Proof.
  destruct s as [i o]. unfold fmt_receiver, fmt_sig. cbn [inputs output]. split.
  - destruct i as [|[] [|[] [|]]]; try discriminate. destruct o as [o|]; [|discriminate].
    destruct (ty_eqb t0 formatter) eqn:E1; cbn [andb]; [|discriminate]. destruct (ty_eqb o (TInt 1)) eqn:E2; [|discriminate]. intros E. injection E as ->.
    apply ty_eqb_eq in E1. apply ty_eqb_eq in E2. subst. reflexivity.
  - intros E. injection E as -> ->. reflexivity.
Qed.
