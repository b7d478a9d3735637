(** Lemmas: the edges of function pointers, one by one, and those of the whole graph. *)
From Coq Require Import Permutation.
From Coq Require FinFun.
From Verif Require Import M_base M_stack M_graph M_analysis M_filter M_names M_thumb M_ty M_parse M_build S_names S_build S_calls L_base L_names L_build1 L_build2 L_build3 L_build4 L_build5 L_build9 L_calls1 L_calls2.

Inductive ptrE (p : prog) (void : option str) : key -> key -> Prop :=
| pe_pointer i s : calls_sig p i s -> ptrE p void (KReal i) (KSig s)
| pe_pointee s j : called_sig p s -> pointee p void s j -> ptrE p void (KSig s) (KReal j)
| pe_outside s : called_sig p s -> untyped p -> ptrE p void (KSig s) (KExt s).

Section Indirect.
Variables (p : prog) (o : orders) (m : list (fnsig * icall)) (fmts : list nat) (unt : bool).
Hypothesis (Fo : fair o) (S : SIGS p m fmts unt).
Notation void := (one_true_void (map fst (o_sigs o m))).
Notation PTR := (PTR p o m).

Record PCNT (base : list (nat * nat)) (g : graph node) (ks : list key) (P : list (nat * nat)) : Prop := {
  pc_all : gedges g = base ++ P;
  pc_once : NoDup P;
  pc_in : forall u v, In (u, v) P <-> exists k l, nth_error ks u = Some k /\ nth_error ks v = Some l /\ ptrE p void k l
}.
Lemma ptr_count base q s ind g ks P : In (s, ind) m -> ~ In s q -> PTR q g ks -> PCNT base g ks P ->
  exists P', PCNT base (add_indirect o unt fmts void g (s, ind)) (ks ++ if ic_called ind then KSig s :: (if unt then [KExt s] else []) else []) P'.
Proof.
  intros Hm Hq H T. pose proof (ptr_step p o m fmts unt Fo S _ _ _ _ _ Hm Hq H) as H'.
  destruct (sg_ind _ _ _ _ S s ind Hm) as [Cal [Crs [CrN [Ces CeN]]]]. destruct (ic_called ind) eqn:Ec.
  2:{ unfold add_indirect. rewrite Ec. cbn [negb]. exists P. rewrite app_nil_r. exact T. }
  rewrite (add_indirect_eq _ _ _ _ _ _ _ Ec) in *. pose proof (proj1 Cal eq_refl) as CS.
  assert (Len : length (gnodes g) = length ks) by (symmetry; exact (Forall2_len _ _ _ (pt_show _ _ _ _ _ _ H))). rewrite Len in *.
  set (L := length ks) in *. set (ext := if unt then [KExt s] else []) in *.
  assert (Uiff : unt = true <-> untyped p) by exact (sg_untyped _ _ _ _ S).
  assert (Cr : forall i, In i (o_callers o s (ic_callers ind)) <-> calls_sig p i s).
  { intros i. rewrite <- Crs. pose proof (fair_callers _ Fo s (ic_callers ind)) as Pm. split; apply Permutation_in; [exact Pm | symmetry; exact Pm]. }
  assert (Ce : forall j, In j (o_callees o s (if special_fmt void s then fmts else ic_callees ind)) <-> pointee p void s j).
  { intros j. rewrite <- (callees_pointee p o m fmts unt S s ind j Hm). pose proof (fair_callees _ Fo s (if special_fmt void s then fmts else ic_callees ind)) as Pm.
    split; apply Permutation_in; [exact Pm | symmetry; exact Pm]. }
  assert (nthS : nth_error (ks ++ KSig s :: ext) L = Some (KSig s)) by (unfold L; rewrite nth_error_app2, Nat.sub_diag by lia; reflexivity).
  assert (nthX : unt = true -> nth_error (ks ++ KSig s :: ext) (Datatypes.S L) = Some (KExt s)).
  { intros U. unfold L, ext. rewrite nth_error_app2 by lia. replace (Datatypes.S (length ks) - length ks) with 1 by lia. rewrite U. reflexivity. }
  assert (nthR : forall i, i < length (pg_defined p) -> nth_error (ks ++ KSig s :: ext) i = Some (KReal i)) by (intros i Hi; apply nth_app_l; exact (pt_real _ _ _ _ _ _ H i Hi)).
  assert (RL : forall i, i < length (pg_defined p) -> i < L) by (intros i Hi; unfold L; apply nth_error_Some; rewrite (pt_real _ _ _ _ _ _ H i Hi); discriminate).
  assert (Same : forall v w l, nth_error (ks ++ KSig s :: ext) v = Some l -> nth_error (ks ++ KSig s :: ext) w = Some l -> v = w).
  { intros v w l K1 K2. apply (proj1 (NoDup_nth_error _) (pt_keys _ _ _ _ _ _ H')); [apply nth_error_Some; rewrite K1; discriminate | congruence]. }
  assert (Old : forall v k, nth_error (ks ++ KSig s :: ext) v = Some k -> k <> KSig s -> k <> KExt s -> nth_error ks v = Some k).
  { intros v k K N1 N2. destruct (Nat.lt_ge_cases v (length ks)) as [Lv|Lv]; [now rewrite nth_error_app1 in K|]. rewrite nth_error_app2 in K by exact Lv. apply nth_error_In in K. unfold ext in K.
    destruct K as [K|K]; [now destruct N1|]. destruct unt; [|destruct K]. destruct K as [K|[]]. now destruct N2. }
  set (newE := map (fun c => (c, L)) (o_callers o s (ic_callers ind)) ++ (if unt then [(L, Datatypes.S L)] else []) ++
               map (fun c => (L, c)) (o_callees o s (if special_fmt void s then fmts else ic_callees ind))) in *.
  assert (NE : forall u v, In (u, v) newE <-> (v = L /\ calls_sig p u s) \/ (unt = true /\ u = L /\ v = Datatypes.S L) \/ (u = L /\ pointee p void s v)).
  { intros u v. unfold newE. rewrite !in_app_iff, !in_map_iff. split.
    - intros [[c [K1 K2]] | [K | [c [K1 K2]]]].
      + injection K1 as <- <-. left. split; [reflexivity | apply Cr; exact K2].
      + right. left. destruct unt; [|destruct K]. destruct K as [K | []]. injection K as <- <-. repeat split.
      + injection K1 as <- <-. right. right. split; [reflexivity | apply Ce; exact K2].
    - intros [[-> K] | [[-> [-> ->]] | [-> K]]].
      + left. exists u. split; [reflexivity | apply Cr; exact K].
      + right. left. left. reflexivity.
      + right. right. exists v. split; [reflexivity | apply Ce; exact K]. }
  destruct T as [T1 T2 T3]. exists (P ++ newE). constructor; cbn [gedges].
  - now rewrite T1, app_assoc.
  - apply NoDup_app_intro; [exact T2 | |].
    + unfold newE. apply NoDup_app_intro; [|apply NoDup_app_intro|].
      * apply FinFun.Injective_map_NoDup; [intros a b X; injection X as X; exact X|]. apply (Permutation_NoDup (Permutation_sym (fair_callers _ Fo s (ic_callers ind)))). exact CrN.
      * destruct unt; repeat constructor. cbn. tauto.
      * apply FinFun.Injective_map_NoDup; [intros a b X; injection X as X; exact X|]. apply (Permutation_NoDup (Permutation_sym (fair_callees _ Fo s _))).
        destruct (special_fmt void s); [exact (sg_fmts_nodup _ _ _ _ S) | exact CeN].
      * intros [a b] X Y. apply in_map_iff in Y. destruct Y as [c [Y1 Y2]]. injection Y1 as <- <-. apply Ce in Y2. apply pointee_lt in Y2. apply RL in Y2.
        destruct unt; [|destruct X]. destruct X as [X | []]. injection X as X. lia.
      * intros [a b] X Y. apply in_map_iff in X. destruct X as [c [X1 X2]]. injection X1 as <- <-. apply Cr in X2. apply calls_lt in X2. apply RL in X2.
        apply in_app_or in Y. destruct Y as [Y | Y]; [destruct unt; [|destruct Y]; destruct Y as [Y | []]; injection Y as Y; lia|].
        apply in_map_iff in Y. destruct Y as [d [Y _]]. injection Y as Y. lia.
    + intros [u v] X Y. apply T3 in X. destruct X as [k [l [X1 [X2 _]]]].
      assert (u < L) by (unfold L; apply nth_error_Some; rewrite X1; discriminate). assert (v < L) by (unfold L; apply nth_error_Some; rewrite X2; discriminate).
      apply NE in Y. destruct Y as [[-> _] | [[_ [-> _]] | [-> _]]]; lia.
  - intros u v. rewrite in_app_iff, T3, NE. split.
    + intros [[k [l [A [B K]]]]|[[-> K]|[[U [-> ->]]|[-> K]]]].
      * exists k, l. split; [now apply nth_app_l | split; [now apply nth_app_l | exact K]].
      * exists (KReal u), (KSig s). split; [apply nthR; exact (calls_lt _ _ _ K) | split; [exact nthS | now apply pe_pointer]].
      * exists (KSig s), (KExt s). split; [exact nthS | split; [exact (nthX U)|]]. apply pe_outside; [exact CS | now apply Uiff].
      * exists (KSig s), (KReal v). split; [exact nthS | split; [apply nthR; exact (pointee_lt _ _ _ _ _ K) | now apply pe_pointee]].
    + assert (Dec : forall s' v', nth_error (ks ++ KSig s :: ext) v' = Some (KSig s') -> (s' = s /\ v' = L) \/ (s' <> s /\ nth_error ks v' = Some (KSig s'))).
      { intros s' v' K. destruct (Nat.eq_dec v' L) as [->|N]; [left; rewrite nthS in K; now injection K as <-|]. right.
        assert (Ns : s' <> s) by (intros ->; apply N; exact (Same _ _ _ K nthS)). split; [exact Ns|]. apply Old; [exact K | congruence | discriminate]. }
      intros [k [l [A [B K]]]]. destruct K as [i s' K|s' j K1 K2|s' K1 K2].
      * assert (u = i) as -> by (apply (Same _ _ _ A); apply nthR; exact (calls_lt _ _ _ K)).
        destruct (Dec _ _ B) as [[-> ->]|[Ns B']]; [right; left; now split|]. left. exists (KReal i), (KSig s'). split; [apply Old; [exact A | discriminate | discriminate]|]. split; [exact B' | now apply pe_pointer].
      * assert (v = j) as -> by (apply (Same _ _ _ B); apply nthR; exact (pointee_lt _ _ _ _ _ K2)).
        destruct (Dec _ _ A) as [[-> ->]|[Ns A']]; [right; right; right; now split|]. left. exists (KSig s'), (KReal j). split; [exact A'|]. split; [apply Old; [exact B | discriminate | discriminate] | now apply pe_pointee].
      * destruct (Dec _ _ A) as [[-> ->]|[Ns A']].
        -- right. right. left. pose proof (proj2 Uiff K2) as U. split; [exact U|]. split; [reflexivity|]. exact (Same _ _ _ B (nthX U)).
        -- left. exists (KSig s'), (KExt s'). split; [exact A'|]. split; [apply Old; [exact B | discriminate | congruence] | now apply pe_outside].
Qed.
Lemma ptr_counts base l2 : forall l1 g ks P, o_sigs o m = l1 ++ l2 -> PTR (map fst l1) g ks -> PCNT base g ks P ->
  exists ex P', PTR (map fst (o_sigs o m)) (fold_left (add_indirect o unt fmts void) l2 g) (ks ++ ex) /\ PCNT base (fold_left (add_indirect o unt fmts void) l2 g) (ks ++ ex) P'.
Proof.
  induction l2 as [|[s ind] l2 IH]; intros l1 g ks P E H T; cbn [fold_left].
  - exists [], P. split; [rewrite E, app_nil_r; rewrite app_nil_r; exact H | now rewrite app_nil_r].
  - assert (Pm : Permutation (o_sigs o m) m) by exact (fair_sigs _ Fo m).
    assert (Hm : In (s, ind) m) by (apply (Permutation_in _ Pm); rewrite E; apply in_elt).
    assert (Hq : ~ In s (map fst l1)).
    { assert (ND : NoDup (map fst (o_sigs o m))) by (apply (Permutation_NoDup (Permutation_map fst (Permutation_sym Pm))); exact (sg_keys _ _ _ _ S)).
      rewrite E, map_app in ND. apply nodup_app in ND. destruct ND as [_ [_ D]]. intros K. apply (D s K). left. reflexivity. }
    pose proof (ptr_step p o m fmts unt Fo S _ _ _ _ _ Hm Hq H) as H'. destruct (ptr_count base _ _ _ _ _ P Hm Hq H T) as [P' T'].
    set (ex := if ic_called ind then _ else _) in H', T'.
    destruct (IH (l1 ++ [(s, ind)]) (add_indirect o unt fmts void g (s, ind)) (ks ++ ex) P') as [ex' [P2 K]]; [rewrite <- app_assoc; exact E | rewrite map_app; exact H' | exact T'|].
    exists (ex ++ ex'), P2. rewrite app_assoc. exact K.
Qed.
End Indirect.
