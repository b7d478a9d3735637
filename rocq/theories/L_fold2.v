(** Functions put at one address have the same exact maxima. *)
From Verif Require Import M_base M_stack M_graph M_analysis M_filter M_names M_thumb M_ty M_parse M_render M_build M_run
  S_names S_sig L_base L_ir2 L_driver3 L_filter2 S_graph S_mono S_build S_run S_below S_fold L_build1 L_build3 L_build6 L_build8 L_run L_below L_fewer L_fold.

(** ** Both ways *)
Lemma one_void_there p q : one_void p -> (forall v, true_void q v <-> true_void p v) -> one_void q.
Proof. intros Ov V v w A B. apply Ov; apply V; assumption. Qed.
Lemma both_ways (m m' : maxv) : (exact m' -> (num m <= num m')%N /\ exact m) -> (exact m -> (num m' <= num m)%N /\ exact m') -> (exact m <-> exact m') /\ (exact m -> m = m').
Proof.
  intros A B. split; [split; intros E; [exact (proj2 (B E)) | exact (proj2 (A E))]|]. intros E. destruct (B E) as [L E']. destruct (A E') as [L' _]. destruct m as [n|n], m' as [n'|n']; try destruct E; try destruct E'.
  cbn [num] in *. f_equal. apply N.le_antisymm; assumption.
Qed.
Theorem both_exact demangle o o' p q F i i' g cs g' cs' m m' : wf_prog p -> wf_prog q -> fair o -> fair o' -> one_void p -> fits p -> fits q ->
  settled p (on_left F) -> followed p q F -> settled q (on_left (flipped F)) -> followed q p (flipped F) -> F i i' -> i < length (pg_defined p) -> i' < length (pg_defined q) ->
  report demangle o None p = Ret (g, cs) -> report demangle o' None q = Ret (g', cs') -> reported g i m -> reported g' i' m' -> (exact m <-> exact m') /\ (exact m -> m = m').
Proof.
  intros W W' Fr Fr' Ov Ft Ft' St Fo St' Fo' A Hi Hf Rp Rp' M M'. pose proof (one_void_there p q Ov (fo_void _ _ _ Fo)) as Ov'. apply both_ways; intros Ex.
  - exact (followed_exact demangle o o' p q F i i' g cs g' cs' m m' W W' Fr Fr' Ov Ft' St Fo A Hi Hf Rp Rp' M M' Ex).
  - exact (followed_exact demangle o' o q p (flipped F) i' i g' cs' g cs m' m W' W Fr' Fr Ov' Ft St' Fo' A Hf Hi Rp' Rp M' M Ex).
Qed.

(** ** Folding *)
Section Fold.
Variables (p q : prog) (f : nat -> nat).
Hypothesis (W : wf_prog p) (B : folded_by p q f).
Definition folds (j y : nat) : Prop := y = f j /\ exists n, live p n j.
Lemma def_there n : has_def q n <-> has_def p n.
Proof. unfold has_def. rewrite (fb_defines _ _ _ B). reflexivity. Qed.
Lemma live_there n j : live p n j -> live q n (f j).
Proof. intros L. apply (fb_live _ _ _ B). exists j. split; [exact L | reflexivity]. Qed.
(** The type of a function of one name. *)
Lemma type_here n j d : live p n j -> In (n, d) (pg_defines p) -> typed_by_def p j (d_sig d).
Proof.
  intros L I. destruct L as [ns [Nm In_]]. destruct ns as [|x ns]; [destruct In_|].
  assert (x = n) by (apply (fb_one _ _ _ B x n j); [exists (x :: ns); split; [exact Nm | left; reflexivity] | exists (x :: ns); split; assumption]). subst x.
  exists (n :: ns), n, d. split; [exact Nm|]. split; [apply first_here; exists d; exact I|]. split; [exact I | reflexivity].
Qed.
Lemma def_live r j s : (r = p \/ r = q) -> typed r j s -> exists n, live r n j.
Proof.
  intros _ [[ns [n [d [Nm [Fi _]]]]]|[ns [n [Nm [_ [Fi _]]]]]]; exists n, ns; (split; [exact Nm | exact (proj1 (first_In _ _ _ Fi))]).
Qed.
Lemma types_def j s : typed p j s -> typed_by_def p j s.
Proof.
  intros [T|[ns [n [Nm [Nd [Fi _]]]]]]; [exact T|]. destruct (first_In _ _ _ Fi) as [I _]. destruct (Nd n I). apply (fb_defined _ _ _ B n j). exists ns. split; assumption.
Qed.
Lemma types_def_there y s : typed q y s -> typed_by_def q y s.
Proof.
  intros [T|[ns [n [Nm [Nd [Fi _]]]]]]; [exact T|]. destruct (first_In _ _ _ Fi) as [I _]. destruct (Nd n I). apply def_there.
  assert (L : live q n y) by (exists ns; split; assumption). apply (fb_live _ _ _ B) in L as [j [L _]]. exact (fb_defined _ _ _ B n j L).
Qed.
Lemma def_one n d d' : In (n, d) (pg_defines p) -> In (n, d') (pg_defines p) -> d = d'.
Proof.
  intros A C. pose proof (wf_defines p W) as Nd. clear - A C Nd. induction (pg_defines p) as [|x l IH]; [destruct A|]. cbn [map] in Nd. inversion Nd as [|y l' N Nd']; subst.
  destruct A as [->|A], C as [E|C]; [injection E as ->; reflexivity | destruct N; exact (in_map fst _ _ C) | subst x; destruct N; exact (in_map fst _ _ A) | exact (IH A C Nd')].
Qed.
Lemma type_one j s s' : typed_by_def p j s -> typed_by_def p j s' -> s = s'.
Proof.
  intros [ns [n [d [Nm [Fi [I ->]]]]]] [ns' [n' [d' [Nm' [Fi' [I' ->]]]]]].
  assert (n = n') by (apply (fb_one _ _ _ B n n' j); [exists ns; split; [exact Nm | exact (proj1 (first_In _ _ _ Fi))] | exists ns'; split; [exact Nm' | exact (proj1 (first_In _ _ _ Fi'))]]). subst n'. rewrite (def_one n d d' I I'). reflexivity.
Qed.
Lemma type_back y s : typed_by_def q y s -> exists j, folds j y /\ typed_by_def p j s.
Proof.
  intros [ns [n [d [Nm [Fi [I ->]]]]]]. assert (L : live q n y) by (exists ns; split; [exact Nm | exact (proj1 (first_In _ _ _ Fi))]).
  apply (fb_live _ _ _ B) in L as [j [L ->]]. rewrite (fb_defines _ _ _ B) in I. exists j. split; [split; [reflexivity | exists n; exact L] | exact (type_here n j d L I)].
Qed.
Lemma type_there j s : typed_by_def p j s -> typed_by_def q (f j) s.
Proof.
  intros T. destruct (def_live p j s (or_introl eq_refl) (or_introl T)) as [n L]. pose proof (live_there n j L) as L'. destruct L' as [ns [Nm I]]. destruct ns as [|x ns]; [destruct I|].
  assert (Lx : live q x (f j)) by (exists (x :: ns); split; [exact Nm | left; reflexivity]). apply (fb_live _ _ _ B) in Lx as [k [Lx Ek]].
  destruct (fb_defined _ _ _ B x k Lx) as [d Id]. pose proof (type_here x k d Lx Id) as Tk.
  pose proof (type_one j _ _ T (types_def _ _ (fb_type _ _ _ B k j _ (eq_sym Ek) (or_introl Tk) n L))) as ->.
  exists (x :: ns), x, d. split; [exact Nm|]. split; [apply first_here; exists d; rewrite (fb_defines _ _ _ B); exact Id|]. split; [rewrite (fb_defines _ _ _ B); exact Id | reflexivity].
Qed.
(** Its statements. *)
Lemma body_there j st : body p j st -> body q (f j) st.
Proof. intros [n [d [I [L S]]]]. exists n, d. rewrite (fb_defines _ _ _ B). split; [exact I|]. split; [exact (live_there n j L) | exact S]. Qed.
Lemma body_back j y st : folds j y -> body q y st -> body p j st.
Proof.
  intros [-> [m Lm]] [n [d [I [L S]]]]. rewrite (fb_defines _ _ _ B) in I. apply (fb_live _ _ _ B) in L as [k [L Ek]].
  apply (fb_body _ _ _ B k j st (eq_sym Ek)) with m; [exists n, d; split; [exact I|]; split; assumption | exact Lm].
Qed.
(** Its size. *)
Lemma sized_there n : sized q n <-> sized p n.
Proof. unfold sized. rewrite (fb_sizes _ _ _ B). reflexivity. Qed.
Lemma known_here n j : live p n j -> chosen p j n.
Proof.
  intros [ns [Nm I]]. assert (E : forall m, In m ns -> m = n) by (intros m Im; apply (fb_one _ _ _ B m n j); exists ns; split; assumption).
  exists ns. split; [exact Nm|]. destruct ns as [|x ns]; [destruct I|]. assert (x = n) by exact (E x (or_introl eq_refl)). subst x.
  destruct (sized_cases (pg_sizes p) n) as [Sz|Nz]; [left; apply first_here; exact Sz|]. right. split; [intros m Im [k Sk]; rewrite (E m Im) in Sk; exact (Nz k Sk) | apply first_here; exact Logic.I].
Qed.
Lemma size_back j y c : folds j y -> llvm_size q y c -> llvm_size p j c.
Proof.
  intros [-> [m Lm]] [n [C S]]. pose proof (chosen_live q _ _ C) as L. apply (fb_live _ _ _ B) in L as [k [L Ek]]. apply (fb_size _ _ _ B k j c (eq_sym Ek)) with m; [|exact Lm].
  exists n. split; [exact (known_here n k L)|]. destruct c as [c|]; [rewrite (fb_sizes _ _ _ B) in S; exact S | intros Z; apply S; apply sized_there; exact Z].
Qed.
Lemma no_code r j addr size a : (r = p \/ r = q) -> ~ analysed r j addr size a.
Proof. intros [->| ->] [T _]; [rewrite (fb_other _ _ _ B) in T | rewrite (fb_target _ _ _ B), (fb_other _ _ _ B) in T]; discriminate T. Qed.
Lemma fold_settled r R : (r = p \/ r = q) -> settled r R.
Proof.
  intros Er j n _ Bd. assert (Lu : forall m, ~ looks_up (DirectCall n) m).
  { intros m. destruct Er as [-> | ->]; [exact (fb_looks _ _ _ B j _ m Bd)|]. destruct Bd as [x [d [I [L S]]]]. apply (fb_live _ _ _ B) in L as [k [L _]]. rewrite (fb_defines _ _ _ B) in I. apply (fb_looks _ _ _ B k). exists x, d. split; [exact I|]. split; assumption. }
  split; [intros ->; destruct (Lu _ lu_memcmp) | intros m Lo; destruct (Lu _ (lu_lowered _ _ Lo))].
Qed.
Lemma no_untyped r : (r = p \/ r = q) -> ~ untyped r.
Proof.
  intros Er [j [ns [n [Nm [C [N _]]]]]]. pose proof (chosen_live r _ _ C) as L. destruct L as [ns' [Nm' I]].
  assert (ns' = ns) by (destruct Nm as [x [X ->]], Nm' as [x' [X' ->]]; rewrite X in X'; injection X' as ->; reflexivity). subst ns'. destruct (N n I) as [Nd _]. apply Nd.
  assert (L : live r n j) by (exists ns; split; assumption). destruct Er as [-> | ->]; [exact (fb_defined _ _ _ B n j L)|]. apply (fb_live _ _ _ B) in L as [k [L _]]. apply def_there. exact (fb_defined _ _ _ B n k L).
Qed.
Lemma fold_sig s : candidate_sig q s <-> candidate_sig p s.
Proof.
  split; intros [j T]; [apply types_def_there, type_back in T as [k [_ T]]; exists k; left; exact T | apply types_def, type_there in T; exists (f j); left; exact T].
Qed.
Lemma fold_void v : true_void q v <-> true_void p v.
Proof.
  unfold true_void, void_candidate. rewrite !fold_sig. split; intros [A C]; (split; [exact A|]); (destruct C as [C|[C D]]; [left; exact C|]); right; (split; [exact C|]); (destruct D as [D|[D E]]; [left; exact D|]); right; (split; [intros r Z; apply (D r); apply fold_sig; exact Z | intros w Z; apply E; apply fold_sig; exact Z]).
Qed.
Theorem fold_followed : followed p q folds.
Proof.
  constructor.
  - exact (fb_target _ _ _ B).
  - intros j y c A U. exists c. split; [|apply N.le_refl]. inversion U as [k T L|T L|addr size a k An|addr size a k m An|addr size a k An|addr size a k m An|addr size a k An|addr size a k An|addr size a An|addr size a An]; subst; try (destruct (no_code q _ _ _ _ (or_intror eq_refl) An)).
    apply us_llvm; [left; exact (fb_other _ _ _ B) | exact (size_back j y _ A L)].
  - intros j y st [-> _] Bd. exact (body_there j st Bd).
  - intros j y k _ [addr [size [a [An _]]]]. destruct (no_code p _ _ _ _ (or_introl eq_refl) An).
  - intros j y _ [[addr [size [a [An _]]]] _]. destruct (no_code p _ _ _ _ (or_introl eq_refl) An).
  - intros j y n k _ _ L. exists (f k). split; [split; [reflexivity | exists n; exact L] | exact (live_there n k L)].
  - intros j y st n k _ Bd Lu. destruct (fb_looks _ _ _ B j st n Bd Lu).
  - intros j y n _ _ N z L. apply (fb_live _ _ _ B) in L as [k [L _]]. exact (N k L).
  - intros j y st n _ Bd Lu. destruct (fb_looks _ _ _ B j st n Bd Lu).
  - intros j y s s' k _ _ _ T. exists (f k). split; [split; [reflexivity | exact (def_live p k s (or_introl eq_refl) T)] | left; apply type_there, types_def, T].
  - intros j y v s' r k _ _ _ T. exists (f k), r. split; [split; [reflexivity | exact (def_live p k _ (or_introl eq_refl) (or_introl T))] | apply type_there, T].
  - intros U. destruct (no_untyped p (or_introl eq_refl) U).
  - exact fold_void.
Qed.
Theorem fold_followed_back : followed q p (flipped folds).
Proof.
  constructor; unfold flipped.
  - symmetry. exact (fb_target _ _ _ B).
  - intros y j c A U. exists c. split; [|apply N.le_refl]. inversion U as [k T L|T L|addr size a k An|addr size a k m An|addr size a k An|addr size a k m An|addr size a k An|addr size a k An|addr size a An|addr size a An]; subst; try (destruct (no_code p _ _ _ _ (or_introl eq_refl) An)).
    apply us_llvm; [left; rewrite (fb_target _ _ _ B); exact (fb_other _ _ _ B)|]. destruct A as [-> [m Lm]].
    destruct (live_there m j Lm) as [ns [Nm I]]. destruct (some_chosen q (f j) ns Nm) as [n C]; [intros ->; destruct I|].
    pose proof (chosen_live q _ _ C) as L'. apply (fb_live _ _ _ B) in L' as [k [L' Ek]]. pose proof (fb_size _ _ _ B j k _ Ek L n L') as [n' [C' S]].
    rewrite (fb_one _ _ _ B n' n k (chosen_live p _ _ C') L') in S. exists n. split; [exact C | rewrite (fb_sizes _ _ _ B); exact S].
  - intros y j st A Bd. exact (body_back j y st A Bd).
  - intros y j k _ [addr [size [a [An _]]]]. destruct (no_code q _ _ _ _ (or_intror eq_refl) An).
  - intros y j _ [[addr [size [a [An _]]]] _]. destruct (no_code q _ _ _ _ (or_intror eq_refl) An).
  - intros y j n k _ _ L. apply (fb_live _ _ _ B) in L as [k' [L ->]]. exists k'. split; [split; [reflexivity | exists n; exact L] | exact L].
  - intros y j st n k A Bd Lu. destruct (fb_looks _ _ _ B j st n (body_back j y st A Bd) Lu).
  - intros y j n _ _ N k L. exact (N (f k) (live_there n k L)).
  - intros y j st n A Bd Lu. destruct (fb_looks _ _ _ B j st n (body_back j y st A Bd) Lu).
  - intros y j s s' k _ _ _ T. apply types_def_there, type_back in T as [k' [A T]]. exists k'. split; [exact A | left; exact T].
  - intros y j v s' r k _ _ _ T. apply type_back in T as [k' [A T]]. exists k', r. split; [exact A | exact T].
  - intros U. destruct (no_untyped q (or_intror eq_refl) U).
  - intros v. symmetry. exact (fold_void v).
Qed.
End Fold.
