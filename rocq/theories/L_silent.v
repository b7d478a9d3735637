(** Runs that log nothing: lemmas for C106. *)
From Verif Require Import M_base M_stack M_graph M_names M_thumb M_ty M_parse M_build M_run M_log S_names S_graph S_sig S_build S_run S_log S_silent.
From Verif Require Import L_base L_build1 L_build2 L_build3 L_build4 L_build5 L_build6 L_build7 L_run L_report L_log3 L_log4 L_log7 L_log8.

Section Silent.
Variables (demangle : str -> str) (o : orders) (start : option str) (p : prog) (g : graph node) (cs : list (list nat)).
Hypothesis (W : wf_prog p) (Fo : fair o) (E : report_log demangle o start p = ([], Ret (g, cs))).
Lemma silent_cast i f j : body p i (BitcastCall (Some f)) -> live p f j -> chosen p j f.
Proof.
  intros B L. destruct (told demangle o start p [] g cs W Fo E) as [void [_ [_ Un]]]. pose proof (proj1 Un eq_refl) as U.
  destruct (notes_trace demangle p start [] (report_log_notes _ _ _ _ _ _ W Fo E)) as [tr T].
  assert (F : first_cast p f).
  { apply (trace_body p W _ T) in B. destruct (split_first _ (is_cast f) tr _ B (ex_intro _ i eq_refl)) as [pre [y [post [Ep [[k ->] K]]]]]. exists tr, pre, k, post. split; [exact T|]. split; [exact Ep|].
    intros [h st] J [[E1 [E2 [E3 E4]]]|[E1 _]]; cbn [snd] in E1; subst st; [exact (E4 j L) | exact (K _ J (ex_intro _ h eq_refl))]. }
  destruct (un_cast _ _ _ _ U f F) as [j' C]. rewrite (live_inj p W f j j' L (chosen_live p _ _ C)). exact C.
Qed.
Theorem silent_covered i : covered_fn p i <-> forall c, avoids p i c.
Proof.
  split.
  - intros [c1 c2 c3 c4 c5 c6 c7 c8 c9] [| | | |]; try assumption. intros _. exact c7.
  - intros H. destruct (told demangle o start p [] g cs W Fo E) as [void [_ [_ Un]]]. pose proof (proj1 Un eq_refl) as U. destruct (built_of demangle o start p [] g cs E) as [b [Eb _]]. constructor.
    + exact (H OfMemcmp).
    + intros f j. apply silent_cast.
    + exact (H ByIntrinsic).
    + exact (H OfFormatting).
    + intros N. destruct (un_typed _ _ _ _ U N).
    + exact (H OfSecondType).
    + destruct (is_thumb (pg_target p)) eqn:T; [exact (code_read demangle o p b i W Eb T (un_text _ _ _ _ U T)) | exact (H ByUnread T)].
    + intros T N. destruct (un_text _ _ _ _ U T N).
    + intros [A _]. exact (un_asm _ _ _ _ U i A).
Qed.
Theorem silent_bounds :
  exists ks, length ks = node_count g /\
    (forall k i n nd, nth_error ks k = Some (KReal i) -> nth_error (gnodes g) k = Some nd -> nmax nd = Some (MExact n) -> below_2_64 g k ->
       forall l, runs p i l -> (forall x c, In x l -> avoids p x c) -> exists d, depth p l d /\ (d <= n)%N) /\
    (no_start demangle p start -> forall i, i < length (pg_defined p) -> nth_error ks i = Some (KReal i)) /\
    (forall s k, start = Some s -> denotes demangle p s k -> nth_error ks 0 = Some k) /\
    (forall k key nd, nth_error ks k = Some key -> nth_error (gnodes g) k = Some nd -> shows demangle p key nd).
Proof.
  destruct (built_of demangle o start p [] g cs E) as [b [Eb Ef]]. destruct (covered_bounds demangle o p b W Fo Eb start g cs Ef) as [ks [L [H R]]].
  exists ks. split; [exact L|]. split; [|exact R]. intros k i n nd K1 K2 K3 K4 l Rl A. apply (H k i n nd K1 K2 K3 K4 l Rl). intros x I. apply silent_covered. intros c. exact (A x c I).
Qed.
End Silent.
