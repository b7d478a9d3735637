(** Folding: reports, start points and printed files. *)
From Verif Require Import M_base M_stack M_graph M_analysis M_filter M_names M_thumb M_ty M_parse M_render M_build M_run M_log M_wrapper M_driver
  S_names S_graph S_filter S_render S_sig S_calls L_base L_ir2 L_driver3 L_driver4 L_driver5 L_filter2 S_build S_run S_driver S_below S_more S_prints S_fold L_build1 L_render L_run L_report L_below L_below3 L_fold L_fold2.

Theorem both_starts demangle o o' start start' p q g cs g' cs' : wf_prog p -> wf_prog q -> fair o -> fair o' -> sizes_u64 p -> sizes_u64 q -> one_void p -> fits p -> fits q ->
  report demangle o start p = Ret (g, cs) -> report demangle o' start' q = Ret (g', cs') ->
  exists ks void ks' void', pictures demangle p start ks void (gnodes g) (gedges g) /\ pictures demangle q start' ks' void' (gnodes g') (gedges g') /\
  forall F i i' k k' m m', settled p (on_left F) -> followed p q F -> settled q (on_left (flipped F)) -> followed q p (flipped F) -> F i i' ->
  nth_error ks k = Some (KReal i) -> nth_error ks' k' = Some (KReal i') -> reported g k m -> reported g' k' m' -> (exact m <-> exact m') /\ (exact m -> m = m').
Proof.
  intros W W' Fr Fr' Sz Sz' Ov Ft Ft' Rp Rp'. unfold report in Rp, Rp'. destruct (bind_inv _ _ _ Rp) as [b [E H]], (bind_inv _ _ _ Rp') as [b' [E' H']]. clear Rp Rp'.
  destruct (finish_any demangle o p b start g cs W Fr Sz E H) as [ks [void [ks0 [Pi [G X]]]]], (finish_any demangle o' q b' start' g' cs' W' Fr' Sz' E' H') as [ks' [void' [ks0' [Pi' [G' X']]]]].
  exists ks, void, ks', void'. split; [exact Pi|]. split; [exact Pi'|]. intros F i i' k k' m m' St Fo St' Fo' A K K' M M'.
  destruct (X k i m K M) as [Hi [g3 [c3 [X1 X2]]]], (X' k' i' m' K' M') as [Hf [g3' [c3' [Y1 Y2]]]]. pose proof (one_void_there p q Ov (fo_void _ _ _ Fo)) as Ov'. apply both_ways; intros Ex.
  - eapply (followed_built demangle o o' p q b b' ks0 ks0' void void' F i i'); eassumption.
  - eapply (followed_built demangle o' o q p b' b ks0' ks0 void' void (flipped F) i' i); eassumption.
Qed.
Theorem fold_starts demangle o o' start start' p q f g cs g' cs' : wf_prog p -> wf_prog q -> folded_by p q f -> fair o -> fair o' -> sizes_u64 p -> sizes_u64 q -> one_void p -> fits p -> fits q ->
  report demangle o start p = Ret (g, cs) -> report demangle o' start' q = Ret (g', cs') ->
  exists ks void ks' void', pictures demangle p start ks void (gnodes g) (gedges g) /\ pictures demangle q start' ks' void' (gnodes g') (gedges g') /\
  forall i k k' m m' n, live p n i -> nth_error ks k = Some (KReal i) -> nth_error ks' k' = Some (KReal (f i)) -> reported g k m -> reported g' k' m' -> (exact m <-> exact m') /\ (exact m -> m = m').
Proof.
  intros W W' B Fr Fr' Sz Sz' Ov Ft Ft' Rp Rp'. destruct (both_starts demangle o o' start start' p q g cs g' cs' W W' Fr Fr' Sz Sz' Ov Ft Ft' Rp Rp') as [ks [void [ks' [void' [Pi [Pi' H]]]]]].
  exists ks, void, ks', void'. split; [exact Pi|]. split; [exact Pi'|]. intros i k k' m m' n L K K' M M'.
  apply (H (folds p f) i (f i) k k' m m'); try assumption.
  - apply (fold_settled p q f B). left. reflexivity.
  - exact (fold_followed p q f W B).
  - apply (fold_settled p q f B). right. reflexivity.
  - exact (fold_followed_back p q f W B).
  - split; [reflexivity | exists n; exact L].
Qed.
Theorem fold_exact demangle o o' p q f g cs g' cs' i m m' : wf_prog p -> wf_prog q -> folded_by p q f -> fair o -> fair o' -> one_void p -> fits p -> fits q ->
  report demangle o None p = Ret (g, cs) -> report demangle o' None q = Ret (g', cs') -> (exists n, live p n i) -> reported g i m -> reported g' (f i) m' -> (exact m <-> exact m') /\ (exact m -> m = m').
Proof.
  intros W W' B Fr Fr' Ov Ft Ft' Rp Rp' [n L] M M'.
  assert (In_ : forall r x y, live r x y -> y < length (pg_defined r)) by (intros r x y [ns [[z [Z _]] _]]; apply nth_error_Some; rewrite Z; discriminate).
  apply (both_exact demangle o o' p q (folds p f) i (f i) g cs g' cs'); try assumption.
  - apply (fold_settled p q f B). left. reflexivity.
  - exact (fold_followed p q f W B).
  - apply (fold_settled p q f B). right. reflexivity.
  - exact (fold_followed_back p q f W B).
  - split; [reflexivity | exists n; exact L].
  - exact (In_ p n i L).
  - exact (In_ q n (f i) (live_there p q f B n i L)).
Qed.

(** Every program follows itself. *)
Lemma followed_refl p : followed p p eq.
Proof.
  constructor; try (intros; subst; eauto; fail); try reflexivity. intros j j' c -> U. exists c. split; [exact U | apply N.le_refl].
Qed.

Lemma followed_refl_flipped p : followed p p (flipped eq).
Proof.
  unfold flipped. constructor; try (intros; subst; eauto; fail); try reflexivity. intros j j' c E U. subst j'. exists c. split; [exact U | apply N.le_refl].
Qed.

Section Runs.
Variables (demangle : str -> str) (w w' : world) (t t' : list event) (c c' : Z).
Hypothesis (Sa : sane w) (Sa' : sane w') (M : main demangle w = (t, c)) (M' : main demangle w' = (t', c')) (C : c = 0%Z) (C' : c' = 0%Z).
Hypothesis (D : a_format (w_args w) = Dot) (D' : a_format (w_args w') = Dot).
Notation plain w p := (forall g cycles nd, report demangle (w_orders w) (a_start (w_args w)) p = Ret (g, cycles) -> In nd (gnodes g) -> no_backslash (demangle (nname nd))).
Theorem printed_both : exists target file rlib ll p out target' file' rlib' ll' q out', analyses w target file rlib ll p /\ printed t = [out] /\ analyses w' target' file' rlib' ll' q /\ printed t' = [out'] /\
  (plain w p -> plain w' q -> sizes_u64 p -> sizes_u64 q -> one_void p -> fits p -> fits q ->
   exists ks nds ks' nds', prints demangle p out ks nds /\ prints demangle q out' ks' nds' /\
   forall F i i' k k' nd nd' m m', settled p (on_left F) -> followed p q F -> settled q (on_left (flipped F)) -> followed q p (flipped F) -> F i i' ->
   nth_error ks k = Some (KReal i) -> nth_error nds k = Some nd -> nmax nd = Some m -> nth_error ks' k' = Some (KReal i') -> nth_error nds' k' = Some nd' -> nmax nd' = Some m' ->
   (exact m <-> exact m') /\ (exact m -> m = m')).
Proof.
  destruct (two_runs demangle w w' t t' c c' Sa Sa' M M' C C' D D') as [target [file [rlib [ll [p [out [target' [file' [rlib' [ll' [q [out' [A [P [A' [P' [Wf [Wf' [g [cs [g' [cs' [R [R' [Rd Rd']]]]]]]]]]]]]]]]]]]]]]]]].
  exists target, file, rlib, ll, p, out, target', file', rlib', ll', q, out'. split; [exact A|]. split; [exact P|]. split; [exact A'|]. split; [exact P'|]. intros N N' Sz Sz' Ov Ft Ft'.
  destruct (both_starts demangle _ _ _ _ p q g cs g' cs' Wf Wf' (sane_orders w Sa) (sane_orders w' Sa') Sz Sz' Ov Ft Ft' R R') as [ks [void [ks' [void' [Pi [Pi' H]]]]]].
  exists ks, (gnodes g), ks', (gnodes g'). split; [|split].
  - destruct (Rd N) as [st [S1 S2]]. exists st. split; [exact S1|]. split; [exact S2|]. split; [exact (proj2 (pi_keys _ _ _ _ _ _ _ Pi)) | exact (pi_show _ _ _ _ _ _ _ Pi)].
  - destruct (Rd' N') as [st [S1 S2]]. exists st. split; [exact S1|]. split; [exact S2|]. split; [exact (proj2 (pi_keys _ _ _ _ _ _ _ Pi')) | exact (pi_show _ _ _ _ _ _ _ Pi')].
  - intros F i i' k k' nd nd' m m' St Fo St' Fo' Re K Nd Mx K' Nd' Mx'. apply (H F i i' k k' m m' St Fo St' Fo' Re K K'); [exists nd | exists nd']; (split; assumption).
Qed.
End Runs.
