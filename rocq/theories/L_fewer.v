(** Leaving out stack sizes: lemmas for C103. *)
From Coq Require Import Permutation.
From Verif Require Import M_base M_stack M_graph M_analysis M_filter M_names M_thumb M_ty M_parse M_render M_build M_run
  S_names S_sig L_base L_ir2 L_trav L_driver3 L_filter2 S_calls S_build S_run S_below S_graph S_mono S_fewer L_build1 L_build3 L_build4 L_build5 L_build6 L_build7 L_build9 L_calls4 L_run L_analysis L_maxprops L_mono L_report L_exact L_debug6 L_below S_resize L_resize.

(** ** Call graphs *)
Theorem less_known_max g1 g2 v g1' g2' c1 c2 m1 m2 : wf_graph g1 -> usages_u64 g2 -> less_known g1 g2 ->
  max_stack true g1 = Ret (g1', c1) -> max_stack true g2 = Ret (g2', c2) -> reported g1' v m1 -> reported g2' v m2 ->
  (exact m1 -> m1 = m2) /\ (below_2_64 g2 v -> (num m1 <= num m2)%N).
Proof.
  intros Wf U L R1 R2 M1 M2.
  assert (Ca : forall a b, calls g1 a b <-> calls g2 a b) by (intros a b; unfold calls; rewrite (lk_edges _ _ L); reflexivity).
  assert (Re : forall a b, reach g1 a b <-> reach g2 a b) by (intros a b; unfold reach; split; apply star_mono; intros x y; apply Ca).
  assert (Wf2 : wf_graph g2) by (intros a b C; rewrite <- (lk_count _ _ L); apply Wf; apply Ca; exact C).
  assert (U1 : usages_u64 g1) by (intros a n K; exact (U a n (lk_usage _ _ L a n K))).
  split.
  - intros Ex. apply (exact_iff g1 g1' c1 v _ Wf R1 M1) in Ex. destruct Ex as [Kn _].
    apply (view_decides g1 g2 (fun x => x) v g1' g2' c1 c2 m1 m2 Wf Wf2 U1 U); try assumption. constructor.
    + intros a b _ _ E. exact E.
    + intros a Ra. destruct (Kn a Ra) as [n K]. pose proof (lk_usage _ _ L a n K) as K2. unfold known in K, K2. congruence.
    + intros a b _ C. apply Ca. exact C.
    + intros a y _ C. exists y. split; [apply Ca; exact C | reflexivity].
  - intros Bl. apply (grows_number g1 g2 v g1' g2' c1 c2 m1 m2 Wf Wf2 Bl); try assumption.
    + constructor.
      * rewrite (lk_count _ _ L). apply le_n.
      * intros a b C. apply Ca. exact C.
      * intros a. destruct (local_of g1 a) as [[n|]|] eqn:E.
        -- assert (K : known g1 a n) by exact E. pose proof (lk_usage _ _ L a n K) as K2. unfold known_usage. unfold known in K2. rewrite E, K2. apply N.le_refl.
        -- unfold known_usage at 1. rewrite E. lia.
        -- unfold known_usage at 1. rewrite E. lia.
    + intros a b [A B]. split; apply Re; assumption.
Qed.

(** ** Programs *)
Lemma sized_cases (l : list (str * N)) n : (exists k, In (n, k) l) \/ forall k, ~ In (n, k) l.
Proof.
  induction l as [|[a c] r IH]; [right; intros k []|]. destruct (list_eq_dec ascii_dec a n) as [->|Na]; [left; exists c; left; reflexivity|].
  destruct IH as [[k I]|N]; [left; exists k; right; exact I|]. right. intros k [E|I]; [injection E as E _; exact (Na E) | exact (N k I)].
Qed.
Lemma nodup_fst_fun (l : list (str * N)) n a b : NoDup (map fst l) -> In (n, a) l -> In (n, b) l -> a = b.
Proof. intros N A B. apply (L_build1.sget_In l n a N) in A. apply (L_build1.sget_In l n b N) in B. congruence. Qed.
Lemma some_chosen p i ns : names_at p i ns -> ns <> [] -> exists n, chosen p i n.
Proof.
  intros N Ne. assert (F : (exists n, first (sized p) ns n) \/ forall n, In n ns -> ~ sized p n).
  { clear N Ne. induction ns as [|a ns IH]; [right; intros n []|]. destruct (sized_cases (pg_sizes p) a) as [S|NS]; [left; exists a, [], ns; split; [reflexivity|]; split; [exact S | intros y []]|].
    destruct IH as [[n [x [y [-> [Sn Y]]]]]|K].
    - left. exists n, (a :: x), y. split; [reflexivity|]. split; [exact Sn|]. intros z [<-|I]; [intros [k S]; exact (NS k S) | exact (Y z I)].
    - right. intros n [<-|I]; [intros [k S]; exact (NS k S) | exact (K n I)]. }
  destruct F as [[n F]|K]; [exists n, ns; split; [exact N | left; exact F]|]. destruct ns as [|a ns]; [destruct (Ne eq_refl)|]. exists a, (a :: ns). split; [exact N|]. right. split; [exact K|].
  exists [], ns. split; [reflexivity|]. split; [exact Logic.I | intros y []].
Qed.
(** If the functions that lose their sizes have no other names, then functions are known by the same names. *)
Lemma alone_known p l : (forall n k, In (n, k) l -> In (n, k) (pg_sizes p)) -> (forall n i ns, dropped p l n -> names_at p i ns -> In n ns -> ns = [n]) ->
  forall i n, chosen p i n -> chosen (with_sizes p l) i n.
Proof.
  intros So Al i n [ns [N H]]. exists ns. split; [exact N|].
  assert (D : (exists d, In d ns /\ dropped p l d) \/ forall d, In d ns -> sized p d -> sized (with_sizes p l) d).
  { clear - ns. induction ns as [|a ns IH]; [right; intros d []|]. destruct IH as [[d [I D]]|K]; [left; exists d; split; [right; exact I | exact D]|].
    destruct (sized_cases l a) as [E|Nl]; [right; intros d [<-|I] S; [exact E | exact (K d I S)]|].
    destruct (sized_cases (pg_sizes p) a) as [S|NS]; [left; exists a; split; [left; reflexivity | split; assumption]|]. right. intros d [<-|I] S; [destruct S as [k S]; destruct (NS k S) | exact (K d I S)]. }
  destruct D as [[d [I D]]|K].
  - pose proof (Al d i ns D N I) as ->. right. split; [intros m [<-|[]] [k X]; exact (proj2 D k X)|].
    assert (X : n = d) by (destruct H as [[a [b [E _]]]|[_ [a [b [E _]]]]]; (destruct a as [|y a]; [injection E as E _; symmetry; exact E | destruct a; discriminate E])).
    subst d. exists [], []. split; [reflexivity|]. split; [exact Logic.I | intros y []].
  - assert (S : forall m, In m ns -> (sized (with_sizes p l) m <-> sized p m)) by (intros m Im; split; [intros [k X]; exists k; exact (So _ _ X) | apply K; exact Im]). destruct H as [[a [b [E [Px Py]]]]|[No F]].
    + left. exists a, b. subst ns. split; [reflexivity|]. split; [apply S; [apply in_or_app; right; left; reflexivity | exact Px]|]. intros y Iy X. apply (Py y Iy). apply S; [apply in_or_app; left; exact Iy | exact X].
    + right. split; [|exact F]. intros m Im X. apply (No m Im). apply S; assumption.
Qed.
Section Fewer.
Variables (p : prog) (l : list (str * N)).
Notation q := (with_sizes p l).
Hypothesis (W : wf_prog p) (Fw : fewer_sizes p l).
Lemma sized_or n : (exists k, In (n, k) l) \/ forall k, ~ In (n, k) l.
Proof. apply sized_cases. Qed.
Lemma fw_sized n : sized q n -> sized p n.
Proof. intros [k I]. exists k. exact (fw_some _ _ Fw _ _ I). Qed.
Lemma fw_same : same_known p l.
Proof.
  intros i n. split; [|apply (fw_known _ _ Fw)]. intros C. assert (Ne : exists ns, names_at p i ns /\ ns <> []).
  { destruct C as [ns [N H]]. exists ns. split; [exact N|]. intros ->. destruct H as [[a [b [E _]]]|[_ [a [b [E _]]]]]; destruct a; discriminate E. }
  destruct Ne as [ns [N Ne]]. destruct (some_chosen p i ns N Ne) as [m M]. pose proof (fw_known _ _ Fw i m M) as M'. rewrite (chosen_fun q _ _ _ C M'). exact M.
Qed.
(** A function whose size is left out has the usage found in the machine code, or an unknown one. *)
Lemma fw_usage i u : understood p -> usage p i u -> usage q i u \/ usage q i LUnknown.
Proof.
  intros Un U.
  assert (C : exists n, chosen p i n) by (inversion U; match goal with H : llvm_size _ _ _ |- _ => destruct H as [n [H _]]; exists n; exact H end). destruct C as [n C].
  assert (Cf : forall m, chosen p i m -> m = n) by (intros m X; exact (chosen_fun p _ _ _ X C)).
  assert (No : llvm_size p i None -> llvm_size q i None).
  { intros [m [X Y]]. exists m. split; [apply fw_same; exact X|]. intros Z. apply Y. apply fw_sized. exact Z. }
  assert (As : has_asm p i -> has_asm q i) by (intros X; exact X).
  assert (Ou : outlined p i <-> outlined q i) by (split; intros [m [X Y]]; exists m; (split; [apply fw_same; exact X | exact Y])).
  destruct (sized_or n) as [[k K]|N].
  - assert (So : forall c, llvm_size p i (Some c) -> llvm_size q i (Some c)).
    { intros c [m [X Y]]. rewrite (Cf m X) in *. exists n. split; [apply fw_same; exact C|]. cbn [pg_sizes with_sizes]. pose proof (fw_some _ _ Fw _ _ K) as Kp.
      rewrite (nodup_fst_fun _ _ _ _ (wf_sizes _ W) Y Kp). exact K. }
    left. destruct U.
    + apply us_llvm; [exact H | apply So; exact H0].
    + apply us_none; [exact H | apply No; exact H0].
    + eapply us_agree; [exact H | apply So; exact H0 | exact H1].
    + eapply us_asm; [exact H | apply So; exact H0 | exact H1 | exact H2 | exact H3].
    + eapply us_outlined; [exact H | apply So; exact H0 | exact H1 | exact H2 | exact H3 | apply Ou; exact H4].
    + eapply us_outlined_kept; [exact H | apply So; exact H0 | exact H1 | exact H2 | exact H3 | exact H4 | apply Ou; exact H5].
    + eapply us_no_total; [exact H | apply So; exact H0 | exact H1].
    + eapply us_ours; [exact H | apply No; exact H0 | exact H1].
    + eapply us_untouched; [exact H | apply No; exact H0 | exact H1 | exact H2].
    + eapply us_unknown; [exact H | apply No; exact H0 | exact H1 | exact H2].
  - assert (Q : llvm_size q i None) by (exists n; split; [apply fw_same; exact C | intros [k K]; exact (N k K)]).
    destruct U.
    + right. apply us_none; [exact H | exact Q].
    + right. apply us_none; [exact H | exact Q].
    + left. eapply us_ours; [exact H | exact Q | exact H1].
    + left. eapply us_ours; [exact H | exact Q | exact H1].
    + left. eapply us_ours; [exact H | exact Q | exact H1].
    + exfalso. destruct H5 as [m' [X Y]]. rewrite (Cf m' X) in Y. apply (fw_outlined _ _ Fw n); [|exact Y]. split; [|exact N]. destruct H0 as [m'' [X' Y']]. rewrite (Cf m'' X') in Y'. eexists. exact Y'.
    + destruct (modifies_sp a) eqn:Ms; [right; eapply us_unknown; [exact H | exact Q | exact H1 | exact Ms]|]. left.
      assert (m = 0%N).
      { destruct H as [Th An]. destruct An as [stext [text [x [code [Tx [Nx An]]]]]]. destruct (un_code _ Un Th (ltac:(congruence)) i x Nx) as [addr' [size' [a' [[_ [A' [_ Ag]]] _]]]].
        assert (An0 : analysed p i addr size a) by (split; [exact Th|]; exists stext, text, x, code; split; [exact Tx|]; split; [exact Nx | exact An]).
        destruct (analysed_fun p i _ _ _ _ _ _ An0 A') as [_ [_ <-]]. destruct (Ag m H0) as [c [Uc Zc]]. pose proof (usage_fun p i _ _ W (us_no_total p i addr size a m An0 H0 H1) Uc) as E. injection E as <-.
        destruct (N.eq_dec m 0) as [Z|Z]; [exact Z|]. apply Zc in Z. congruence. }
      subst m. eapply us_untouched; [exact H | exact Q | exact H1 | exact Ms].
    + left. eapply us_ours; [exact H | exact Q | exact H1].
    + left. eapply us_untouched; [exact H | exact Q | exact H1 | exact H2].
    + left. eapply us_unknown; [exact H | exact Q | exact H1 | exact H2].
Qed.
End Fewer.

(** ** Reports *)
Section Built.
Variables (demangle : str -> str) (o o' : orders) (p : prog) (l : list (str * N)) (b b' : built).
Notation q := (with_sizes p l).
Hypothesis (W : wf_prog p) (W' : wf_prog q) (Fw : fewer_sizes p l) (Fo : fair o) (Fo' : fair o') (Sz : sizes_u64 p) (Ov : one_void p).
Hypothesis (E : build demangle o p = Ret b) (E' : build demangle o' q = Ret b').
Lemma fw_u64 : sizes_u64 q.
Proof. intros n k I. exact (Sz n k (fw_some _ _ Fw _ _ I)). Qed.
Lemma built_fewer i g3 c3 g3' c3' m m' : i < length (pg_defined p) ->
  max_stack true (b_g b) = Ret (g3, c3) -> max_stack true (b_g b') = Ret (g3', c3') -> reported g3 i m -> reported g3' i m' ->
  (exact m' -> m' = m) /\ (fits p -> (num m' <= num m)%N).
Proof.
  intros Hi X X' M M'. destruct (built_resized demangle o o' p l b b' W W' (fw_same p l Fw) Fo Fo' fw_u64 Ov E E' g3' c3' X') as [ks [void [g [G [G' [Eg [Ug [ga [ca [Ha Hr]]]]]]]]]].
  pose proof (graph_wf p ks void _ G) as Wf. pose proof (graph_wf _ ks void _ G') as Wg. pose proof (Forall2_len _ _ _ (go_show _ _ _ _ G)) as Lg. pose proof (Forall2_len _ _ _ (go_show _ _ _ _ G')) as Lg'.
  assert (Un : understood p) by (apply (build_iff demangle o p W); exists b; exact E).
  assert (Lk : less_known g (b_g b)).
  { constructor; [unfold node_count; congruence | exact Eg|]. intros u n K. assert (Ku : exists k, nth_error ks u = Some k).
    { unfold known, local_of in K. destruct (nth_error (gnodes g) u) as [nd|] eqn:N; [|discriminate K]. destruct (nth_error ks u) as [k|] eqn:Ek; [exists k; reflexivity|]. apply nth_error_None in Ek. assert (u < length (gnodes g)) by (apply nth_error_Some; congruence). lia. }
    destruct Ku as [k Ku]. destruct (show_at _ ks void _ G' _ _ Ku) as [nd [N1 N2]]. destruct (show_at p ks void _ G _ _ Ku) as [nd' [N1' N2']].
    unfold known, local_of in *. rewrite N1 in K. rewrite N1'. cbn [option_map] in *. injection K as K. f_equal. inversion N2; subst; inversion N2'; subst; cbn [nlocal] in *; try discriminate K; try assumption.
    match goal with A : usage p ?j ?u, B : usage q ?j ?v |- _ => destruct (fw_usage p l W Fw j u Un A) as [C|C]; pose proof (usage_fun q j _ _ W' B C) as D end; congruence. }
  pose proof (filtered_u64 demangle o None p b _ W Fo Sz E eq_refl) as Uu.
  destruct (less_known_max g (b_g b) i ga g3 ca c3 m' m Wg Uu Lk Ha X (Hr i m' Hi M') M) as [Y1 Y2]. split; [exact Y1|]. intros Ft. apply Y2. apply sum_below; [exact Wf | exact (fits_sum p ks void _ G Ft)].
Qed.
End Built.

Theorem fewer_starts demangle o o' start start' p l g cs g' cs' : wf_prog p -> wf_prog (with_sizes p l) -> fewer_sizes p l -> fair o -> fair o' -> sizes_u64 p -> one_void p ->
  report demangle o start p = Ret (g, cs) -> report demangle o' start' (with_sizes p l) = Ret (g', cs') ->
  exists ks void ks' void', pictures demangle p start ks void (gnodes g) (gedges g) /\ pictures demangle (with_sizes p l) start' ks' void' (gnodes g') (gedges g') /\
  forall i k k' m m', nth_error ks k = Some (KReal i) -> nth_error ks' k' = Some (KReal i) -> reported g k m -> reported g' k' m' ->
  (exact m' -> m = m') /\ (fits p -> (num m' <= num m)%N).
Proof.
  intros W W' Fw Fo Fo' Sz Ov Rp Rp'. unfold report in Rp, Rp'. destruct (bind_inv _ _ _ Rp) as [b [E H]], (bind_inv _ _ _ Rp') as [b' [E' H']]. clear Rp Rp'.
  destruct (finish_any demangle o p b start g cs W Fo Sz E H) as [ks [void [ks0 [Pi [G X]]]]], (finish_any demangle o' _ b' start' g' cs' W' Fo' (fw_u64 p l Fw Sz) E' H') as [ks' [void' [ks0' [Pi' [G' X']]]]].
  exists ks, void, ks', void'. split; [exact Pi|]. split; [exact Pi'|]. intros i k k' m m' K K' M M'.
  destruct (X k i m K M) as [Hi [g3 [c3 [X1 X2]]]], (X' k' i m' K' M') as [_ [g3' [c3' [Y1 Y2]]]].
  destruct (built_fewer demangle o o' p l b b' W W' Fw Fo Fo' Sz Ov E E' i g3 c3 g3' c3' m m' Hi X1 Y1 X2 Y2) as [Z1 Z2]. split; [intros Ex; symmetry; exact (Z1 Ex) | exact Z2].
Qed.
Lemma fewer_plain demangle o o' p l g cs g' cs' i m m' : wf_prog p -> wf_prog (with_sizes p l) -> fewer_sizes p l -> fair o -> fair o' -> sizes_u64 p -> one_void p ->
  report demangle o None p = Ret (g, cs) -> report demangle o' None (with_sizes p l) = Ret (g', cs') -> i < length (pg_defined p) ->
  reported g i m -> reported g' i m' -> (exact m' -> m = m') /\ (fits p -> (num m' <= num m)%N).
Proof.
  intros W W' Fw Fo Fo' Sz Ov Rp Rp' Hi M M'. unfold report in Rp, Rp'. destruct (bind_inv _ _ _ Rp) as [b [E H]], (bind_inv _ _ _ Rp') as [b' [E' H']]. clear Rp Rp'.
  destruct (finish_plain demangle o p b g cs i m W Fo E H M) as [g3 [c3 [X1 X2]]], (finish_plain demangle o' _ b' g' cs' i m' W' Fo' E' H' M') as [g3' [c3' [Y1 Y2]]].
  destruct (built_fewer demangle o o' p l b b' W W' Fw Fo Fo' Sz Ov E E' i g3 c3 g3' c3' m m' Hi X1 Y1 X2 Y2) as [Z1 Z2]. split; [intros Ex; symmetry; exact (Z1 Ex) | exact Z2].
Qed.
