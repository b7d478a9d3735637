(** Programs that differ in the names of their functions: renamings of the names of a program, and reports that do not show the difference. *)
From Verif Require Import M_base M_stack M_graph M_analysis M_filter M_names M_thumb M_ty M_parse M_build M_run S_names S_build S_rename L_base L_names L_build1 L_build2 L_build3 L_run L_driver1 L_rename L_rename2.

(** * A one-to-one renaming of finitely many names extends to all names *)
Definition swap (a b x : str) : str := if str_dec x a then b else if str_dec x b then a else x.
Lemma swap_inj a b x y : swap a b x = swap a b y -> x = y.
Proof. unfold swap. destruct (str_dec x a), (str_dec y a), (str_dec x b), (str_dec y b); congruence. Qed.
Lemma extend (r : str -> str) l : (forall a b, In a l -> In b l -> r a = r b -> a = b) -> exists f, (forall a b, f a = f b -> a = b) /\ forall a, In a l -> f a = r a.
Proof.
  induction l as [|a l IH]; intros H; [exists (fun x => x); split; [intros ? ? E; exact E | intros ? []]|].
  destruct IH as [f [I A]]; [intros x y Hx Hy; apply H; right; assumption|]. destruct (in_dec str_dec a l) as [Ia|Na].
  - exists f. split; [exact I|]. intros x [<-|Hx]; apply A; assumption.
  - exists (fun x => swap (f a) (r a) (f x)). split; [intros x y E; exact (I _ _ (swap_inj _ _ _ _ E))|]. intros x [<-|Hx]; [unfold swap; destruct (str_dec (f a) (f a)); congruence|].
    rewrite (A x Hx). unfold swap. destruct (str_dec (r x) (f a)) as [E|_]; [rewrite <- (A x Hx) in E; apply I in E; subst x; contradiction|].
    destruct (str_dec (r x) (r a)) as [E|_]; [|reflexivity]. apply H in E; [subst x; contradiction | right; exact Hx | left; reflexivity].
Qed.
Lemma looked_names p n : looked_at p n -> In n (names_of p).
Proof.
  unfold names_of. intros [[a [s [I J]]] | [k [d [st [I [J K]]]]]]; rewrite !in_app_iff.
  - do 5 right. left. apply in_flat_map. exists (a, s). auto.
  - do 2 right. left. apply in_flat_map. exists (k, d). split; [exact I|]. apply in_flat_map. exists st. split; [exact J|]. destruct K as [-> | ->]; left; reflexivity.
Qed.
Lemma renamed_ext p (r f : str -> str) : (forall n, In n (names_of p) -> f n = r n) -> renamed f p = renamed r p.
Proof.
  unfold names_of. intros H. unfold renamed. f_equal.
  - apply map_ext_in. intros [k d] I. cbn [fst snd]. f_equal; [apply H; rewrite !in_app_iff; left; apply in_map_iff; exists (k, d); auto|].
    unfold ren_def. f_equal; [apply H; rewrite !in_app_iff; right; left; apply in_map_iff; exists (k, d); auto|]. apply map_ext_in. intros st J.
    assert (K : forall n, calls_name st n -> f n = r n). { intros n C. apply H. rewrite !in_app_iff. do 2 right. left. apply in_flat_map. exists (k, d). split; [exact I|]. apply in_flat_map. exists st. split; [exact J|]. destruct C as [-> | ->]; left; reflexivity. }
    destruct st as [x|[n|]|n|sg| | |]; cbn [ren_stmt]; try reflexivity; rewrite K; try reflexivity; [right | left]; reflexivity.
  - apply map_ext_in. intros [k d] I. cbn [fst snd]. f_equal. apply H. rewrite !in_app_iff. do 3 right. left. apply in_map_iff. exists (k, d). auto.
  - apply map_ext_in. intros [k d] I. cbn [fst snd]. f_equal. apply H. rewrite !in_app_iff. do 4 right. left. apply in_map_iff. exists (k, d). auto.
  - apply map_ext_in. intros [k d] I. cbn [fst snd]. unfold ren_sym. f_equal. f_equal. apply map_ext_in. intros n J. apply H. rewrite !in_app_iff. do 5 right. left. apply in_flat_map. exists (k, d). auto.
  - apply map_ext_in. intros n I. apply H. rewrite !in_app_iff. do 6 right. exact I.
Qed.

(** * What the tool reads off a name *)
Lemma class_llvm b n : starts_with (lit "llvm.") n = false -> classify b n = CFunction.
Proof.
  intros H. assert (K : forall x, starts_with (lit "llvm." ++ x) n = false).
  { intros x. destruct (starts_with (lit "llvm." ++ x) n) eqn:E; [|reflexivity]. apply starts_with_app in E as [y ->]. rewrite <- H. symmetry. apply starts_with_app. exists (x ++ y). rewrite app_assoc. reflexivity. }
  assert (K2 : forall x, str_eqb n (lit "llvm." ++ x) = false). { intros x. destruct (str_eqb_spec n (lit "llvm." ++ x)) as [->|]; [|reflexivity]. rewrite <- H. symmetry. apply starts_with_app. exists x. reflexivity. }
  unfold classify. assert (S1 : smem n (map lit ["llvm.dbg.value"; "llvm.dbg.declare"; "llvm.assume"; "llvm.trap"]%string) = false).
  { unfold smem. cbn [map existsb]. rewrite (K2 (lit "dbg.value") : str_eqb n (lit "llvm.dbg.value") = false), (K2 (lit "dbg.declare") : str_eqb n (lit "llvm.dbg.declare") = false), (K2 (lit "assume") : str_eqb n (lit "llvm.assume") = false), (K2 (lit "trap") : str_eqb n (lit "llvm.trap") = false). reflexivity. }
  rewrite S1, (K (lit "lifetime.start") : starts_with (lit "llvm.lifetime.start") n = false), (K (lit "lifetime.end") : starts_with (lit "llvm.lifetime.end") n = false), H, andb_false_r, (K (lit "memcpy.") : starts_with (lit "llvm.memcpy.") n = false), (K (lit "memset.") : starts_with (lit "llvm.memset.") n = false), (K (lit "memmove.") : starts_with (lit "llvm.memmove.") n = false), (K2 (lit "x86.sse2.pause") : str_eqb n (lit "llvm.x86.sse2.pause") = false), (K2 (lit "experimental.noalias.scope.decl") : str_eqb n (lit "llvm.experimental.noalias.scope.decl") = false). cbn [orb].
  assert (L : existsb (fun pre => starts_with pre n) lowered_prefixes = false); [|rewrite L; reflexivity].
  destruct (existsb _ lowered_prefixes) eqn:E; [|reflexivity]. apply existsb_exists in E as [x [I E]].
  assert (P : exists y, x = lit "llvm." ++ y) by (unfold lowered_prefixes in I; cbn [map In] in I; repeat (destruct I as [<-|I]; [eexists; cbn; reflexivity|]); destruct I).
  destruct P as [y ->]. rewrite K in E. discriminate E.
Qed.
Lemma kept_of demangle p r : keeps demangle p r -> kept demangle p r.
Proof.
  intros K. constructor; intros n L.
  - rewrite <- !mapping_eq. apply (kp_mapping _ _ _ K n L).
  - apply eq_true_iff_eq. rewrite !outlined_spec. apply (kp_outlined _ _ _ K n L).
  - pose proof (kp_llvm _ _ _ K n L) as Q. destruct (starts_with (lit "llvm.") n) eqn:A; [rewrite Q by auto; reflexivity|]. destruct (starts_with (lit "llvm.") (r n)) eqn:B; [rewrite Q by auto; reflexivity|].
    rewrite !class_llvm by assumption. reflexivity.
  - destruct (dehash_spec (demangle n)) as [x [-> X]], (dehash_spec (demangle (r n))) as [y [-> Y]]. f_equal. destruct x as [x|]; [apply Y, (kp_short _ _ _ K n x L), X; reflexivity|].
    destruct y as [y|]; [|reflexivity]. symmetry. apply X, (kp_short _ _ _ K n y L), Y. reflexivity.
Qed.
Lemma kept_ext demangle p r f : (forall n, looked_at p n -> f n = r n) -> kept demangle p r -> kept demangle p f.
Proof. intros H K. constructor; intros n L; rewrite (H n L); apply K; exact L. Qed.

(** * The reports *)
Lemma extended demangle p r : distinct (names_of p) r -> keeps demangle p r ->
  exists f, (forall a b, f a = f b -> a = b) /\ (forall n, In n known_names -> f n = n) /\ kept demangle p f /\ renamed f p = renamed r p /\ forall n, looked_at p n -> f n = r n.
Proof.
  intros [Fx Di] K. destruct (extend r (known_names ++ names_of p) Di) as [f [I A]]. exists f.
  assert (L : forall n, looked_at p n -> f n = r n) by (intros n L; apply A, in_or_app; right; apply looked_names; exact L).
  split; [exact I|]. split; [intros n Kn; rewrite A by (apply in_or_app; left; exact Kn); apply Fx, Kn|]. split; [exact (kept_ext _ _ _ _ L (kept_of _ _ _ K))|].
  split; [apply renamed_ext; intros n J; apply A, in_or_app; right; exact J | exact L].
Qed.
Lemma start_ext demangle p r f start start' : (forall n, looked_at p n -> f n = r n) -> same_start demangle p r start start' -> same_start demangle p f start start'.
Proof. intros H S. destruct start, start'; try exact S. intros n L. rewrite (H n L). apply S. exact L. Qed.
Theorem renamed_same demangle o p r start start' : distinct (names_of p) r -> keeps demangle p r -> same_start demangle p r start start' ->
  renamed_report p r (report demangle o start p) (report demangle o start' (renamed r p)).
Proof.
  intros D K S. destruct (extended demangle p r D K) as [f [I [Fx [Kf [Rn L]]]]]. rewrite <- Rn. pose proof (report_r demangle p f I Fx Kf o start start' (start_ext _ _ _ _ _ _ L S)) as R.
  destruct (report demangle o start p) as [[g cs]|m|m|], (report demangle o start' (renamed f p)) as [[g' cs']|m'|m'|]; cbn in R |- *; try contradiction; try congruence.
  destruct R as [[F E] C]. cbn [fst snd] in *. split; [|split; [exact E | exact C]]. revert F. generalize (gnodes g) (gnodes g'). induction 1 as [|x y l l' Q F IH]; constructor; [|exact IH].
  destruct Q as [->|[Q ->]]; [left; reflexivity | right; split; [exact Q|]]. rewrite (L _ Q). reflexivity.
Qed.

(** ** Renamed functions shown by their short names *)
Lemma shorten_eq demangle am (r : str -> str) (M : str -> Prop) g g' :
  (forall n, M n -> dehash (demangle (r n)) = dehash (demangle n)) ->
  (forall n, M n -> r n <> n -> exists s, dehash (demangle n) = Ret (Some s) /\ forall k, sget am s = Some k -> k = 1) ->
  grel r M g g' -> shorten demangle am g' = shorten demangle am g.
Proof.
  intros Ks Ho [F E]. unfold shorten. rewrite E. assert (Q : shorten_nodes demangle am (gnodes g') = shorten_nodes demangle am (gnodes g)); [|rewrite Q; reflexivity].
  revert F. generalize (gnodes g) (gnodes g'). induction 1 as [|x y l l' S F IH]; [reflexivity|]. cbn [shorten_nodes]. rewrite IH.
  assert (X : shorten_node demangle am y = shorten_node demangle am x); [|rewrite X; reflexivity].
  destruct S as [->|[Mx ->]]; [reflexivity|]. destruct (str_dec (r (nname x)) (nname x)) as [->|N]; [rewrite set_name_id; reflexivity|].
  unfold shorten_node. cbn [set_name nname]. rewrite (Ks _ Mx). destruct (Ho _ Mx N) as [s [-> H]]. cbn [bind]. destruct (sget am s) as [k|] eqn:G; [|reflexivity]. rewrite (H k eq_refl). reflexivity.
Qed.
Lemma f2_in {A} (R : nat -> A -> Prop) a : forall len k l, Forall2 R (seq k len) l -> In a l -> exists i, k <= i /\ R i a.
Proof.
  induction len as [|len IH]; intros k l F I; inversion F as [|? b ? l2 C F']; subst; [destruct I|]. destruct I as [->|I]; [exists k; auto|].
  destruct (IH _ _ F' I) as [i [A1 B]]. exists i. split; [lia | exact B].
Qed.
Lemma f2_nodup {A} (R : nat -> A -> Prop) : (forall i j a, R i a -> R j a -> i = j) -> forall len k l, Forall2 R (seq k len) l -> NoDup l.
Proof.
  intros Inj. induction len as [|len IH]; intros k l F; inversion F as [|? b ? l2 C F']; subst; constructor; [|exact (IH _ _ F')].
  intros I. destruct (f2_in R b _ _ _ F' I) as [i [L Q]]. rewrite (Inj _ _ _ Q C) in L. lia.
Qed.
Lemma chosen_looked p i n : chosen p i n -> looked_at p n.
Proof.
  intros C. destruct (chosen_live p i n C) as [ns [[[a s] [E ->]] I]]. left. exists a, s. split; [exact (nth_error_In _ _ E)|]. apply filter_In in I. apply I.
Qed.
Lemma nodup_one {A} (f : A -> bool) l : NoDup l -> (forall a b, In a l -> In b l -> f a = true -> f b = true -> a = b) -> length (filter f l) <= 1.
Proof.
  intros N H. apply (NoDup_filter f) in N. assert (K : forall a b, In a (filter f l) -> In b (filter f l) -> a = b) by (intros a b Ia Ib; apply filter_In in Ia, Ib; apply H; tauto).
  destruct (filter f l) as [|a [|b t]]; cbn [length]; try lia. inversion N as [|? ? X Y]; subst. destruct X. left. apply K; [right; left | left]; reflexivity.
Qed.
Theorem renamed_unseen demangle o p r start start' : wf_prog p -> distinct (names_of p) r -> keeps demangle p r -> same_start demangle p r start start' -> only_hashes demangle p r ->
  report demangle o start' (renamed r p) = report demangle o start p.
Proof.
  intros W D K S Oh. destruct (extended demangle p r D K) as [f [I [Fx [Kf [Rn L]]]]]. rewrite <- Rn. apply (start_ext _ _ _ _ _ _ L) in S.
  unfold report. pose proof (build_r demangle p f I Fx Kf o) as B. destruct (build demangle o p) as [b|m|m|] eqn:Eb, (build demangle o (renamed f p)) as [b'|m'|m'|]; cbn in B |- *; try contradiction; try congruence.
  assert (Fg : orel (grel f (looked_at p)) (filter_start demangle (b_indices b) start (b_g b)) (filter_start demangle (b_indices b') start' (b_g b'))).
  { unfold filter_start. destruct start as [s|], start' as [s'|]; try contradiction; [|exact (br_g _ _ _ _ B)]. rewrite (br_indices _ _ _ _ B), (resolve_r demangle p f _ s s' (br_keys _ _ _ _ B) S).
    destruct (resolve_start demangle (b_indices b) s); [apply grel_reachable|]; exact (br_g _ _ _ _ B). }
  unfold finish. rewrite (br_info _ _ _ _ B), (br_amb _ _ _ _ B).
  destruct (filter_start demangle (b_indices b) start (b_g b)) as [g|m|m|], (filter_start demangle (b_indices b') start' (b_g b')) as [g'|m'|m'|]; cbn in Fg |- *; try contradiction; try congruence.
  pose proof (grel_max f (looked_at p) (b_info b) g g' Fg) as Mx.
  destruct (max_stack (b_info b) g) as [[h cs]|m|m|], (max_stack (b_info b) g') as [[h' cs']|m'|m'|]; cbn in Mx |- *; try contradiction; try congruence.
  destruct Mx as [H Ec]. cbn [fst snd] in H, Ec. subst cs'. rewrite (shorten_eq demangle (b_ambiguous b) f (looked_at p) h h'); [reflexivity | apply Kf | | exact H].
  intros n Ln Nn. rewrite (L n Ln) in Nn. destruct (Oh n Ln Nn) as [s [Hs Us]]. exists s. split; [apply dehash_iff; exact Hs|]. intros k G.
  destruct (build_ambiguous demangle o p b W Eb) as [names [Fn Nt]]. destruct (note_names_spec demangle names []) as [m' [Em [Ps _]]]; [intros x y Hx; discriminate Hx|].
  rewrite Nt in Em. injection Em as <-. pose proof (Ps s k G) as Pk. pose proof (table_eq demangle names _ s Nt) as Te. unfold table_get in Te. rewrite G in Te. unfold short_count in Te.
  enough (k <= 1) by lia. rewrite Te. apply nodup_one; [apply (f2_nodup (chosen p)) in Fn; [exact Fn | intros i j a; apply chosen_inj; exact W]|].
  assert (Q : forall a, In a names -> match dehash (demangle a) with Ret (Some x) => str_eqb x s | _ => false end = true -> a = n).
  { intros a Ia Qa. destruct (f2_in (chosen p) a _ _ _ Fn Ia) as [i [_ C]]. apply Us; [exact (chosen_looked _ _ _ C)|]. apply dehash_iff.
    destruct (dehash (demangle a)) as [[x|]|?|?|]; try discriminate Qa. apply str_eqb_eq in Qa. subst x. reflexivity. }
  intros a c Ia Ic Qa Qc. rewrite (Q a Ia Qa), (Q c Ic Qc). reflexivity.
Qed.
Theorem renamed_output demangle o p r start start' : wf_prog p -> distinct (names_of p) r -> keeps demangle p r -> same_start demangle p r start start' -> only_hashes demangle p r ->
  forall f, output demangle o start' f (renamed r p) = output demangle o start f p.
Proof. intros W D K S Oh f. unfold output. rewrite (renamed_unseen demangle o p r start start' W D K S Oh). reflexivity. Qed.
