(** Logs of runs on the same input: proofs. *)
From Coq Require Import Permutation Sorted.
From Verif Require Import S_filter L_filter2 L_maxprops L_driver3.
From Verif Require Import M_base M_stack M_graph M_analysis M_filter M_names M_thumb M_ty M_parse M_build M_run M_log S_names S_graph S_sig S_build S_run S_log S_samelog.
From Verif Require Import L_base L_names L_build1 L_build2 L_build3 L_build4 L_build5 L_build6 L_build7 L_build8 L_build9 L_run L_log L_log2 L_log3 L_log4 L_log5 L_log9 L_calls4 L_calls5.

(** * The same program in another order *)
Section Transfer.
Variables (p q : prog).
Hypothesis S : same_prog p q.
Lemma s_untyped_fn i : untyped_fn p i <-> untyped_fn q i.
Proof. unfold untyped_fn. setoid_rewrite (s_names_at p q S). setoid_rewrite (s_chosen p q S). setoid_rewrite (s_has_def p q S). setoid_rewrite (s_has_decl p q S). reflexivity. Qed.
Lemma s_usage2 i l : usage p i l <-> usage q i l.
Proof. split; [apply s_usage; exact S | apply s_usage, same_sym; exact S]. Qed.
Lemma part_iff (P Q : Prop) m a : (P <-> Q) -> part P m a -> part Q m a.
Proof. intros H [K|K]; [apply pt_yes | apply pt_no]; tauto. Qed.
Lemma t_symbol i a : symbol_log p i a -> symbol_log q i a.
Proof.
  intros [n [x [y [C [-> [A B]]]]]]. exists n, x, y. split; [apply (s_chosen p q S); exact C|]. split; [reflexivity|]. split; [refine (part_iff _ _ _ _ _ A) | refine (part_iff _ _ _ _ _ B)].
  - rewrite (sp_target _ _ S), s_usage2. reflexivity.
  - apply s_untyped_fn.
Qed.
Lemma t_introduces x f : introduces p x f <-> introduces q x f.
Proof. unfold introduces. setoid_rewrite (s_live p q S). setoid_rewrite (s_chosen p q S). reflexivity. Qed.
Lemma t_news done x m : news p done x m -> news q done x m.
Proof.
  intros [i code n C N | i f C N | i f T A N].
  - apply nw_asm; [apply (s_chosen p q S); exact C | exact N].
  - apply nw_cast; [intros j K; apply (s_chosen p q S) in K; exact (C j K) | intros y I K; apply t_introduces in K; exact (N y I K)].
  - apply nw_lowered; [rewrite (sp_target _ _ S); exact T | exact A | exact N].
Qed.
End Transfer.
Lemma t_stmts p q : same_prog p q -> forall done l ms, stmts_log p done l ms -> stmts_log q done l ms.
Proof.
  intros S done l ms H. induction H as [|done x rest m ms N H IH|done x rest ms N H IH]; [constructor | apply sl_news; [apply (t_news p q S); exact N | exact IH] | apply sl_quiet; [|exact IH]].
  intros m K. apply (t_news q p (same_sym p q S)) in K. exact (N m K).
Qed.
Section Transfer2.
Variables (p q : prog).
Hypothesis S : same_prog p q.
Lemma t_overridden i m k why : overridden p i m k why <-> overridden q i m k why.
Proof.
  assert (H : forall p q, same_prog p q -> overridden p i m k why -> overridden q i m k why).
  { clear. intros p q S [ad sz a A L St N As | ad sz a A L St N As Z O].
    - eapply ov_asm; [apply (s_analysed p q S); exact A | apply (s_llvm_size p q S); exact L | exact St | exact N | apply (s_has_asm p q S); exact As].
    - eapply ov_outlined; [apply (s_analysed p q S); exact A | apply (s_llvm_size p q S); exact L | exact St | exact N | rewrite <- (s_has_asm p q S); exact As | exact Z | apply (s_outlined p q S); exact O]. }
  split; [apply H; exact S | apply H, same_sym; exact S].
Qed.
Lemma t_code i a : code_log p i a -> code_log q i a.
Proof.
  intros [n [x [y [z [C [-> [A [B D]]]]]]]]. exists n, x, y, z. split; [apply (s_chosen p q S); exact C|]. split; [reflexivity|]. split; [|split].
  - destruct A as [m k why O|O]; [apply or_yes, t_overridden; exact O | apply or_no; intros m k why K; apply t_overridden in K; exact (O m k why K)].
  - refine (part_iff _ _ _ _ _ B). apply s_usage2. exact S.
  - refine (part_iff _ _ _ _ _ D). apply (s_blind p q S).
Qed.
Lemma t_codes a : codes_log p a -> codes_log q a.
Proof.
  intros [[T ->]|[[T [X ->]]|[T [X [mss [F ->]]]]]]; [left | right; left | right; right]; rewrite (sp_target _ _ S), ?(sp_text _ _ S); auto.
  split; [exact T|]. split; [exact X|]. exists mss. split; [|reflexivity]. rewrite (sp_defined _ _ S). exact (Forall2_imp _ _ _ _ t_code F).
Qed.
Lemma t_sig void s a : sig_log p void s a -> sig_log q void s a.
Proof.
  intros [l [x [y [L [-> [A B]]]]]]. exists l, x, y. split; [exact L|]. split; [reflexivity|]. split; [refine (part_iff _ _ _ _ _ A) | refine (part_iff _ _ _ _ _ B)].
  - setoid_rewrite (s_typed_by_def p q S). reflexivity.
  - rewrite (s_untyped p q S). setoid_rewrite (s_pointee p q S). reflexivity.
Qed.
Lemma t_shown n : shown_name p n <-> shown_name q n.
Proof. unfold shown_name. setoid_rewrite (s_chosen p q S). rewrite (s_created p q S). reflexivity. Qed.
Lemma t_start demangle start a : start_log demangle p start a -> start_log demangle q start a.
Proof.
  intros [|s H|s n H K|s H K|s hits text L H Le Nd So K].
  - apply st_none.
  - apply st_name, t_shown. exact H.
  - apply (st_hash _ _ _ n); [rewrite <- t_shown; exact H | intros m; rewrite <- t_shown; apply K].
  - apply st_missing; [rewrite <- t_shown; exact H | intros m M; apply K, t_shown; exact M].
  - apply (st_multiple _ _ _ hits); try assumption; [rewrite <- t_shown; exact H | intros m; rewrite <- t_shown; apply K].
Qed.
Lemma t_measured : measured p <-> measured q.
Proof. unfold measured. setoid_rewrite (s_chosen p q S). setoid_rewrite (s_sized p q S). reflexivity. Qed.
End Transfer2.

(** * The messages about the statements *)
Inductive piece := PAsm (i : nat) (code : str) | PCast (f : str) | PLow (f : str).
Inductive said (p : prog) : piece -> message -> Prop :=
| sd_asm i code n : chosen p i n -> said p (PAsm i code) (asm_note code n)
| sd_cast f : said p (PCast f) (no_information f)
| sd_low f : said p (PLow f) (lowering_note f).
(** [worth p done l k]: in the statements [l], after [done], there is a reason for [k]. *)
Definition worth (p : prog) (done l : list (nat * stmt)) (k : piece) : Prop :=
  match k with
  | PAsm i code => exists pre post, l = pre ++ (i, Asm code) :: post /\ forall c, ~ In (i, Asm c) (done ++ pre)
  | PCast f => (forall j, ~ chosen p j f) /\ exists pre i post, l = pre ++ (i, BitcastCall (Some f)) :: post /\ forall y, In y (done ++ pre) -> ~ introduces p y f
  | PLow f => is_thumb (pg_target p) = false /\ assumed f /\ (exists k, In (k, DirectCall f) l) /\ forall k, ~ In (k, DirectCall f) done
  end.
Section Pieces.
Variable p : prog.
Hypothesis W : wf_prog p.
Definition of_stmt (x : nat * stmt) (k : piece) : Prop :=
  match k with PAsm i code => x = (i, Asm code) | PCast f => snd x = BitcastCall (Some f) | PLow f => snd x = DirectCall f end.
Lemma news_worth done x m : news p done x m -> exists k, of_stmt x k /\ said p k m /\ worth p done [x] k.
Proof.
  intros [i code n C N | i f C N | i f T A N].
  - exists (PAsm i code). split; [reflexivity|]. split; [constructor; exact C|]. exists [], []. split; [reflexivity|]. rewrite app_nil_r. exact N.
  - exists (PCast f). split; [reflexivity|]. split; [constructor|]. split; [exact C|]. exists [], i, []. split; [reflexivity|]. rewrite app_nil_r. exact N.
  - exists (PLow f). split; [reflexivity|]. split; [constructor|]. split; [exact T|]. split; [exact A|]. split; [exists i; left; reflexivity | exact N].
Qed.
Lemma worth_news done x k : (exists n, chosen p (fst x) n) -> worth p done [x] k -> exists m, news p done x m.
Proof.
  intros [n C] H. destruct k as [i code|f|f].
  - destruct H as [pre [post [E N]]]. destruct pre as [|y pre]; [|destruct pre; discriminate E]. injection E as -> <-. rewrite app_nil_r in N. eexists. apply nw_asm; [exact C | exact N].
  - destruct H as [Cn [pre [i [post [E N]]]]]. destruct pre as [|y pre]; [|destruct pre; discriminate E]. injection E as -> <-. rewrite app_nil_r in N. eexists. apply nw_cast; assumption.
  - destruct H as [T [A [[j [->|[]]] N]]]. eexists. apply nw_lowered; assumption.
Qed.
Lemma of_stmt_one x k k' : of_stmt x k -> of_stmt x k' -> k = k'.
Proof. destruct x as [i st], k, k'; cbn; intros A B; congruence. Qed.
Lemma worth_of done x k : worth p done [x] k -> of_stmt x k.
Proof.
  destruct k as [i code|f|f]; cbn [worth of_stmt].
  - intros [pre [post [E _]]]. destruct pre as [|y pre]; [injection E as -> _; reflexivity | destruct pre; discriminate E].
  - intros [_ [pre [i [post [E _]]]]]. destruct pre as [|y pre]; [injection E as -> _; reflexivity | destruct pre; discriminate E].
  - intros [_ [_ [[k [->|[]]] _]]]. reflexivity.
Qed.
Lemma stmt_call st f : {st = DirectCall f} + {st <> DirectCall f}.
Proof. destruct (is_call f (0, st)) as [Y|N]; [left; destruct Y as [k Y]; congruence | right; intros ->; apply N; exists 0; reflexivity]. Qed.
(** A reason is in the first statement or in the others, and not in both. *)
Lemma worth_cons done x l k : worth p done (x :: l) k <-> worth p done [x] k \/ worth p (done ++ [x]) l k.
Proof.
  destruct k as [i code|f|f]; cbn [worth].
  - split.
    + intros [pre [post [E N]]]. destruct pre as [|y pre]; injection E as -> ->; [left; exists [], []; auto | right; exists pre, post; split; [reflexivity|]; rewrite <- app_assoc; exact N].
    + intros [[pre [post [E N]]]|[pre [post [-> N]]]].
      * destruct pre as [|y pre]; [|destruct pre; discriminate E]. injection E as -> <-. exists [], l. auto.
      * exists (x :: pre), post. split; [reflexivity|]. rewrite <- app_assoc in N. exact N.
  - split.
    + intros [C [pre [i [post [E N]]]]]. destruct pre as [|y pre]; injection E as -> ->; [left; split; [exact C|]; exists [], i, []; auto | right; split; [exact C|]; exists pre, i, post; split; [reflexivity|]; rewrite <- app_assoc; exact N].
    + intros [[C [pre [i [post [E N]]]]]|[C [pre [i [post [-> N]]]]]]; (split; [exact C|]).
      * destruct pre as [|y pre]; [|destruct pre; discriminate E]. injection E as -> <-. exists [], i, l. auto.
      * exists (x :: pre), i, post. split; [reflexivity|]. rewrite <- app_assoc in N. exact N.
  - split.
    + intros [T [A [[k [->|I]] N]]]; [left; repeat (split; [assumption|]); split; [exists k; left; reflexivity | exact N]|].
      destruct x as [j st]. destruct (stmt_call st f) as [->|Ne]; [left; repeat (split; [assumption|]); split; [exists j; left; reflexivity | exact N] | right].
      repeat (split; [assumption|]). split; [exists k; exact I|]. intros k' I'. apply in_app_or in I' as [I'|[E|[]]]; [exact (N k' I') | injection E as _ ->; apply Ne; reflexivity].
    + intros [[T [A [[k [->|[]]] N]]]|[T [A [[k I] N]]]]; repeat (split; [assumption|]); (split; [exists k; cbn [In]; auto|]); [exact N | intros k' I'; apply (N k'), in_or_app; left; exact I'].
Qed.
Lemma worth_once done x l k : worth p done [x] k -> ~ worth p (done ++ [x]) l k.
Proof.
  intros H K. pose proof (worth_of _ _ _ H) as O. destruct k as [i code|f|f]; cbn [worth of_stmt] in *.
  - destruct K as [pre [post [_ N]]]. apply (N code). rewrite <- app_assoc. apply in_or_app. right. left. exact O.
  - destruct K as [C [pre [i [post [_ N]]]]]. apply (N x); [rewrite <- app_assoc; apply in_or_app; right; left; reflexivity | right; split; assumption].
  - destruct K as [_ [_ [_ N]]]. destruct x as [j st]. cbn [snd] in O. subst st. apply (N j). apply in_or_app. right. left. reflexivity.
Qed.
Lemma stmts_pieces l : forall done ms, (forall x, In x l -> exists n, chosen p (fst x) n) -> stmts_log p done l ms ->
  exists ks, NoDup ks /\ Forall2 (said p) ks ms /\ forall k, In k ks <-> worth p done l k.
Proof.
  induction l as [|x l IH]; intros done ms C H; inversion H as [|? ? ? m ms' N H'|? ? ? ? N H']; subst.
  - exists []. split; [constructor|]. split; [constructor|]. intros k. split; [intros []|]. destruct k as [i code|f|f]; cbn [worth]; [intros [pre [post [E _]]] | intros [_ [pre [i [post [E _]]]]] | intros [_ [_ [[k []] _]]]]; destruct pre; discriminate E.
  - destruct (IH _ _ (fun y I => C y (or_intror I)) H') as [ks [D [F K]]]. destruct (news_worth _ _ _ N) as [k [O [Sd Wk]]]. exists (k :: ks). split; [constructor; [rewrite K; apply worth_once; exact Wk | exact D]|]. split; [constructor; assumption|].
    intros k'. rewrite worth_cons. cbn [In]. rewrite K. split; [intros [<-|I]; auto | intros [I|I]; [left; exact (of_stmt_one x k k' O (worth_of _ _ _ I)) | right; exact I]].
  - destruct (IH _ _ (fun y I => C y (or_intror I)) H') as [ks [D [F K]]]. exists ks. split; [exact D|]. split; [exact F|].
    intros k. rewrite worth_cons, K. split; [auto|]. intros [I|I]; [|exact I]. destruct (worth_news done x k (C x (or_introl eq_refl)) I) as [m M]. destruct (N m M).
Qed.
Lemma said_fun k a b : said p k a -> said p k b -> a = b.
Proof. intros [i c n C|f|f] B; inversion B as [? ? n' C'| |]; subst; [rewrite (chosen_fun p i n n' C C')|..]; reflexivity. Qed.
Lemma trace_first ds t : trace p ds t -> forall i code pre post, t = pre ++ (i, Asm code) :: post -> (forall c, ~ In (i, Asm c) pre) ->
  exists n d a b, In (n, d) ds /\ live p n i /\ d_stmts d = a ++ Asm code :: b /\ forall c, ~ In (Asm c) a.
Proof.
  induction 1 as [|n d ds l N T IH|n d j ds l L T IH]; intros i code pre post E Nn.
  - destruct pre; discriminate E.
  - destruct (IH _ _ _ _ E Nn) as [n' [d' [a [b [I R]]]]]. exists n', d', a, b. split; [right; exact I | exact R].
  - assert (G : forall sts pre, map (pair j) sts ++ l = pre ++ (i, Asm code) :: post -> (forall c, ~ In (i, Asm c) pre) ->
      (i = j /\ exists a b, sts = a ++ Asm code :: b /\ forall c, ~ In (Asm c) a) \/ exists pre', l = pre' ++ (i, Asm code) :: post /\ forall c, ~ In (i, Asm c) pre').
    { clear. induction sts as [|s sts IH]; intros pre E N; cbn [map app] in E.
      - right. exists pre. auto.
      - destruct pre as [|y pre]; cbn [app] in E; injection E as E1 E2.
        + left. subst. split; [reflexivity|]. exists [], sts. split; [reflexivity | intros c []].
        + destruct (IH pre E2 (fun c I => N c (or_intror I))) as [[-> [a [b [-> Na]]]]|K]; [left | right; exact K]. split; [reflexivity|]. exists (s :: a), b. split; [reflexivity|].
          intros c [->|I]; [apply (N c); left; exact (eq_sym E1) | exact (Na c I)]. }
    destruct (G _ _ E Nn) as [[-> [a [b [Ea Na]]]]|[pre' [E' N']]]; [exists n, d, a, b; split; [left; reflexivity | auto]|].
    destruct (IH _ _ _ _ E' N') as [n' [d' [a [b [I R]]]]]. exists n', d', a, b. split; [right; exact I | exact R].
Qed.
Lemma asm_dec (sts : list stmt) : (exists c, In (Asm c) sts) \/ forall c, ~ In (Asm c) sts.
Proof.
  induction sts as [|s sts [[c I]|N]]; [right; intros c [] | left; exists c; right; exact I|]. destruct s as [e|n|g|sg| | |]; try (right; intros c [K|K]; [discriminate K | exact (N c K)]). left. eexists. left. reflexivity.
Qed.
Hypothesis St : log_settled p.
Lemma first_trace ds t : trace p ds t -> incl ds (pg_defines p) -> forall i code n d a b, In (n, d) ds -> live p n i -> d_stmts d = a ++ Asm code :: b -> (forall c, ~ In (Asm c) a) ->
  exists pre post, t = pre ++ (i, Asm code) :: post /\ forall c, ~ In (i, Asm c) pre.
Proof.
  induction 1 as [|n' d' ds l N T IH|n' d' j ds l L T IH]; intros Ic i code n d a b I Li E Na; [destruct I| |].
  - destruct I as [K|I]; [injection K as -> ->; destruct (N i Li)|]. apply (IH (fun y Y => Ic y (or_intror Y)) i code n d a b I Li E Na).
  - assert (Here : d' = d -> i = j -> exists pre post, map (pair j) (d_stmts d') ++ l = pre ++ (i, Asm code) :: post /\ forall c, ~ In (i, Asm c) pre).
    { intros -> ->. exists (map (pair j) a), (map (pair j) b ++ l). rewrite E, map_app, <- app_assoc. split; [reflexivity|]. intros c K. apply in_map_iff in K as [s [Es Is]]. injection Es as ->. exact (Na c Is). }
    destruct I as [K|I]; [injection K as -> ->; apply Here; [reflexivity | exact (live_inj p W n i j Li L)]|].
    destruct (asm_dec (d_stmts d')) as [[c Ic']|Nc]; [destruct (Nat.eq_dec i j) as [->|Ne]|].
    + assert (n' = n) as ->. { eapply (ls_asm p St j n' n d' d c code); [apply Ic; left; reflexivity | apply Ic; right; exact I | exact L | exact Li | exact Ic' | rewrite E; apply in_or_app; right; left; reflexivity]. }
      apply Here; [|reflexivity]. pose proof (proj2 (L_build1.sget_In (pg_defines p) n d' (wf_defines p W)) (Ic _ (or_introl eq_refl))) as A1. pose proof (proj2 (L_build1.sget_In (pg_defines p) n d (wf_defines p W)) (Ic _ (or_intror I))) as A2. congruence.
    + destruct (IH (fun y Y => Ic y (or_intror Y)) i code n d a b I Li E Na) as [pre [post [-> Np]]]. exists (map (pair j) (d_stmts d') ++ pre), post. split; [apply app_assoc|].
      intros c' K. apply in_app_or in K as [K|K]; [apply in_map_iff in K as [s [Es _]]; congruence | exact (Np c' K)].
    + destruct (IH (fun y Y => Ic y (or_intror Y)) i code n d a b I Li E Na) as [pre [post [-> Np]]]. exists (map (pair j) (d_stmts d') ++ pre), post. split; [apply app_assoc|].
      intros c' K. apply in_app_or in K as [K|K]; [apply in_map_iff in K as [s [Es Is]]; injection Es as _ ->; exact (Nc c' Is) | exact (Np c' K)].
Qed.
Definition is_cast (f : str) (y : nat * stmt) : {snd y = BitcastCall (Some f)} + {snd y <> BitcastCall (Some f)}.
Proof.
  destruct y as [k [e|[n|]|g|sg| | |]]; try (right; intros K; discriminate K). destruct (str_eqb n f) eqn:E; [left; apply str_eqb_eq in E; now subst | right; intros K; injection K as ->; now rewrite str_eqb_refl in E].
Defined.
(** What is told about the statements, without their order. *)
Definition reason_for (k : piece) : Prop :=
  match k with
  | PAsm i code => exists n d a b, In (n, d) (pg_defines p) /\ live p n i /\ d_stmts d = a ++ Asm code :: b /\ forall c, ~ In (Asm c) a
  | PCast f => (forall j, ~ chosen p j f) /\ exists i, body p i (BitcastCall (Some f))
  | PLow f => is_thumb (pg_target p) = false /\ assumed f /\ exists i, body p i (DirectCall f)
  end.
Lemma worth_reason t k : trace p (pg_defines p) t -> (worth p [] t k <-> reason_for k).
Proof.
  intros T. destruct k as [i code|f|f]; cbn [worth reason_for].
  - split.
    + intros [pre [post [E N]]]. exact (trace_first _ _ T i code pre post E N).
    + intros [n [d [a [b [I [L [E N]]]]]]]. exact (first_trace _ _ T (incl_refl _) i code n d a b I L E N).
  - split.
    + intros [C [pre [i [post [E _]]]]]. split; [exact C|]. exists i. apply (trace_body p W t T). rewrite E. apply in_or_app. right. left. reflexivity.
    + intros [C [i B]]. split; [exact C|]. apply (trace_body p W t T) in B. destruct (split_first (fun y => snd y = BitcastCall (Some f)) (is_cast f) t _ B eq_refl) as [pre [[j st] [post [E [Ey N]]]]]. cbn [snd] in Ey. subst st.
      exists pre, j, post. split; [exact E|]. cbn [app]. intros y Iy [[Sy [Ni [Nm Nl]]]|[Sy _]]; [|exact (N y Iy Sy)].
      destruct y as [k st]. cbn [snd] in Sy. subst st. destruct (ls_cast p St i k f) as [K|[K|[l K]]]; [apply (trace_body p W t T); exact B | apply (trace_body p W t T); rewrite E; apply in_or_app; left; exact Iy | exact (Ni K) | exact (Nm K) | exact (Nl l K)].
  - split; [intros [X [A [[k I] _]]] | intros [X [A [k I]]]]; (split; [exact X|]; split; [exact A|]); [|split; [|intros ? []]]; exists k; apply (trace_body p W t T); exact I.
Qed.
End Pieces.

(** * All messages *)
Lemma perm_F2 {A B} (R : A -> B -> Prop) l l' : (forall x a b, R x a -> R x b -> a = b) -> Permutation l l' -> forall a b, Forall2 R l a -> Forall2 R l' b -> Permutation a b.
Proof.
  intros Fn H. induction H as [|x l l' H IH|x y l|l m r H IH H' IH']; intros a b F G.
  - inversion F; inversion G; subst. constructor.
  - inversion F as [|? a0 ? a1 Ra Fa]; inversion G as [|? b0 ? b1 Rb Gb]; subst. rewrite (Fn _ _ _ Ra Rb). constructor. apply IH; assumption.
  - inversion F as [|? a0 ? a1 Ra Fa]; subst. inversion Fa as [|? a2 ? a3 Ra2 Fa2]; subst. inversion G as [|? b0 ? b1 Rb Gb]; subst. inversion Gb as [|? b2 ? b3 Rb2 Gb2]; subst.
    rewrite (Fn _ _ _ Ra Rb2), (Fn _ _ _ Ra2 Rb). assert (a3 = b3) as -> by exact (F2_fun R l Fn a3 b3 Fa2 Gb2). constructor.
  - assert (M : exists c, Forall2 R m c). { clear - F H. revert a F. induction H as [|x l l' H IH|x y l|l m r H IH H' IH']; intros a F.
      - exists []. constructor.
      - inversion F as [|? a0 ? a1 Ra Fa]; subst. destruct (IH _ Fa) as [c C]. exists (a0 :: c). constructor; assumption.
      - inversion F as [|? a0 ? a1 Ra Fa]; subst. inversion Fa as [|? a2 ? a3 Ra2 Fa2]; subst. exists (a2 :: a0 :: a3). repeat constructor; assumption.
      - destruct (IH _ F) as [c C]. exact (IH' _ C). }
    destruct M as [c C]. eapply perm_trans; [exact (IH a c F C) | exact (IH' c b C G)].
Qed.
Lemma perm_concat {A} (l l' : list (list A)) : Permutation l l' -> Permutation (concat l) (concat l').
Proof.
  induction 1 as [|x l l' H IH|x y l|l m r H IH H' IH']; cbn [concat]; [constructor | apply Permutation_app_head; exact IH | rewrite !app_assoc; apply Permutation_app_tail, Permutation_app_comm | eapply perm_trans; eassumption].
Qed.
Section Together.
Variables (p q : prog).
Hypothesis W : wf_prog p.
Hypothesis S : same_prog p q.
Hypothesis St : log_settled p.
Lemma st_same : log_settled q.
Proof.
  pose proof (same_sym p q S) as S'. constructor.
  - intros i n n' d d' c c' I I' L L'. apply (s_def p q S) in I, I'. apply (s_live p q S) in L, L'. exact (ls_asm p St i n n' d d' c c' I I' L L').
  - intros i j f B B'. apply (s_body p q S) in B, B'. destruct (ls_cast p St i j f B B') as [K|[K|[k K]]]; auto. right. right. exists k. apply (s_live p q S). exact K.
Qed.
Lemma t_reason k : reason_for p k <-> reason_for q k.
Proof.
  destruct k as [i code|f|f]; cbn [reason_for].
  - setoid_rewrite (s_def p q S). setoid_rewrite (s_live p q S). reflexivity.
  - setoid_rewrite (s_chosen p q S). setoid_rewrite (s_body p q S). reflexivity.
  - rewrite (sp_target _ _ S). setoid_rewrite (s_body p q S). reflexivity.
Qed.
Lemma t_said k m : said p k m -> said q k m.
Proof. intros [i c n C|f|f]; constructor. apply (s_chosen p q S). exact C. Qed.
Lemma named_stmts r t : wf_prog r -> trace r (pg_defines r) t -> forall x, In x t -> exists n, chosen r (fst x) n.
Proof. intros Wr T [i st] I. apply (trace_body r Wr t T) in I as [n [d [_ [L _]]]]. exact (live_chosen r n i L). Qed.
Lemma stmts_perm t1 t2 a b : trace p (pg_defines p) t1 -> trace q (pg_defines q) t2 -> stmts_log p [] t1 a -> stmts_log q [] t2 b -> Permutation a b.
Proof.
  intros T1 T2 A B. pose proof (wf_same p q W S) as Wq.
  destruct (stmts_pieces p t1 [] a (named_stmts p t1 W T1) A) as [k1 [D1 [F1 I1]]]. destruct (stmts_pieces q t2 [] b (named_stmts q t2 Wq T2) B) as [k2 [D2 [F2 I2]]].
  apply (perm_F2 (said q) k1 k2); [intros k x y; apply said_fun; exact Wq| |exact (Forall2_imp _ _ _ _ t_said F1)|exact F2].
  apply NoDup_Permutation; [exact D1 | exact D2|]. intros k. rewrite I1, I2, (worth_reason p W St t1 k T1), (worth_reason q Wq st_same t2 k T2). apply t_reason.
Qed.
Lemma sig_fun void s a b : sig_log p void s a -> sig_log p void s b -> a = b.
Proof.
  intros [l [x [y [L [-> [A B]]]]]] [l' [x' [y' [L' [-> [A' B']]]]]]. rewrite <- (sig_label_fun _ _ _ _ L L') in B'. rewrite (part_fun _ _ _ _ A A'), (part_fun _ _ _ _ B B'). reflexivity.
Qed.
Lemma sigs_perm void a b : sigs_log p void a -> sigs_log q void b -> Permutation a b.
Proof.
  intros [s1 [m1 [D1 [I1 [F1 ->]]]]] [s2 [m2 [D2 [I2 [F2 ->]]]]]. apply perm_concat. apply (perm_F2 (sig_log p void) s1 s2); [apply sig_fun| |exact F1|exact (Forall2_imp _ _ _ _ (t_sig q p (same_sym p q S) void) F2)].
  apply NoDup_Permutation; [exact D1 | exact D2|]. intros s. rewrite I1, I2. apply (s_called p q S).
Qed.
Lemma codes_fun a b : codes_log p a -> codes_log p b -> a = b.
Proof.
  intros [[T ->]|[[T [X ->]]|[T [X [l [F ->]]]]]] [[T' ->]|[[T' [X' ->]]|[T' [X' [l' [F' ->]]]]]]; try congruence. rewrite (F2_fun _ _ (code_fun p W) _ _ F F'). reflexivity.
Qed.
Hypothesis Ov : one_void p.
Lemma build_perm a b : build_notes p a -> build_notes q b -> Permutation a b.
Proof.
  intros [v [a1 [t [a2 [a3 [a4 [a5 [V [-> [A1 [T [A2 [A3 [A4 A5]]]]]]]]]]]]]] [w [b1 [u [b2 [b3 [b4 [b5 [V' [-> [B1 [U [B2 [B3 [B4 B5]]]]]]]]]]]]]]. pose proof (same_sym p q S) as S'.
  assert (w = v) as ->. { destruct v as [v|], w as [w|]; [f_equal; apply Ov; [apply (s_true_void p q S); exact V' | exact V] | destruct (V' v); apply (s_true_void p q S); exact V | destruct (V w); apply (s_true_void p q S); exact V' | reflexivity]. }
  rewrite (sp_defined _ _ S) in B1. apply (Forall2_imp _ (symbol_log p) _ _ (t_symbol q p S')) in B1. rewrite (F2_fun _ _ (symbol_fun p) _ _ A1 B1). apply Permutation_app_head. apply Permutation_app; [exact (stmts_perm t u a2 b2 T U A2 B2)|].
  rewrite (codes_fun a3 b3 A3 (t_codes q p S' b3 B3)). apply Permutation_app_head. apply (part_iff _ _ _ _ (s_untyped q p S')) in B4. rewrite (part_fun _ _ _ _ A4 B4). apply Permutation_app_head. exact (sigs_perm v a5 b5 A5 B5).
Qed.
Theorem notes_perm demangle start a b : notes demangle p start a -> notes demangle q start b -> Permutation a b.
Proof.
  intros [a1 [a2 [a3 [-> [A1 [A2 A3]]]]]] [b1 [b2 [b3 [-> [B1 [B2 B3]]]]]]. pose proof (same_sym p q S) as S'. apply Permutation_app; [exact (build_perm a1 b1 A1 B1)|].
  rewrite (start_same demangle p start a2 b2 A2 (t_start q p S' demangle start b2 B2)). apply Permutation_app_head.
  assert (M : ~ measured q <-> ~ measured p) by (rewrite (t_measured q p S'); reflexivity). apply (part_iff _ _ _ _ M) in B3. rewrite (part_fun _ _ _ _ A3 B3). apply Permutation_refl.
Qed.
End Together.

(** * Reports *)
Lemma report_logs_perm demangle o1 o2 start p q r1 r2 : wf_prog p -> same_prog p q -> fair o1 -> fair o2 -> one_void p -> log_settled p ->
  report demangle o1 start p = Ret r1 -> report demangle o2 start q = Ret r2 -> Permutation (fst (report_log demangle o1 start p)) (fst (report_log demangle o2 start q)).
Proof.
  intros W S F1 F2 Ov St R1 R2. pose proof (wf_same p q W S) as Wq.
  assert (U : forall o p r, wf_prog p -> fair o -> report demangle o start p = Ret r -> notes demangle p start (fst (report_log demangle o start p))).
  { clear. intros o p r W F R. destruct (report_told demangle o start p _ _ W F (surjective_pairing (report_log demangle o start p))) as [K _]. apply K. apply (build_iff demangle o p W). unfold report in R. destruct (bind_inv _ _ _ R) as [b [B _]]. exists b. exact B. }
  exact (notes_perm p q W S St Ov demangle start _ _ (U o1 p r1 W F1 R1) (U o2 q r2 Wq F2 R2)).
Qed.
Theorem report_log_same demangle o1 o2 start p q m1 m2 r1 r2 : wf_prog p -> same_prog p q -> fair o1 -> fair o2 -> one_void p -> log_settled p ->
  report_log demangle o1 start p = (m1, Ret r1) -> report_log demangle o2 start q = (m2, Ret r2) -> Permutation m1 m2.
Proof.
  intros W S F1 F2 Ov St R1 R2. pose proof (report_logs_perm demangle o1 o2 start p q r1 r2 W S F1 F2 Ov St) as H. rewrite <- !report_erase, R1, R2 in H. exact (H eq_refl eq_refl).
Qed.
