(** Examples for programs whose stack usage is bounded, and not. *)
From Verif Require Import M_base M_stack M_graph M_names M_thumb M_ty M_parse M_build M_run M_log S_names S_graph S_sig S_build S_run S_log S_attain S_bounded L_base L_names L_build1 L_build2 L_build3 L_build6 L_build8 L_run L_run2 X_build X_finite X_log X_attain L_bounded.
Local Open Scope string_scope.
Local Open Scope list_scope.

Lemma p3_closed : closed p3.
Proof. destruct p3_silent as [g [cs [H _]]]. exact (silent_closed idd o_id None p3 (g, cs) p3_wf o_id_fair H p3_called). Qed.

Lemma circles_stmts i st : body p_circles i st -> st = Label \/ st = Other \/ exists f, st = DirectCall f /\ In f (map lit ["main"; "even"; "odd"]).
Proof.
  intros B. apply body_in in B. destruct B as [n [d [I K]]]. cbn in I. each I; injection I as <- <-; cbn in K; each K; subst st;
    try (left; reflexivity); try (right; left; reflexivity); right; right; eexists; (split; [reflexivity|]); cbn; tauto.
Qed.
Ltac circles B := destruct (circles_stmts _ _ B) as [K|[K|[f0 [K I0]]]]; [discriminate K..|]; try discriminate K.
Lemma circles_moves : no_memmove p_circles.
Proof. intros _ i r B. circles B. cbn in I0. each I0; subst f0; discriminate K. Qed.
Lemma circles_called : forall i f, body p_circles i (DirectCall f) -> ~ intrinsic f -> exists j, live p_circles f j.
Proof. intros i f B _. circles B. injection K as ->. cbn in I0. each I0; subst f0; [exists 0 | exists 1 | exists 2]; live_tac. Qed.
Lemma circles_void v : ~ true_void p_circles v.
Proof.
  intros [[j T] _]. assert (H : exists n d, In (n, d) (pg_defines p_circles) /\ fmt_sig (TAlias v) = d_sig d).
  { destruct T as [[ns [n [d [_ [_ [I E]]]]]]|[ns [n [_ [_ [_ []]]]]]]. exists n, d. split; assumption. }
  destruct H as [n [d [I E]]]. cbn in I. each I; injection I as <- <-; discriminate E.
Qed.
Lemma circles_covered : covered p_circles.
Proof.
  intros i. constructor.
  - intros B. circles B. exfalso. cbn in I0. each I0; subst f0; discriminate K.
  - intros f j B. circles B.
  - intros _ f n j B M. circles B. injection K as ->. exfalso. cbn in I0. each I0; subst f0; inversion M as [r m I E|r m I E|r m I E]; discriminate E.
  - intros s' j s r B. circles B.
  - intros _ s' B. circles B.
  - intros s' j s B. circles B.
  - apply all_read. vm_compute. reflexivity.
  - intros T. discriminate T.
  - intros [[c B] _]. circles B.
Qed.
Lemma circles_silent : exists g cs, report_log idd o_id None p_circles = ([], Ret (g, cs)) /\ reported g 0 (MLower 24).
Proof. eexists. eexists. split; [vm_compute; reflexivity|]. eexists. split; reflexivity. Qed.
Lemma circles_closed : closed p_circles.
Proof. destruct circles_silent as [g [cs [H _]]]. exact (silent_closed idd o_id None p_circles (g, cs) (proj1 circles_wf) o_id_fair H circles_called). Qed.
Lemma circles_report : exists g cs, report idd o_id None p_circles = Ret (g, cs) /\ reported g 0 (MLower 24) /\ reported g 2 (MLower 8).
Proof. eexists. eexists. split; [vm_compute; reflexivity|]. split; eexists; split; reflexivity. Qed.
(** The executions of `main` and of `odd` have no bound: `main` calls itself and uses 16 bytes each time. *)
Fixpoint mains (n : nat) : list nat := match n with 0 => [0] | S n' => 0 :: mains n' end.
Lemma mains_run n : runs p_circles 0 (mains n) /\ depth p_circles (mains n) (16 * N.of_nat (S n)).
Proof.
  assert (U : usage p_circles 0 (LExact 16)) by (apply us_llvm; [left; reflexivity|]; exists (lit "main"); split; [apply chosen_find; vm_compute; reflexivity | cbn; left; reflexivity]).
  induction n as [|n [IH1 IH2]].
  - split; [constructor; cbn; lia|]. change (16 * N.of_nat 1)%N with (16 + 0)%N. constructor; [exact U | constructor].
  - split.
    + apply runs_call with 0; [|exact IH1]. apply iv_direct with (lit "main"); [body_tac | | live_tac]. intros [r E]. discriminate E.
    + cbn [mains]. replace (16 * N.of_nat (S (S n)))%N with (16 + 16 * N.of_nat (S n))%N by lia. constructor; [exact U | exact IH2].
Qed.
Lemma depth_one p l d d' : wf_prog p -> depth p l d -> depth p l d' -> d = d'.
Proof.
  intros W D. revert d'. induction D as [|i k l d U D IH]; intros d' D'; inversion D' as [|i2 k2 l2 d2 U2 D2]; subst; [reflexivity|].
  pose proof (usage_fun p i _ _ W U U2) as E. injection E as ->. now rewrite (IH _ D2).
Qed.
Lemma circles_unbounded : ~ bounded p_circles 0.
Proof.
  intros [B H]. destruct (mains_run (N.to_nat B)) as [R D]. destruct (H _ R) as [d [D' L]]. rewrite (depth_one p_circles _ _ _ (proj1 circles_wf) D' D) in L. lia.
Qed.
Lemma p3_usage i : usage p3 i (LExact 8) -> i = 0.
Proof.
  intros U. assert (L : llvm_size p3 i (Some 8%N)) by (inversion U; try assumption; match goal with A : analysed _ _ _ _ _ |- _ => destruct A as [A _]; discriminate A end).
  destruct L as [n [C I]]. apply p3_chosen in C. destruct i as [|[|[|[|i]]]]; [reflexivity|..]; vm_compute in C; try (destruct i; discriminate C); injection C as <-; cbn in I; each I; discriminate I.
Qed.
Lemma p3_bounded : bounded p3 0.
Proof.
  assert (R : exists g cs nd, report idd o_id None p3 = Ret (g, cs) /\ nth_error (gnodes g) 0 = Some nd /\ nmax nd = Some (MExact 32) /\ nlocal nd = LExact 8 /\ ndashed nd = false).
  { eexists. eexists. eexists. split; [vm_compute; reflexivity|]. repeat split. }
  destruct R as [g [cs [nd [R [En [Mx [Lo Da]]]]]]]. destruct (exact_iff_bounded idd o_id None p3 g cs p3_wf o_id_fair R p3_moves p3_covered p3_void p3_closed) as [ks [void [Pi Hx]]].
  destruct (nth_error ks 0) as [k|] eqn:Ek; [|exfalso; apply nth_error_None in Ek; rewrite (proj2 (pi_keys _ _ _ _ _ _ _ Pi)) in Ek; apply nth_error_None in Ek; rewrite Ek in En; discriminate En].
  destruct (pi_show _ _ _ _ _ _ _ Pi _ _ _ Ek En) as [vv [nd0 [No [L1 [D1 _]]]]]. rewrite Lo in L1. rewrite Da in D1. destruct No as [i n l C U|n|i|s l L|s]; cbn [nlocal ndashed] in L1, D1; try discriminate L1; try discriminate D1.
  subst l. rewrite (p3_usage i U) in Ek. exact (proj1 (proj1 (Hx 0 0 _ Ek (ex_intro _ nd (conj En Mx)))) Logic.I).
Qed.
(** A program of which one function leaves what is known, which does not concern [main]. *)
Definition p_out : prog := mkProg OtherTarget
  [fdef "main" (fsig [] None) [DirectCall (lit "leaf")]; fdef "leaf" (fsig [] (Some (TInt 8))) []; fdef "other" bin [DirectCall (lit "extern_fn"); DirectCall (lit "leaf")]]
  [(lit "extern_fn", Some (fsig [] None))] [(lit "main", 8%N); (lit "leaf", 16%N); (lit "other", 4%N)]
  [at_ 4096 ["main"]; at_ 4112 ["leaf"]; at_ 4128 ["other"]] [lit "extern_fn"] [] None.
Lemma out_wf : wf_prog p_out.
Proof. apply wf_progb_sound. vm_compute. reflexivity. Qed.
Lemma out_stmts i st : body p_out i st -> st = Label \/ st = Other \/ exists f, st = DirectCall f /\ In f (map lit ["leaf"; "extern_fn"]).
Proof.
  intros B. apply body_in in B. destruct B as [n [d [I K]]]. cbn in I. each I; injection I as <- <-; cbn in K; each K; subst st;
    try (left; reflexivity); try (right; left; reflexivity); right; right; eexists; (split; [reflexivity|]); cbn; tauto.
Qed.
Ltac out B := destruct (out_stmts _ _ B) as [K|[K|[f0 [K I0]]]]; [discriminate K..|]; try discriminate K.
Lemma out_moves : no_memmove p_out.
Proof. intros _ i r B. out B. cbn in I0. each I0; subst f0; discriminate K. Qed.
Lemma out_void v : ~ true_void p_out v.
Proof.
  intros [[j T] _]. destruct T as [[ns [n [d [_ [_ [I E]]]]]]|[ns [n [_ [_ [_ I]]]]]].
  - cbn in I. each I; injection I as <- <-; discriminate E.
  - cbn in I. each I. injection I as E1 E2. discriminate E2.
Qed.
Lemma out_covered : covered p_out.
Proof.
  intros i. constructor.
  - intros B. out B. exfalso. cbn in I0. each I0; subst f0; discriminate K.
  - intros f j B. out B.
  - intros _ f n j B M. out B. injection K as ->. exfalso. cbn in I0. each I0; subst f0; inversion M as [r m I E|r m I E|r m I E]; discriminate E.
  - intros s' j s r B. out B.
  - intros _ s' B. out B.
  - intros s' j s B. out B.
  - apply all_read. vm_compute. reflexivity.
  - intros T. discriminate T.
  - intros [[c B] _]. out B.
Qed.
Lemma out_stable : stable p_out.
Proof.
  intros n [[i [B _]]|[i [B _]]]; out B. injection K as ->. cbn in I0. each I0; subst f0; (split; [discriminate|]); intros f L; inversion L as [r m I|r m I|r m I]; subst; cbn in I; each I; discriminate I.
Qed.
Ltac third := eexists; eexists; split; [cbn; right; right; left; reflexivity | split; [live_tac | cbn; tauto]].
Lemma out_created : created p_out (lit "extern_fn").
Proof.
  left. exists 2. split; [third|]. split; [intros [r E]; discriminate E|]. split; [discriminate|]. intros j [ns [[x [E ->]] I]]. cbn in E. destruct j as [|[|[|j]]]; [..|destruct j; discriminate E]; injection E as <-; cbn in I; each I; discriminate I.
Qed.
Lemma out_report : exists g cs, report idd o_id None p_out = Ret (g, cs) /\ reported g 0 (MExact 24) /\ reported g 2 (MLower 20).
Proof. eexists. eexists. split; [vm_compute; reflexivity|]. split; eexists; split; reflexivity. Qed.
Lemma out_escapes : escapes p_out 2 /\ ~ inside p_out 2.
Proof.
  assert (E : escapes p_out 2).
  { destruct out_created as [[i [B [Ni [Nm L]]]]|[i [B _]]]; [|out B]. apply es_name with (lit "extern_fn"); [third | exact Ni | exact Nm | exact L]. }
  split; [exact E|]. intros H. apply (H [] 2); [constructor; cbn; lia | exact E].
Qed.
Lemma out_calls i j : invokes p_out i j -> j = 1 /\ (i = 0 \/ i = 2).
Proof.
  intros H. destruct H as [f B _ L|f B _|f n _ B M _|s' s B _ _|s' B _|J|Bl|Un|As]; try (out B; fail).
  - assert (X : i = 0 \/ i = 2).
    { destruct B as [n [d [I [Lv Ib]]]]. cbn in I. destruct Lv as [ns [[t [E ->]] In]]. cbn in E. destruct i as [|[|[|i]]]; [left; reflexivity | | right; reflexivity | destruct i; discriminate E]. exfalso.
      injection E as <-. cbn in In. each In. subst n. each I; injection I; intros; subst; try discriminate; cbn in Ib; each Ib; discriminate Ib. }
    split; [|exact X]. out B. injection K as ->. destruct L as [ns [[t [E ->]] In]]. cbn in E. destruct j as [|[|[|j]]]; [|reflexivity| |destruct j; discriminate E]; exfalso; injection E as <-; cbn in In, I0; each In; subst f0; each I0; discriminate I0.
  - out B. injection K as ->. exfalso. cbn in I0. each I0; subst f0; inversion M as [r m I E|r m I E|r m I E]; discriminate E.
  - destruct J as [x1 [x2 [x3 [[A _] _]]]]. discriminate A.
  - destruct Bl as [[x1 [x2 [x3 [[A _] _]]]] _]. discriminate A.
  - exfalso. revert Un. apply all_read. vm_compute. reflexivity.
  - destruct As as [[c B] _]. out B.
Qed.
Lemma out_runs l : runs p_out 0 l -> l = [0] \/ l = [0; 1].
Proof.
  intros R. remember 0 as i eqn:Ei. destruct R as [i Hi|i j l C R]; subst i; [left; reflexivity|]. destruct (out_calls 0 j C) as [-> _]. right. remember 1 as i eqn:Ei. destruct R as [i Hi|i j l C2 R]; subst i; [reflexivity|].
  destruct (out_calls 1 j C2) as [_ [X|X]]; discriminate X.
Qed.
Lemma out_inside : inside p_out 0.
Proof.
  intros l j R E. apply out_runs in R. assert (X : j = 0 \/ j = 1) by (destruct R as [R|R]; [change [0] with ([] ++ [0]) in R | change [0; 1] with ([0] ++ [1]) in R]; apply app_inj_tail in R; tauto).
  assert (O : forall f, body p_out j (DirectCall f) -> f = lit "leaf").
  { intros f [n [d [I [Lv Ib]]]]. cbn in I. destruct Lv as [ns [[t [E1 ->]] In]]. cbn in E1. destruct X as [-> | ->]; injection E1 as <-; cbn in In; each In; subst n; each I; injection I; intros; subst; try discriminate; cbn in Ib; each Ib; try discriminate Ib; injection Ib as <-; reflexivity. }
  destruct E as [f B Ni Nf L|f B _|Bl|s' B _].
  - apply O in B. subst f. apply (L 1). live_tac.
  - out B.
  - destruct Bl as [[x1 [x2 [x3 [[A _] _]]]] _]. discriminate A.
  - out B.
Qed.
Lemma out_bounded : bounded p_out 0.
Proof.
  assert (U0 : usage p_out 0 (LExact 8)) by (apply us_llvm; [left; reflexivity|]; exists (lit "main"); split; [apply chosen_find; vm_compute; reflexivity | cbn; left; reflexivity]).
  assert (U1 : usage p_out 1 (LExact 16)) by (apply us_llvm; [left; reflexivity|]; exists (lit "leaf"); split; [apply chosen_find; vm_compute; reflexivity | cbn; right; left; reflexivity]).
  exists 24%N. intros l R. destruct (out_runs l R) as [-> | ->].
  - exists (8 + 0)%N. split; [constructor; [exact U0 | constructor] | lia].
  - exists (8 + (16 + 0))%N. split; [constructor; [exact U0 | constructor; [exact U1 | constructor]] | lia].
Qed.
