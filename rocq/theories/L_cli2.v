(** The command line that `cargo call-stack` passes on. *)
From Verif Require Import M_base M_stack M_graph M_analysis M_filter M_names M_thumb M_ty M_parse M_build M_run M_log M_wrapper M_driver S_names S_graph S_sig S_build S_run S_log S_driver.
From Verif Require Import L_base L_names L_build1 L_run L_log L_log2 L_log8 L_log9 L_log10 L_driver1 L_driver2 L_driver3 L_driver4 L_driver5.
From Verif Require Import M_cli S_cli L_cli.

Definition started (a : args) (s : option str) : args :=
  mkArgs (a_target a) (a_bin a) (a_example a) (a_features a) (a_all_features a) (a_verbose a) (a_format a) s.
Section Cargo.
Variables (utf8 : str -> bool) (exe c : str) (argv : list str).
Hypothesis (Hw : word c) (Hu : utf8 c = true).
Definition r1 : reading := mkReading (started no_args (Some c)) false.
Lemma reads : cli utf8 (exe :: c :: argv) = read_cli utf8 argv None r1.
Proof. unfold cli. cbn [skipn]. rewrite (read_word utf8 c argv _ Hw). unfold set_start. rewrite Hu. reflexivity. Qed.
Lemma r1_stands : stands [SStart c] r1.
Proof.
  destruct (ap_new utf8 [] _ (SStart c) empty_stands Hu (fun x => x)) as [r' [E S]]. cbn [ap] in E. unfold set_start in E. rewrite Hu in E. injection E as <-. exact S.
Qed.
Lemma r1_explained : explained utf8 [SStart c] argv (cli utf8 (exe :: c :: argv)).
Proof. rewrite reads. apply (read_explained utf8 (length argv) argv (Nat.le_refl _)); [exact r1_stands|]. unfold once. cbn. constructor; [intros [] | constructor]. Qed.
Lemma no_start_in ss : once (SStart c :: ss) -> forall v, ~ In (SStart v) ss.
Proof. intros O v I. unfold once in O. cbn [map kind] in O. apply NoDup_cons_iff in O. apply (proj1 O). exact (in_map kind ss (SStart v) I). Qed.
Lemma says_drop ss b : once (SStart c :: ss) -> says (SStart c :: ss) b -> says ss (started b None) /\ a_start b = Some c.
Proof.
  intros O Y. pose proof (no_start_in ss O) as N. destruct Y as [Y1 Y2 Y3 Y4 Y5 Y6 Y7 Y8 Y9]. split.
  - constructor; cbn [started a_target a_bin a_example a_features a_format a_all_features a_verbose a_start].
    + intros v. rewrite Y1. split; [intros [K|K]; [discriminate K | exact K] | now right].
    + intros v. rewrite Y2. split; [intros [K|K]; [discriminate K | exact K] | now right].
    + intros v. rewrite Y3. split; [intros [K|K]; [discriminate K | exact K] | now right].
    + intros v. rewrite Y4. split; [intros [K|K]; [discriminate K | exact K] | now right].
    + intros f I. apply Y5. now right.
    + intros K. apply Y6. intros f [I|I]; [discriminate I | exact (K f I)].
    + rewrite Y7. split; [intros [K|K]; [discriminate K | exact K] | now right].
    + rewrite Y8. split; [intros [K|K]; [discriminate K | exact K] | now right].
    + intros v. split; [discriminate | intros K; destruct (N v K)].
  - apply Y9. now left.
Qed.
Lemma says_add ss a : says ss a -> a_start a = None -> says (SStart c :: ss) (started a (Some c)).
Proof.
  intros [Y1 Y2 Y3 Y4 Y5 Y6 Y7 Y8 Y9] E. constructor; cbn [started a_target a_bin a_example a_features a_format a_all_features a_verbose a_start].
  - intros v. rewrite Y1. split; [now right | intros [K|K]; [discriminate K | exact K]].
  - intros v. rewrite Y2. split; [now right | intros [K|K]; [discriminate K | exact K]].
  - intros v. rewrite Y3. split; [now right | intros [K|K]; [discriminate K | exact K]].
  - intros v. rewrite Y4. split; [now right | intros [K|K]; [discriminate K | exact K]].
  - intros f [I|I]; [discriminate I | exact (Y5 f I)].
  - intros K. apply Y6. intros f I. apply (K f). now right.
  - rewrite Y7. split; [now right | intros [K|K]; [discriminate K | exact K]].
  - rewrite Y8. split; [now right | intros [K|K]; [discriminate K | exact K]].
  - intros v. split; [intros K; injection K as ->; now left|]. intros [K|K]; [injection K as ->; reflexivity|]. apply Y9 in K. rewrite E in K. discriminate K.
Qed.
(** With a word in front the rest may not have a start point. *)
Theorem front_iff b : cli utf8 (exe :: c :: argv) = Parsed b <->
  exists a, cli utf8 (exe :: argv) = Parsed a /\ a_start a = None /\ b = started a (Some c).
Proof.
  split.
  - intros E. pose proof r1_explained as X. rewrite E in X. destruct X as [ss [L [O Y]]]. cbn [app] in O, Y. destruct (says_drop ss b O Y) as [Y' Sb]. exists (started b None).
    split; [apply cli_iff; exists ss; split; [exact L|]; split; [|exact Y'] | split; [reflexivity | destruct b; cbn in Sb |- *; now subst]].
    unfold once in O |- *. cbn [map] in O. now apply NoDup_cons_iff in O.
  - intros [a [E [N ->]]]. apply cli_iff in E. destruct E as [ss [L [O Y]]]. apply cli_iff. exists (SStart c :: ss). split; [exact (spelled_more utf8 _ [c] ss argv (sp_start utf8 c Hw Hu) L)|].
    split; [|exact (says_add ss a Y N)]. unfold once. cbn [map kind]. constructor; [|exact O]. intros I. apply in_map_iff in I. destruct I as [t [K I]]. destruct t; try discriminate K. apply (sa_start ss a Y) in I. congruence.
Qed.
Theorem front_shown : cli utf8 (exe :: c :: argv) = Shown -> cli utf8 (exe :: argv) = Shown.
Proof.
  intros E. pose proof r1_explained as X. rewrite E in X. destruct X as [ss [ws [h [rest [F [O [-> A]]]]]]]. apply cli_shown. exists ss, ws, h, rest. cbn [app] in O, A. split; [exact F|]. split; [unfold once in *; cbn [map] in O; now apply NoDup_cons_iff in O|]. split; [reflexivity|].
  destruct A as [| |d more Hd|d more Hd N]; [constructor | constructor | now constructor | constructor; [exact Hd|]]. intros I. apply N. now right.
Qed.
Theorem front_refused a s : cli utf8 (exe :: argv) = Parsed a -> a_start a = Some s -> cli utf8 (exe :: c :: argv) = Refused.
Proof.
  intros E Hs. destruct (cli utf8 (exe :: c :: argv)) as [b| |] eqn:Ec; [| |reflexivity].
  - apply front_iff in Ec. destruct Ec as [a' [E' [N _]]]. rewrite E in E'. injection E' as <-. congruence.
  - apply front_shown in Ec. congruence.
Qed.
End Cargo.

(** ** A start point that is not found changes only the log *)
Lemma report_missing demangle o p s : wf_prog p -> fair o -> ~ quiet_start demangle p (Some s) -> report demangle o (Some s) p = report demangle o None p.
Proof.
  intros W Fo Q. unfold report. destruct (build demangle o p) as [b| | |] eqn:E; try reflexivity. cbn. unfold finish. unfold filter_start, resolve_start. cbv zeta. fold (hits demangle b s).
  pose proof (sget_shown demangle o p b W Fo E s) as Sh. destruct (sget (b_indices b) s) as [u|].
  - destruct Q. intros s' Es. injection Es as <-. left. apply Sh. now exists u.
  - pose proof (hits_iff demangle o p b W Fo E s) as HI. destruct (hits demangle b s) as [|[n1 u1] [|[n2 u2] l]]; [reflexivity | | reflexivity].
    destruct Q. intros s' Es. injection Es as <-. right. exists n1. intros m. rewrite <- HI. cbn. split; [intros [<-|[]]; reflexivity | intros ->; now left].
Qed.
Lemma effects_app a b : effects (a ++ b) = effects a ++ effects b.
Proof. unfold effects. apply filter_app. Qed.
Lemma effects_logs ms : effects (map ELog ms) = [].
Proof. induction ms as [|m ms IH]; [reflexivity | exact IH]. Qed.
Definition alike {A} (x y : io A) : Prop := effects (fst x) = effects (fst y) /\ snd x = snd y.
Lemma alike_refl {A} (x : io A) : alike x x.
Proof. split; reflexivity. Qed.
Lemma alike_bind {A B} (x y : io A) (f g : A -> io B) : alike x y -> (forall a, snd x = Ret a -> alike (f a) (g a)) -> alike (ibind x f) (ibind y g).
Proof.
  destruct x as [t r], y as [t' r']. unfold alike at 1. cbn [fst snd]. intros [Et <-] K. unfold ibind. destruct r as [a| | |]; try (split; [exact Et | reflexivity]).
  destruct (K a eq_refl) as [K1 K2]. cbn [fst snd]. split; cbn [fst snd]; [rewrite !effects_app, Et, K1; reflexivity | exact K2].
Qed.
Lemma touch_args w a b : touch (with_args w a) = touch (with_args w b).
Proof.
  unfold touch. cbv zeta. change (w_set_times (with_args w a)) with (w_set_times w). change (w_set_times (with_args w b)) with (w_set_times w). destruct (is_ok _); [reflexivity|]. destruct (is_ok _); [reflexivity|].
  change (w_walk (with_args w a)) with (w_walk w). change (w_walk (with_args w b)) with (w_walk w). change (w_exists (with_args w a)) with (w_exists w). change (w_exists (with_args w b)) with (w_exists w). change (w_root (with_args w a)) with (w_root w). change (w_root (with_args w b)) with (w_root w).
  generalize (w_walk w (if w_exists w (join (w_root w) (lit "src")) then join (w_root w) (lit "src") else w_root w)) as l. induction l as [|e l IH]; [reflexivity|]. cbn [touch_first]. unfold ibind. destruct (snd (lift e)) as [path| | |]; try reflexivity.
  destruct (is_rs path); [reflexivity|]. rewrite IH. reflexivity.
Qed.
Lemma bind_ext {A B} (x : outcome A) (f g : A -> outcome B) : (forall a, f a = g a) -> bind x f = bind x g.
Proof. intros K. destruct x; cbn [bind]; [apply K | reflexivity..]. Qed.
Lemma load_started w a s target file rlib ll : load_files (with_args w (started a s)) target file rlib ll = load_files (with_args w a) target file rlib ll.
Proof.
  assert (A : forall ms, archive_sizes (with_args w (started a s)) ms = archive_sizes (with_args w a) ms).
  { induction ms as [|m ms IH]; [reflexivity|]. cbn [archive_sizes]. rewrite IH. reflexivity. }
  unfold load_files. cbv zeta. apply bind_ext. intros path. apply bind_ext. intros elf. apply bind_ext. intros dir. apply bind_ext. intros [[name t]|]; [|reflexivity].
  do 6 (apply bind_ext; intros ?). apply bind_ext; intros ms. rewrite A. reflexivity.
Qed.
Lemma run_missing demangle w a s : sane w -> a_start a = None ->
  (forall target file rlib ll p, load (with_args w a) target file rlib ll = Ret p -> ~ quiet_start demangle p (Some s)) ->
  alike (run demangle (with_args w (started a (Some s)))) (run demangle (with_args w a)).
Proof.
  intros Sw Ea H. assert (Sa : sane (with_args w a)) by (destruct Sw; constructor; assumption). unfold run. cbn [with_args w_wrapper]. rewrite (sane_user w Sw).
  change (w_meta (with_args w (started a (Some s)))) with (w_meta w). change (w_meta (with_args w a)) with (w_meta w). apply alike_bind; [apply alike_refl|]. intros _ _.
  change (w_hash (with_args w (started a (Some s)))) with (w_hash (with_args w a)). change (w_override (with_args w (started a (Some s)))) with (w_override (with_args w a)).
  match goal with |- alike (if ?c then _ else _) _ => destruct c end; [apply alike_refl|]. cbv zeta. change (w_args (with_args w (started a (Some s)))) with (started a (Some s)). change (w_args (with_args w a)) with a.
  change (pick_file (started a (Some s))) with (pick_file a). apply alike_bind; [apply alike_refl|]. intros file _.
  apply alike_bind; [apply alike_refl|]. intros config _. apply alike_bind; [apply alike_refl|]. intros _ _. apply alike_bind; [apply alike_refl|]. intros cfg _. apply alike_bind; [apply alike_refl|]. intros x _.
  rewrite (touch_args w (started a (Some s)) a). apply alike_bind; [apply alike_refl|]. intros _ _. apply alike_bind; [apply alike_refl|]. intros _ _. unfold build_and_analyse. apply alike_bind; [apply alike_refl|]. intros _ _.
  apply alike_bind; [apply alike_refl|]. intros child _. apply alike_bind; [apply alike_refl|]. intros [r l] _. destruct (snd child) as [[| |]|]; [|apply alike_refl..]. unfold analyse. destruct r as [r|]; [|apply alike_refl]. destruct l as [l|]; [|apply alike_refl].
  unfold loading at 1. rewrite load_started. fold (loading demangle (with_args w a) (target_of w config) file r l). apply alike_bind; [apply alike_refl|]. intros p Lp. apply loading_inv in Lp. apply alike_bind.
  - unfold logged. split; cbn [fst snd]; [rewrite !effects_logs; reflexivity|]. rewrite !report_erase. change (a_start (w_args (with_args w (started a (Some s))))) with (Some s). change (a_start (w_args (with_args w a))) with (a_start a). rewrite Ea.
    destruct (loaded (with_args w a) _ file r l p Sa Lp) as [Wp _]. apply report_missing; [exact Wp | exact (sane_orders w Sw) | exact (H _ file r l p Lp)].
  - intros [g cycles] _. apply alike_refl.
Qed.
Lemma main_alike demangle w w' : alike (run demangle w) (run demangle w') -> effects (fst (main demangle w)) = effects (fst (main demangle w')) /\ snd (main demangle w) = snd (main demangle w').
Proof.
  unfold main, alike. destruct (run demangle w) as [t r], (run demangle w') as [t' r']. cbn [fst snd]. intros [E <-]. destruct r; cbn [fst snd]; rewrite ?effects_app, ?E; split; reflexivity.
Qed.

(** A command line that asks for nothing twice has a meaning. *)
Lemma stands_all utf8 ss ws : Forall2 (spelled utf8) ss ws -> once ss -> exists r, stands ss r.
Proof. intros F O. destruct (read_all utf8 ss ws F [] _ [] empty_stands O) as [r [S _]]. now exists r. Qed.
Lemma line_says utf8 ss argv : line utf8 ss argv -> once ss -> exists a, says ss a.
Proof.
  intros L O. destruct L as [ss ws F|ss ws F|ss ws v F U].
  - destruct (stands_all utf8 ss ws F O) as [r [Y _]]. now exists (rd_args r).
  - destruct (stands_all utf8 ss ws F O) as [r [Y _]]. now exists (rd_args r).
  - assert (O' : once ss) by (unfold once in *; rewrite map_app in O; exact (nodup_front _ _ O)). destruct (stands_all utf8 ss ws F O') as [r S].
    destruct (ap_new utf8 ss r (SStart v) S U) as [r' [_ S']]; [|exists (rd_args r'); exact (proj1 S')].
    intros I. unfold once in O. rewrite map_app in O. cbn [map] in O. apply NoDup_remove_2 in O. apply O. now rewrite app_nil_r.
Qed.
Lemma touch_argv w l a : touch (with_args (with_argv w l) a) = touch (with_args w a).
Proof.
  unfold touch. cbv zeta. change (w_set_times (with_args w a)) with (w_set_times w). change (w_set_times (with_args (with_argv w l) a)) with (w_set_times w). destruct (is_ok _); [reflexivity|]. destruct (is_ok _); [reflexivity|].
  change (w_walk (with_args w a)) with (w_walk w). change (w_walk (with_args (with_argv w l) a)) with (w_walk w). change (w_exists (with_args w a)) with (w_exists w). change (w_exists (with_args (with_argv w l) a)) with (w_exists w).
  change (w_root (with_args w a)) with (w_root w). change (w_root (with_args (with_argv w l) a)) with (w_root w).
  generalize (w_walk w (if w_exists w (join (w_root w) (lit "src")) then join (w_root w) (lit "src") else w_root w)) as k. induction k as [|e k IH]; [reflexivity|]. cbn [touch_first]. unfold ibind. destruct (snd (lift e)) as [path| | |]; try reflexivity.
  destruct (is_rs path); [reflexivity|]. rewrite IH. reflexivity.
Qed.
Lemma load_argv w l a target file rlib ll : load_files (with_args (with_argv w l) a) target file rlib ll = load_files (with_args w a) target file rlib ll.
Proof.
  assert (A : forall ms, archive_sizes (with_args (with_argv w l) a) ms = archive_sizes (with_args w a) ms).
  { induction ms as [|m ms IH]; [reflexivity|]. cbn [archive_sizes]. rewrite IH. reflexivity. }
  unfold load_files. cbv zeta. apply bind_ext. intros path. apply bind_ext. intros elf. apply bind_ext. intros dir. apply bind_ext. intros [[name t]|]; [|reflexivity].
  do 6 (apply bind_ext; intros ?). apply bind_ext; intros ms. rewrite A. reflexivity.
Qed.
Lemma ibind_ext {A B} (x : io A) (f g : A -> io B) : (forall a, f a = g a) -> ibind x f = ibind x g.
Proof. intros K. unfold ibind. destruct (snd x); try reflexivity. cbv zeta. rewrite K. reflexivity. Qed.
(** Only the wrapper looks at its own command line. *)
Lemma run_argv demangle w l a : w_wrapper w = false -> run demangle (with_args w a) = run demangle (with_args (with_argv w l) a).
Proof.
  intros U. unfold run. cbn [with_args with_argv w_wrapper]. rewrite U. apply ibind_ext. intros _.
  match goal with |- (if ?c then _ else _) = (if ?d then _ else _) => change d with c; destruct c end; [reflexivity|]. cbv zeta.
  apply ibind_ext. intros file. apply ibind_ext. intros config. apply ibind_ext. intros _. apply ibind_ext. intros cfg. apply ibind_ext. intros x.
  rewrite (touch_argv w l a). apply ibind_ext. intros _. apply ibind_ext. intros _. unfold build_and_analyse. apply ibind_ext. intros _. apply ibind_ext. intros child. apply ibind_ext. intros [r q].
  destruct (snd child) as [[| |]|]; [|reflexivity..]. unfold analyse. destruct r as [r|]; [|reflexivity]. destruct q as [q|]; [|reflexivity]. unfold loading. rewrite (load_argv w l a). reflexivity.
Qed.
Lemma analyses_started w a s target file rlib ll p : analyses (with_args w (started a s)) target file rlib ll p -> analyses (with_args w a) target file rlib ll p.
Proof.
  intros [path exe_dir dir ll_path obj_path es name t text items btext bitems obj sizes ms more elf el H1 H2 H3 H4 H5 H6 H7 H8 H9 H10 H11 H12 H13 H14 H15 H16 H17 H18 H19 H20 H21 H22 H23 H24 H25].
  apply (analyses_intro (with_args w a) target file rlib ll p path exe_dir dir ll_path obj_path es name t text items btext bitems obj sizes ms more elf el); try assumption.
  clear - H18. induction H18; econstructor; eassumption.
Qed.

(** * The process *)
Lemma early_iff w : ends_early w = false <-> reads_options w.
Proof.
  unfold ends_early. rewrite !orb_false_iff, accepted_spec. split.
  - intros [[U M] A]. constructor; [exact U | | exact A]. destruct (w_meta w) as [[]| | |]; [reflexivity | discriminate M..].
  - intros [U M A]. rewrite M. split; [split; [exact U | reflexivity] | exact A].
Qed.
Lemma lift_stops {A B} (x : outcome A) (f g : A -> io B) : stops x -> ibind (lift x) f = ibind (lift x) g.
Proof. intros S. unfold ibind, lift. cbn [snd]. destruct x as [a| | |]; [destruct (S a eq_refl) | reflexivity..]. Qed.
Lemma early_args demangle w a : ends_early w = true -> main demangle (with_args w a) = main demangle w.
Proof.
  unfold ends_early. rewrite !orb_true_iff. intros H. unfold main, run.
  change (w_wrapper (with_args w a)) with (w_wrapper w). change (w_meta (with_args w a)) with (w_meta w). change (w_hash (with_args w a)) with (w_hash w). change (w_override (with_args w a)) with (w_override w).
  destruct (w_wrapper w); [reflexivity|]. destruct H as [[H|H]|H]; [discriminate H | |].
  - assert (St : stops (w_meta w)) by (intros x E; rewrite E in H; discriminate H). match goal with |- match ibind _ ?f with _ => _ end = match ibind _ ?g with _ => _ end => rewrite (lift_stops (w_meta w) f g St) end. reflexivity.
  - rewrite H. reflexivity.
Qed.
Theorem launched demangle w exe argv : w_argv w = exe :: argv ->
  (~ reads_options w -> forall a, launch demangle w = main demangle (with_args w a)) /\
  (reads_options w ->
   (forall ss a, line (w_utf8 w) ss argv -> once ss -> says ss a -> launch demangle w = main demangle (with_args w a)) /\
   (forall ss ws h rest, Forall2 (spelled (w_utf8 w)) ss ws -> once ss -> asks ss h -> argv = concat ws ++ h :: rest -> launch demangle w = ([], 0%Z)) /\
   ((forall ss, once ss -> ~ line (w_utf8 w) ss argv) ->
    (forall ss ws h rest, Forall2 (spelled (w_utf8 w)) ss ws -> once ss -> argv = concat ws ++ h :: rest -> ~ asks ss h) -> launch demangle w = ([], 2%Z))).
Proof.
  intros Ea. unfold launch. split.
  - intros N a. destruct (ends_early w) eqn:X; [symmetry; exact (early_args demangle w a X)|]. destruct N. now apply early_iff.
  - intros R. apply early_iff in R. rewrite R, Ea. split; [|split].
    + intros ss a L O Y. rewrite (proj2 (cli_iff (w_utf8 w) exe argv a)); [reflexivity|]. now exists ss.
    + intros ss ws h rest F O A ->. rewrite (proj2 (cli_shown (w_utf8 w) exe (concat ws ++ h :: rest))); [reflexivity|]. now exists ss, ws, h, rest.
    + intros N1 N2. destruct (cli (w_utf8 w) (exe :: argv)) as [a| |] eqn:E; [| |reflexivity].
      * apply cli_iff in E. destruct E as [ss [L [O _]]]. destruct (N1 ss O L).
      * apply cli_shown in E. destruct E as [ss [ws [h [rest [F [O [Ex A]]]]]]]. destruct (N2 ss ws h rest F O Ex A).
Qed.
(** ** Through cargo *)
Lemma sub_word : word (lit "call-stack").
Proof. intros r E. cbn in E. discriminate E. Qed.
Theorem cargo_refuses demangle w exe argv ss s : reads_options w -> w_utf8 w (lit "call-stack") = true -> w_argv w = via_cargo exe argv ->
  line (w_utf8 w) ss argv -> once ss -> In (SStart s) ss -> launch demangle w = ([], 2%Z).
Proof.
  intros R U Ea L O I. apply early_iff in R. unfold launch. rewrite R, Ea. unfold via_cargo. assert (C : cli (w_utf8 w) (exe :: lit "call-stack" :: argv) = Refused); [|rewrite C; reflexivity].
  pose proof (r1_explained (w_utf8 w) exe (lit "call-stack") argv sub_word U) as X. destruct (cli (w_utf8 w) (exe :: lit "call-stack" :: argv)) as [b| |] eqn:Ec; [| |reflexivity].
  - apply (front_iff (w_utf8 w) exe (lit "call-stack") argv sub_word U) in Ec. destruct Ec as [a [E [N _]]].
    assert (Y : exists a', says ss a'). { destruct (line_says (w_utf8 w) ss argv L O) as [a' Y]. now exists a'. } destruct Y as [a' Y].
    pose proof (read_line (w_utf8 w) ss argv a' exe L O Y) as E'. rewrite E in E'. injection E' as <-. apply (sa_start ss a Y) in I. congruence.
  - apply (front_shown (w_utf8 w) exe (lit "call-stack") argv sub_word U) in Ec. destruct (line_says (w_utf8 w) ss argv L O) as [a' Y]. pose proof (read_line (w_utf8 w) ss argv a' exe L O Y) as E'. congruence.
Qed.
Theorem cargo_starts demangle w exe argv ss a : reads_options w -> w_utf8 w (lit "call-stack") = true -> w_argv w = via_cargo exe argv ->
  line (w_utf8 w) ss argv -> once ss -> (forall s, ~ In (SStart s) ss) -> says (SStart (lit "call-stack") :: ss) a -> launch demangle w = main demangle (with_args w a).
Proof.
  intros R U Ea L O N Y. refine (proj1 (proj2 (launched demangle w exe (lit "call-stack" :: argv) Ea) R) (SStart (lit "call-stack") :: ss) a _ _ Y).
  - exact (spelled_more _ _ [lit "call-stack"] ss argv (sp_start _ _ sub_word U) L).
  - unfold once. cbn [map kind]. constructor; [|exact O]. intros I. apply in_map_iff in I. destruct I as [t [K I]]. destruct t; try discriminate K. exact (N v I).
Qed.
Theorem cargo_unfiltered demangle w exe argv ss : sane w -> reads_options w -> w_utf8 w (lit "call-stack") = true ->
  line (w_utf8 w) ss argv -> once ss -> (forall s, ~ In (SStart s) ss) ->
  (forall a target file rlib ll p, says ss a -> analyses (with_args w a) target file rlib ll p -> ~ quiet_start demangle p (Some (lit "call-stack"))) ->
  let direct := launch demangle (with_argv w (exe :: argv)) in let cargo := launch demangle (with_argv w (via_cargo exe argv)) in
  effects (fst cargo) = effects (fst direct) /\ snd cargo = snd direct /\ (printed (fst cargo) <> [] -> In start_missing (messages (fst cargo))).
Proof.
  intros Sw R U L O N H. cbv zeta. destruct (line_says (w_utf8 w) ss argv L O) as [a Y]. assert (Na : a_start a = None) by (destruct (a_start a) as [s|] eqn:E; [apply (sa_start ss a Y) in E; destruct (N s E) | reflexivity]).
  assert (R' : forall l, reads_options (with_argv w l)) by (intros l; destruct R; constructor; assumption).
  rewrite (proj1 (proj2 (launched demangle (with_argv w (exe :: argv)) exe argv eq_refl) (R' _)) ss a L O Y).
  rewrite (cargo_starts demangle (with_argv w (via_cargo exe argv)) exe argv ss (started a (Some (lit "call-stack"))) (R' _) U eq_refl L O N (says_add (w_utf8 w) (lit "call-stack") sub_word U ss a Y Na)).
  assert (Sv : forall l, sane (with_argv w l)) by (intros l; destruct Sw; constructor; assumption).
  assert (M : forall l b, main demangle (with_args (with_argv w l) b) = main demangle (with_args w b)).
  { intros l b. unfold main. replace (run demangle (with_args (with_argv w l) b)) with (run demangle (with_args w b)); [reflexivity|]. apply run_argv. exact (ro_user w R). }
  rewrite !M. assert (Hl : forall target file rlib ll p, load (with_args w a) target file rlib ll = Ret p -> ~ quiet_start demangle p (Some (lit "call-stack"))).
  { intros target file rlib ll p E. apply (H a target file rlib ll p Y). apply (loaded (with_args w a)); [|exact E]. destruct Sw; constructor; assumption. }
  destruct (main_alike demangle _ _ (run_missing demangle w a (lit "call-stack") Sw Na Hl)) as [E1 E2]. split; [exact E1|]. split; [exact E2|]. clear E1 E2.
  set (w' := with_args w (started a (Some (lit "call-stack")))). destruct (main demangle w') as [t c] eqn:Em. cbn [fst snd]. assert (Sw' : sane w') by (destruct Sw; constructor; assumption).
  intros Np. destruct (printed t) as [|out outs] eqn:Eo; [now destruct Np|]. assert (Io : In out (printed t)) by (rewrite Eo; now left).
  destruct (run_log demangle w' t c out Sw' Em Io) as [target [file [rlib [ll [p [r [pre [post [_ [An [Wp [_ [_ [_ [_ Nt]]]]]]]]]]]]]]].
  assert (Q : ~ quiet_start demangle p (Some (lit "call-stack"))) by (apply (H a target file rlib ll p Y); exact (analyses_started w a _ target file rlib ll p An)).
  destruct Nt as [x [y [z [Et [_ [Hs _]]]]]]. rewrite Et. apply in_or_app. right. apply in_or_app. left. inversion Hs; subst.
  - destruct Q. intros s' E. injection E as <-. now left.
  - destruct Q. intros s' E. injection E as <-. right. now exists n.
  - now left.
  - right. now left.
Qed.
