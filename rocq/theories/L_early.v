(** Runs that end before the build: proofs. *)
From Verif Require Import M_base M_wrapper M_driver S_driver S_early L_base L_driver3 L_path L_driver5.

Lemma walk_fails w m walk : (exists seen rest, walk = map Ret seen ++ Fail m :: rest /\ forall x, In x seen -> ~ rust_file x) \/
  (exists seen f rest, walk = map Ret seen ++ Ret f :: rest /\ (forall x, In x seen -> ~ rust_file x) /\ rust_file f /\ w_set_times w f = Fail m) -> touch_first w walk = ([], Fail m).
Proof.
  intros [[seen [rest [-> N]]]|[seen [f [rest [-> [N [R T]]]]]]]; induction seen as [|x seen IH]; cbn [map app touch_first]; unfold ibind, lift; cbn [fst snd app].
  - reflexivity.
  - destruct (is_rs x) eqn:K; [apply is_rs_spec in K; destruct (N x (or_introl eq_refl) K)|]. rewrite IH by (intros y I; apply N; now right). reflexivity.
  - rewrite (proj2 (is_rs_spec f) R), T. reflexivity.
  - destruct (is_rs x) eqn:K; [apply is_rs_spec in K; destruct (N x (or_introl eq_refl) K)|]. rewrite IH by (intros y I; apply N; now right). reflexivity.
Qed.
Lemma fails_walk w m walk : snd (touch_first w walk) = Fail m -> (exists seen rest, walk = map Ret seen ++ Fail m :: rest /\ forall x, In x seen -> ~ rust_file x) \/
  (exists seen f rest, walk = map Ret seen ++ Ret f :: rest /\ (forall x, In x seen -> ~ rust_file x) /\ rust_file f /\ w_set_times w f = Fail m).
Proof.
  induction walk as [|e walk IH]; cbn [touch_first]; [discriminate|]. unfold ibind, lift. destruct e as [path|e|e|]; cbn [fst snd]; try discriminate.
  - destruct (is_rs path) eqn:R.
    + apply is_rs_spec in R. destruct (w_set_times w path) as [[]|e|e|] eqn:T; cbn [fst snd say]; try discriminate. intros E. injection E as ->. right. exists [], path, walk. split; [reflexivity|]. split; [intros x []|]. split; assumption.
    + assert (Nr : ~ rust_file path) by (intros K; apply is_rs_spec in K; congruence). intros E. destruct (IH E) as [[seen [rest [-> N]]]|[seen [f [rest [-> [N K]]]]]]; [left; exists (path :: seen), rest | right; exists (path :: seen), f, rest]; (split; [reflexivity|]).
      * intros x [<-|I]; [exact Nr | exact (N x I)].
      * split; [intros x [<-|I]; [exact Nr | exact (N x I)] | exact K].
  - intros E. injection E as ->. left. exists [], walk. split; [reflexivity | intros x []].
Qed.
Lemma touch_fails w m : untouched w m -> touch w = ([], Fail m).
Proof.
  intros H. unfold touch. cbv zeta.
  destruct H as [a l src d seen rest A B C D E Ed F G|a l src d seen f rest A B C D E Ed F G H K]; apply inside_fun in A, C, E; rewrite <- A, <- C, <- E;
    (destruct (is_ok (w_set_times w a)) eqn:Q; [apply is_ok_spec in Q; now destruct B|]); (destruct (is_ok (w_set_times w l)) eqn:Q'; [apply is_ok_spec in Q'; now destruct D|]); rewrite <- Ed, F; apply walk_fails.
  - left. exists seen, rest. auto.
  - right. exists seen, f, rest. auto.
Qed.
Lemma fails_touch w m : snd (touch w) = Fail m -> untouched w m.
Proof.
  unfold touch. cbv zeta. set (a := join (w_root w) (lit "src/main.rs")). set (l := join (w_root w) (lit "src/lib.rs")). set (src := join (w_root w) (lit "src")).
  pose proof (join_inside (w_root w) (lit "src/main.rs")) as Ha. fold a in Ha. pose proof (join_inside (w_root w) (lit "src/lib.rs")) as Hl. fold l in Hl. pose proof (join_inside (w_root w) (lit "src")) as Hs. fold src in Hs.
  destruct (is_ok (w_set_times w a)) eqn:Ea; [discriminate|]. destruct (is_ok (w_set_times w l)) eqn:El; [discriminate|].
  assert (Na : w_set_times w a <> Ret tt) by (intros K; apply is_ok_spec in K; congruence). assert (Nl : w_set_times w l <> Ret tt) by (intros K; apply is_ok_spec in K; congruence).
  intros E. destruct (fails_walk w m _ E) as [[seen [rest [F N]]]|[seen [f [rest [F [N [R T]]]]]]].
  - exact (ut_walk w m a l src _ seen rest Ha Na Hl Nl Hs eq_refl F N).
  - exact (ut_times w m a l src _ seen f rest Ha Na Hl Nl Hs eq_refl F N R T).
Qed.
Lemma no_artifact a : (forall f, ~ one_artifact a f) -> pick_file a = Fail (lit "Please specify either --example <NAME> or --bin <NAME>.").
Proof. intros N. destruct (pick_file a) as [f|m|m|] eqn:E; [destruct (N f); now apply artifact| | |]; revert E; unfold pick_file; destruct (a_example a), (a_bin a); congruence. Qed.
Lemma not_accepted w : ~ accepted w -> negb (oeqb (w_hash w) (Some supported_hash)) && negb (oeqb (w_override w) (Some unsupported_value)) = true.
Proof. intros N. destruct (_ && _)%bool eqn:E; [reflexivity|]. apply accepted_spec in E. contradiction. Qed.
Theorem obstacle_says demangle w t c m : w_wrapper w = false -> main demangle w = (t, c) -> obstacle w m ->
  c = 1%Z /\ printed t = [] /\ messages t = [] /\ touched t = [] /\ (forall a, ~ In (lit "cargo", a) (commands t)) /\ exists pre, errors t = pre ++ [lit "error: " ++ m] /\ (accepted w -> pre = []).
Proof.
  intros U M O. unfold main, run in M. rewrite U in M.
  assert (Fin : forall t' r, (t' ++ [EErr (lit "error: " ++ m)], 1%Z) = (t, c) -> (t' = [] \/ t' = [ECmd (lit "rustc") [] r]) ->
    c = 1%Z /\ printed t = [] /\ messages t = [] /\ touched t = [] /\ (forall a, ~ In (lit "cargo", a) (commands t)) /\ exists pre, errors t = pre ++ [lit "error: " ++ m] /\ (accepted w -> pre = [])).
  { clear. intros t' r E K. injection E as <- <-. destruct K as [->| ->]; cbn; repeat (split; [reflexivity|]); (split; [intros a I|exists []; split; reflexivity]); [exact I | destruct I as [I|[]]; discriminate I]. }
  destruct O as [m K|K A|K A N|f m K A P C|f config m K A P C G|f config cfg K A P C G X|f config cfg m K A P C G X E|f config cfg exe m K A P C G X E T]; rewrite K in M.
  - exact (Fin [] [] M (or_introl eq_refl)).
  - rewrite ibind_ret, (not_accepted w A) in M. cbn in M. injection M as <- <-. repeat (split; [reflexivity|]). split; [intros a []|]. exists [unsupported_text]. split; [reflexivity | contradiction].
  - rewrite ibind_ret, (proj2 (accepted_spec w) A) in M. cbv zeta in M. rewrite (no_artifact _ N) in M. exact (Fin [] [] M (or_introl eq_refl)).
  - rewrite ibind_ret, (proj2 (accepted_spec w) A) in M. cbv zeta in M. rewrite (proj2 (artifact _ _) P), ibind_ret, C in M. exact (Fin [] [] M (or_introl eq_refl)).
  - rewrite ibind_ret, (proj2 (accepted_spec w) A) in M. cbv zeta in M. rewrite (proj2 (artifact _ _) P), ibind_ret, C, ibind_ret, target_of_eq in M. unfold ask_cfg in M. rewrite G in M. exact (Fin _ _ M (or_intror eq_refl)).
  - rewrite ibind_ret, (proj2 (accepted_spec w) A) in M. cbv zeta in M. rewrite (proj2 (artifact _ _) P), ibind_ret, C, ibind_ret, target_of_eq in M. unfold ask_cfg in M. rewrite G in M. cbn [bind] in M. rewrite X in M. exact (Fin _ _ M (or_intror eq_refl)).
  - rewrite ibind_ret, (proj2 (accepted_spec w) A) in M. cbv zeta in M. rewrite (proj2 (artifact _ _) P), ibind_ret, C, ibind_ret, target_of_eq in M. unfold ask_cfg in M. rewrite G in M. cbn [bind] in M. rewrite X, ibind_say, ibind_ret, E in M. exact (Fin _ _ M (or_intror eq_refl)).
  - rewrite ibind_ret, (proj2 (accepted_spec w) A) in M. cbv zeta in M. rewrite (proj2 (artifact _ _) P), ibind_ret, C, ibind_ret, target_of_eq in M. unfold ask_cfg in M. rewrite G in M. cbn [bind] in M. rewrite X, ibind_say, ibind_ret, E, ibind_ret, (touch_fails w m T) in M. exact (Fin _ _ M (or_intror eq_refl)).
Qed.
Theorem no_build_obstacle demangle w t : w_wrapper w = false -> main demangle w = (t, 1%Z) -> (forall a, ~ In (lit "cargo", a) (commands t)) -> exists m, obstacle w m.
Proof.
  intros U M N. unfold main in M. destruct (run demangle w) as [t0 r] eqn:R.
  assert (N0 : forall a, ~ In (lit "cargo", a) (commands t0)). { intros a I. destruct r as [z|m|m|]; apply (f_equal fst) in M; cbn [fst] in M; subst t; apply (N a); rewrite ?commands_app; [exact I|apply in_or_app; left; exact I ..]. }
  assert (Np : forall m, r <> Panic m) by (intros m ->; discriminate M). assert (Nf : r <> Fuel) by (intros ->; discriminate M). clear M N.
  unfold run in R. rewrite U in R.
  destruct (w_meta w) as [[]|m|m|] eqn:K; [|exists m; now apply ob_meta|destruct (Np m (eq_sym (f_equal snd R)))|destruct (Nf (eq_sym (f_equal snd R)))]. rewrite ibind_ret in R.
  destruct (negb (oeqb (w_hash w) (Some supported_hash)) && negb (oeqb (w_override w) (Some unsupported_value)))%bool eqn:A.
  { eexists. apply ob_toolchain; [exact K|]. intros Q. apply accepted_spec in Q. congruence. }
  apply accepted_spec in A. cbv zeta in R. destruct (pick_file (w_args w)) as [f|m|m|] eqn:P; [|eexists; apply ob_artifact; [exact K | exact A | intros f Q; apply artifact in Q; congruence]|destruct (Np m (eq_sym (f_equal snd R)))|destruct (Nf (eq_sym (f_equal snd R)))].
  apply artifact in P. rewrite ibind_ret in R. destruct (w_project w) as [config|m|m|] eqn:C; [|exists m; now apply ob_project with f|destruct (Np m (eq_sym (f_equal snd R)))|destruct (Nf (eq_sym (f_equal snd R)))]. rewrite ibind_ret, target_of_eq in R.
  rewrite ibind_say in R. unfold ask_cfg in R. set (ev := ECmd (lit "rustc") _ _) in R.
  destruct (w_cfg w (target_of w config)) as [cfg|m|m|] eqn:G; [|exists m; now apply ob_cfg with f config|destruct (Np m (eq_sym (f_equal snd R)))|destruct (Nf (eq_sym (f_equal snd R)))]. cbn [bind] in R.
  destruct (w_utf8 w cfg) eqn:X; [|eexists; now apply ob_utf8 with f config cfg]. rewrite ibind_ret in R.
  destruct (w_exe w) as [exe|m|m|] eqn:E; [|exists m; now apply ob_exe with f config cfg|destruct (Np m (eq_sym (f_equal snd R)))|destruct (Nf (eq_sym (f_equal snd R)))]. rewrite ibind_ret in R.
  destruct (touch w) as [tt' [[]|m|m|]] eqn:T.
  - exfalso. unfold build_and_analyse in R. set (cmd := cargo_args _ _ _) in R. rewrite ibind_say in R. set (cm := ECmd (lit "cargo") _ cmd) in R. match type of R with context [(cm :: ?x, ?y)] => set (tl := x) in R; set (rr := y) in R end.
    assert (I : In (lit "cargo", cmd) (commands t0)).
    { destruct (a_verbose (w_args w)).
      - rewrite ibind_say in R. cbn [ibind fst snd] in R. injection R as <- _. change (In (lit "cargo", cmd) (commands ((ev :: tt') ++ EVerbose (lit "cargo") cmd :: cm :: tl))). rewrite commands_app. apply in_or_app. right. left. reflexivity.
      - rewrite ibind_iret in R. cbn [ibind fst snd] in R. injection R as <- _. change (In (lit "cargo", cmd) (commands ((ev :: tt') ++ cm :: tl))). rewrite commands_app. apply in_or_app. right. left. reflexivity. }
    exact (N0 cmd I).
  - exists m. apply ob_touch with f config cfg exe; try assumption. apply fails_touch. rewrite T. reflexivity.
  - cbn [ibind fst snd] in R. injection R as _ <-. destruct (Np m eq_refl).
  - cbn [ibind fst snd] in R. injection R as _ <-. destruct (Nf eq_refl).
Qed.
