(** Every run comes to an end: lemmas for C96. *)
From Verif Require Import M_base M_stack M_graph M_analysis M_filter M_names M_thumb M_ty M_nom M_parse M_build M_run M_log M_wrapper M_driver S_names S_graph S_sig S_build S_run S_log S_driver S_finite.
From Verif Require Import L_base L_names L_ir3 L_ir4 L_build1 L_log L_driver1 L_driver2 L_write L_driver3 L_debug5 L_driver4 L_driver5 L_nofuel.

Lemma parse_nu text : parse text <> OutOfFuel.
Proof. destruct (parse_total text) as [[its [E _]]|[its [pre [suf [E _]]]]]; rewrite E; discriminate. Qed.
Lemma parse_ir_nu what path text : nu (parse_ir what path text).
Proof. unfold parse_ir. pose proof (parse_nu text) as H. destruct (parse text); [discriminate | discriminate | discriminate | destruct (H eq_refl)]. Qed.
Lemma nu_inner {A B} (x : outcome A) (f : A -> outcome B) : nu x -> (forall a, x = Ret a -> nu (f a)) -> nu (bind x f).
Proof. intros H K. destruct x; cbn [bind]; [apply K; reflexivity | discriminate | discriminate | destruct (H eq_refl)]. Qed.
Lemma nu_ibind {A B} (x : io A) (f : A -> io B) : nu (snd x) -> (forall a, snd x = Ret a -> nu (snd (f a))) -> nu (snd (ibind x f)).
Proof. intros H K. unfold ibind. destruct (snd x) as [a| | |]; [apply K; reflexivity | discriminate | discriminate | destruct (H eq_refl)]. Qed.
Lemma nu_context {A} what path (x : outcome A) : nu x -> nu (context what path x).
Proof. intros H. destruct x; [discriminate | discriminate | discriminate | destruct (H eq_refl)]. Qed.
Lemma nu_stderr utf8 ls : forall r l, nu (snd (read_stderr utf8 ls r l)).
Proof.
  induction ls as [|x ls IH]; intros r l; cbn [read_stderr]; [discriminate|]. destruct (negb (utf8 x)); [discriminate|]. destruct (starts_with rlib_marker x); [apply IH|]. destruct (starts_with ll_marker x); [apply IH|].
  apply nu_ibind; [discriminate | intros _ _; apply IH].
Qed.

Section World.
Variables (demangle : str -> str) (w : world).
Hypothesis An : answers w.
Lemma nu_string path : nu (read_to_string w path).
Proof. unfold read_to_string. apply nu_bind; [apply (as_read w An) | intros t]. destruct (w_utf8 w t); discriminate. Qed.
Lemma nu_ll prefix es : (forall e, In e es -> e <> Fuel) -> (forall e, In (Ret e) es -> en_time e <> Fuel) -> forall best, nu (pick_ll prefix es best).
Proof.
  induction es as [|e es IH]; intros H K best; cbn [pick_ll]; [discriminate|]. assert (IH' : forall best, nu (pick_ll prefix es best)) by (apply IH; [intros x I; apply H; now right | intros x I; apply K; now right]).
  apply nu_inner; [apply H; now left | intros x ->]. destruct (stem_ext (en_name x)) as [[stem ext]|]; [|apply IH']. destruct (str_eqb ext (lit "ll")); [|apply IH'].
  destruct (negb (en_utf8 x)); [discriminate|]. destruct (starts_with prefix stem); [|apply IH']. apply nu_bind; [apply K; now left | intros t]. destruct best as [[n m]|]; [destruct (m <? t)%N|]; apply IH'.
Qed.
Lemma nu_archive ms : (forall m, In m ms -> m <> Fuel) -> (forall m, In (Ret m) ms -> mb_data m <> Fuel) -> nu (archive_sizes w ms).
Proof.
  induction ms as [|m ms IH]; intros H K; cbn [archive_sizes]; [discriminate|]. assert (IH' : nu (archive_sizes w ms)) by (apply IH; [intros x I; apply H; now right | intros x I; apply K; now right]).
  apply nu_inner; [apply H; now left | intros x ->]. destruct (mb_utf8 x && (contains compiler_builtins (mb_id x) && ends_with (lit ".o") (mb_id x))); [|exact IH'].
  apply nu_bind; [apply K; now left | intros b]. apply nu_bind; [apply (as_object w An) | intros s]. apply nu_bind; [exact IH' | discriminate].
Qed.
Lemma nu_files target file rlib ll : nu (load_files w target file rlib ll) /\ forall p s, load_files w target file rlib ll = Ret (p, s) -> nu s.
Proof.
  pose (P := fun x : outcome (prog * outcome (list (N * str))) => nu x /\ forall p s, x = Ret (p, s) -> nu s).
  assert (St : forall (A : Type) (o : outcome A) k, nu o -> (forall a, o = Ret a -> P (k a)) -> P (bind o k)).
  { intros A o k H K. destruct o; cbn [bind]; [apply K; reflexivity | split; discriminate | split; discriminate | destruct (H eq_refl)]. }
  change (P (load_files w target file rlib ll)). unfold load_files. cbv zeta.
  apply St; [apply (as_path w An) | intros path _]. apply St; [apply nu_context, (as_read w An) | intros elf _]. apply St; [apply (as_dir w An) | intros es Ed].
  apply St; [apply nu_ll; [exact (fun e => as_entry w An _ _ e Ed) | exact (fun e => as_modified w An _ _ e Ed)] | intros [[n t]|] _; [|split; discriminate]].
  apply St; [apply nu_context, nu_string | intros text _]. apply St; [apply nu_context, (as_read w An) | intros obj _]. apply St; [apply nu_context, nu_string | intros btext _].
  apply St; [apply parse_ir_nu | intros its _]. apply St; [apply parse_ir_nu | intros bits _]. apply St; [apply (as_object w An) | intros sizes _].
  apply St; [apply nu_context, (as_archive w An) | intros ms Em]. assert (Em' : w_archive w rlib = Ret ms) by (unfold context in Em; destruct (w_archive w rlib); first [exact Em | discriminate Em]).
  apply St; [apply nu_archive; [exact (fun m => as_member w An _ _ m Em') | exact (fun m => as_data w An _ _ m Em')] | intros more _].
  apply St; [apply (as_executable w An) | intros el _]. split; [discriminate|]. intros p s E. injection E as _ <-. destruct (is_thumb (classify_target target)); [apply (as_symtab w An) | discriminate].
Qed.
Lemma nu_loading target file rlib ll : nu (snd (loading demangle w target file rlib ll)).
Proof.
  destruct (nu_files target file rlib ll) as [H K]. unfold loading. apply nu_ibind; [exact H | intros [p s] E]. cbn [lift snd] in E. pose proof (K p s E) as Ns. unfold read_symtab. destruct s; [discriminate| | |];
  (apply nu_ibind; [apply early_nu | intros _ _; cbn [lift snd bind]]); [discriminate | discriminate | destruct (Ns eq_refl)].
Qed.
Lemma nu_analyse target file paths : sane w -> nu (snd (analyse demangle w target file paths)).
Proof.
  intros Sa. unfold analyse. destruct paths as [[rlib|] [ll|]]; [|discriminate..]. apply nu_ibind; [apply nu_loading | intros p E]. apply loading_inv in E. destruct (loaded w target file rlib ll p Sa E) as [Wp _].
  rewrite log_parts. apply nu_ibind; [cbn [snd]; exact (report_nu demangle (w_orders w) (a_start (w_args w)) p Wp (sane_orders w Sa)) | intros [g cycles] R]. cbn [snd] in R.
  pose proof (output_says demangle w p) as O. rewrite R in O. destruct O as [text [_ Sy]]. destruct (received_any (w_fault w) text) as [out [e Rc]]. rewrite (emit_says _ _ _ _ _ Sy Rc). destruct e; discriminate.
Qed.
Lemma nu_touch : nu (snd (touch w)).
Proof.
  unfold touch. cbv zeta. destruct (is_ok (w_set_times w (join (w_root w) (lit "src/main.rs")))); [discriminate|]. destruct (is_ok (w_set_times w (join (w_root w) (lit "src/lib.rs")))); [discriminate|].
  generalize (if w_exists w (join (w_root w) (lit "src")) then join (w_root w) (lit "src") else w_root w). intros d. pose proof (as_walk w An d) as H. revert H. generalize (w_walk w d). intros l.
  induction l as [|e l IH]; intros H; cbn [touch_first]; [discriminate|]. apply nu_ibind; [apply H; now left | intros f _]. destruct (is_rs f); [|apply IH; intros x I; apply H; now right].
  apply nu_ibind; [apply (as_times w An) | discriminate].
Qed.
Lemma nu_codegen v st : nu (parse_codegen v st).
Proof. unfold parse_codegen. destruct (splitn2 "=" v) as [name value]. destruct (str_eqb name (lit "extra-filename")); [destruct value|]; discriminate. Qed.
Lemma nu_loop k : forall l st, length l <= k -> nu (parse_loop l st).
Proof.
  induction k as [|k IH]; intros [|x l] st L; cbn [length] in L; [discriminate | lia | discriminate|]. cbn [parse_loop].
  destruct (str_eqb x (lit "--extern")); [destruct l as [|v l]; [discriminate | apply IH; cbn [length] in L; lia]|].
  destruct (str_eqb x (lit "--crate-name")); [destruct l as [|v l]; [discriminate | apply IH; cbn [length] in L; lia]|].
  destruct (str_eqb x (lit "--out-dir")); [destruct l as [|v l]; [discriminate | apply IH; cbn [length] in L; lia]|].
  destruct (starts_with (lit "-C") x); [|apply IH; lia].
  destruct (skipn 2 x) as [|y ys]; [destruct l as [|v l]; [discriminate|]|]; (apply nu_bind; [apply nu_codegen | intros st'; apply IH; cbn [length] in L; lia]).
Qed.
Lemma nu_wrapper : nu (snd (wrapper (w_utf8 w) (w_argv w) (w_rustc w))).
Proof.
  unfold wrapper. destruct (forallb (w_utf8 w) (w_argv w)); [|discriminate]. unfold wrap. destruct (skipn 1 (w_argv w)) as [|p l]; [discriminate|].
  apply nu_ibind; [cbn [lift snd]; unfold parse_args; apply nu_bind; [apply (nu_loop (length l)); reflexivity | intros st; destruct (ps_crate st); discriminate] | intros a _].
  apply nu_ibind; [discriminate | intros _ _]. apply nu_ibind; [destruct (str_eqb (ra_crate a) compiler_builtins); [destruct (ra_out a)|]; discriminate | intros inj _].
  apply nu_ibind; [discriminate | intros _ _]. apply nu_ibind; [apply (as_rustc w An) | discriminate].
Qed.
Theorem run_nu : (w_wrapper w = false -> sane w) -> snd (run demangle w) <> Fuel.
Proof.
  intros Sa. change (nu (snd (run demangle w))). unfold run. destruct (w_wrapper w); [apply nu_wrapper|]. specialize (Sa eq_refl).
  apply nu_ibind; [apply (as_meta w An) | intros _ _]. destruct (negb (oeqb (w_hash w) (Some supported_hash)) && negb (oeqb (w_override w) (Some unsupported_value))); [apply nu_ibind; discriminate|].
  apply nu_ibind; [cbn [lift snd]; unfold pick_file; destruct (a_example (w_args w)), (a_bin (w_args w)); discriminate | intros file _]. apply nu_ibind; [apply (as_project w An) | intros config _]. cbv zeta.
  apply nu_ibind; [discriminate | intros _ _].
  apply nu_ibind; [cbn [lift snd]; unfold ask_cfg; apply nu_bind; [apply (as_cfg w An) | intros t; destruct (w_utf8 w t); discriminate] | intros cfg _].
  apply nu_ibind; [apply (as_exe w An) | intros exe _]. apply nu_ibind; [apply nu_touch | intros _ _]. apply nu_ibind; [destruct (a_verbose (w_args w)); discriminate | intros _ _].
  unfold build_and_analyse. apply nu_ibind; [discriminate | intros _ _]. apply nu_ibind; [apply (as_cargo w An) | intros child _]. apply nu_ibind; [apply nu_stderr | intros paths _].
  destruct (snd child) as [[|z|z]|]; [apply nu_analyse; exact Sa | discriminate..].
Qed.
End World.
