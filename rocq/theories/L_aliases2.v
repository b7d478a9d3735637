(** When the order of the names does not matter; runs. *)
From Coq Require Import Permutation.
From Verif Require Import M_base M_stack M_graph M_analysis M_filter M_names M_thumb M_ty M_parse M_render M_write M_build M_run M_log M_wrapper M_driver
  L_base L_driver3 S_graph S_build S_run S_calls S_driver S_aliases L_log L_log2 L_log3 L_write L_build1 L_build2 L_driver4 L_driver5 L_same2 L_noise L_aliases.

Lemma uniq_first (P : str -> Prop) l n : In n l -> P n -> (forall m, In m l -> P m -> m = n) -> first P l n.
Proof.
  intros I Pn U. induction l as [|a l IH]; [destruct I|]. apply first_cons. destruct (str_eqb_spec a n) as [->|N]; [left; split; [exact Pn | reflexivity]|].
  right. split; [intros Pa; exact (N (U a (or_introl eq_refl) Pa))|]. destruct I as [E|I]; [contradiction|]. apply IH; [exact I|]. intros m J. apply U. right. exact J.
Qed.
Lemma unambiguous_same p q : relisted p q -> unambiguous p -> same_choice p q.
Proof.
  intros Rl U.
  assert (At : forall i ns, names_at p i ns -> exists ns', names_at q i ns' /\ Permutation ns ns').
  { intros i ns [x [Nx ->]]. destruct (forall2_nth _ _ _ (rl_defined _ _ Rl) i x Nx) as [y [Ny E]]. exists (real_names y). split; [exists y; split; [exact Ny | reflexivity] | exact (entry_names x y E)]. }
  assert (Sz : forall n, sized q n <-> sized p n) by (intros n; unfold sized; rewrite (rl_sizes _ _ Rl); reflexivity).
  pose proof (has_def_same p q Rl) as Hd. pose proof (has_decl_same p q Rl) as Hc.
  constructor.
  - intros i n [ns [Na C]]. destruct (At i ns Na) as [ns' [Nb P]]. exists ns'. split; [exact Nb|]. destruct (ua_sized _ U i ns Na) as [L|[k [I [Sk Uk]]]].
    + assert (ns' = ns) as ->. { destruct ns as [|a [|b ns]]; [apply Permutation_nil in P; exact P | apply Permutation_length_1_inv in P; exact P | cbn [length] in L; lia]. }
      destruct C as [C|[N C]]; [left; revert C; apply first_iff; intros y; symmetry; apply Sz | right; split; [intros m J K; apply (N m J); apply Sz; exact K | exact C]].
    + destruct C as [C|[N _]]; [|destruct (N k I Sk)]. destruct (first_In _ _ _ C) as [J Sn]. rewrite (Uk n J Sn). left. apply uniq_first.
      * exact (Permutation_in _ P I).
      * apply Sz. exact Sk.
      * intros m K Sm. apply Uk; [exact (Permutation_in _ (Permutation_sym P) K) | apply Sz; exact Sm].
  - intros i s [ns [n [d [Na [F [I E]]]]]]. destruct (At i ns Na) as [ns' [Nb P]]. exists ns', n, d. split; [exact Nb|]. rewrite (rl_defines _ _ Rl). split; [|split; [exact I | exact E]].
    destruct (first_In _ _ _ F) as [J Dn]. apply uniq_first; [exact (Permutation_in _ P J) | apply Hd; exact Dn|]. intros m K Dm.
    apply (ua_def _ U i ns m n Na); [exact (Permutation_in _ (Permutation_sym P) K) | exact J | apply Hd; exact Dm | exact Dn].
  - intros i s [ns [n [Na [Nd [F I]]]]]. destruct (At i ns Na) as [ns' [Nb P]]. exists ns', n. split; [exact Nb|]. rewrite (rl_declares _ _ Rl).
    split; [intros m K Dm; apply (Nd m); [exact (Permutation_in _ (Permutation_sym P) K) | apply Hd; exact Dm]|]. split; [|exact I].
    destruct (first_In _ _ _ F) as [J Dn]. apply uniq_first; [exact (Permutation_in _ P J) | apply Hc; exact Dn|]. intros m K Dm.
    apply (ua_decl _ U i ns m n Na Nd); [exact (Permutation_in _ (Permutation_sym P) K) | exact J | apply Hc; exact Dm | exact Dn].
Qed.
Theorem choice_output d o start p q : wf_prog p -> relisted p q -> same_choice p q ->
  report_log d o start q = report_log d o start p /\ forall f, output d o start f q = output d o start f p.
Proof. intros W Rl Sc. pose proof (report_al d o p q W Rl Sc start) as R. split; [exact R|]. intros f. unfold output. rewrite <- !report_erase, R. reflexivity. Qed.
Theorem unambiguous_output d o start p q : wf_prog p -> relisted p q -> unambiguous p ->
  report_log d o start q = report_log d o start p /\ forall f, output d o start f q = output d o start f p.
Proof. intros W Rl U. exact (choice_output d o start p q W Rl (unambiguous_same p q Rl U)). Qed.

(** * Runs *)
Definition same_symbol (x y : N * symbol) : Prop := same_entry x y /\ same_head x y.
Lemma bput_same k u v m m' : Forall2 same_symbol m m' -> same_symbol (k, u) (k, v) -> Forall2 same_symbol (bput m k u) (bput m' k v).
Proof.
  intros F H. induction F as [|[a x] [b y] m m' E F IH]; cbn [bput]; [constructor; [exact H | constructor]|]. assert (b = a) as -> by exact (proj1 (proj1 E)).
  destruct (k <? a)%N; [constructor; [exact H|]; constructor; assumption|]. destruct (N.eqb_spec a k) as [->|_]; [constructor; assumption|]. constructor; assumption.
Qed.
Lemma clear_same t m m' : Forall2 same_symbol m m' -> Forall2 same_symbol (clear_thumb t m) (clear_thumb t m').
Proof.
  intros F. unfold clear_thumb. destruct (is_thumb t); [|exact F].
  assert (G : forall a b, Forall2 same_symbol a b -> Forall2 same_symbol (fold_left (fun m kv => bput m (N.ldiff (fst kv) 1) (snd kv)) m a) (fold_left (fun m kv => bput m (N.ldiff (fst kv) 1) (snd kv)) m' b)); [|apply G; constructor].
  induction F as [|x y m m' H F IH]; intros a b K; [exact K|]. cbn [fold_left]. apply IH. destruct H as [[E [S P]] Hd]. rewrite E. apply bput_same; [exact K|].
  split; [split; [reflexivity|split; [exact S | exact P]] | exact Hd].
Qed.

Section Listing.
Variables (demangle : str -> str) (f : str -> outcome elf_symbols) (w : world).
Hypothesis (Sw : sane w) (Nr : names_reordered f w).
Notation w' := (listing f w).
Definition loads (x y : outcome (prog * outcome (list (N * str)))) : Prop := forall p s, x = Ret (p, s) -> exists q, y = Ret (q, s) /\ relisted p q.
Lemma loads_bind {A} (x : outcome A) g h : (forall a, x = Ret a -> loads (g a) (h a)) -> loads (bind x g) (bind x h).
Proof. intros H. destruct x; cbn [bind]; [apply H; reflexivity | intros p s E; discriminate E ..]. Qed.
Lemma archive_al ms : archive_sizes w' ms = archive_sizes w ms.
Proof. induction ms as [|x ms IH]; [reflexivity|]. cbn [archive_sizes]. rewrite IH. reflexivity. Qed.
Lemma load_files_al target file rlib ll : loads (load_files w target file rlib ll) (load_files w' target file rlib ll).
Proof.
  unfold load_files. cbv zeta. change (w_args w') with (w_args w). change (w_path w') with (w_path w). change (w_host w') with (w_host w). change (w_dir w') with (w_dir w). change (w_read w') with (w_read w).
  change (w_object w') with (w_object w). change (w_archive w') with (w_archive w). change (w_executable w') with f. change (w_text w') with (w_text w). change (w_symtab w') with (w_symtab w). change (read_to_string w') with (read_to_string w).
  apply loads_bind. intros path _. apply loads_bind. intros elf _. apply loads_bind. intros dir _. apply loads_bind. intros [[ll_name tm]|] _; [|intros p s E; discriminate E].
  repeat (apply loads_bind; intros ? _). rewrite archive_al. apply loads_bind. intros more _. intros p s E. destruct (w_executable w elf) as [sy| | |] eqn:Es; try discriminate E. cbn [bind] in E.
  destruct (Nr elf sy Es) as [sy' [-> [Eu [Fe Fh]]]]. cbn [bind]. injection E as <- <-. eexists. split; [reflexivity|].
  assert (C : Forall2 same_symbol (clear_thumb (classify_target target) (el_defined sy)) (clear_thumb (classify_target target) (el_defined sy'))).
  { apply clear_same. revert Fh. clear -Fe. induction Fe as [|x y l m H F IH]; intros K; inversion K; subst; constructor; [split; assumption | apply IH; assumption]. }
  constructor; cbn [pg_target pg_defines pg_declares pg_sizes pg_defined pg_undefined pg_tags pg_text]; try reflexivity.
  - rewrite Eu. reflexivity.
  - clear -C. induction C as [|x y l m H F IH]; constructor; [exact (proj1 H) | exact IH].
  - intros _. clear -C. induction C as [|x y l m H F IH]; constructor; [exact (proj2 H) | exact IH].
Qed.
Lemma tags_al p q s : relisted p q -> relisted (with_tags p s) (with_tags q s).
Proof. intros [T D C S U G X E H]. constructor; assumption || reflexivity. Qed.
(** If the first run succeeds with the status 0, so does the second, with the same events. *)
Definition keeps (x y : io Z) : Prop := forall t, x = (t, Ret 0%Z) -> exists target file rlib ll p, analyses w target file rlib ll p /\ (unambiguous p -> y = (t, Ret 0%Z)).
Lemma keeps_bind {A} (x : io A) g h : (forall a, snd x = Ret a -> keeps (g a) (h a)) -> keeps (ibind x g) (ibind x h).
Proof.
  intros H t E. unfold ibind in *. destruct x as [u [a| | |]]; cbn [fst snd] in *; try discriminate E. destruct (g a) as [v r] eqn:G. injection E as <- ->.
  destruct (H a eq_refl v G) as [target [file [rlib [ll [p [A' K]]]]]]. exists target, file, rlib, ll, p. split; [exact A'|]. intros U. rewrite (K U). reflexivity.
Qed.
Lemma keeps_analyse target file paths : keeps (analyse demangle w target file paths) (analyse demangle w' target file paths).
Proof.
  intros t E. unfold analyse in *. destruct paths as [[rlib|] [ll|]]; try discriminate E. exists target, file, rlib, ll.
  destruct (loading demangle w target file rlib ll) as [t0 [p| | |]] eqn:L; try discriminate E.
  destruct (L_same2.loading_inv demangle w _ _ _ _ _ _ L) as [-> [p0 [s [L0 ->]]]]. destruct (load_files_al target file rlib ll p0 _ L0) as [q0 [L1 Rl]].
  exists (with_tags p0 s). assert (Ld : load w target file rlib ll = Ret (with_tags p0 s)) by (unfold load; rewrite L0; reflexivity). destruct (loaded w target file rlib ll _ Sw Ld) as [Wf An]. split; [exact An|]. intros U.
  rewrite <- E. unfold loading at 1. unfold lift. rewrite L1. change (@nil event, Ret (q0, Ret s)) with (iret (q0, Ret s)). rewrite ibind_iret. cbn [read_symtab]. change (@nil event, Ret (with_tags p0 s)) with (iret (with_tags p0 s)). rewrite !ibind_iret.
  change (w_orders w') with (w_orders w). change (w_args w') with (w_args w). rewrite (proj1 (unambiguous_output demangle (w_orders w) (a_start (w_args w)) _ _ Wf (tags_al p0 q0 s Rl) U)). reflexivity.
Qed.
Lemma touch_al : touch w' = touch w.
Proof.
  assert (H : forall es, touch_first w' es = touch_first w es) by (induction es as [|x r IH]; [reflexivity|]; cbn [touch_first]; rewrite IH; reflexivity).
  unfold touch. rewrite H. reflexivity.
Qed.
Theorem main_al t : main demangle w = (t, 0%Z) -> exists target file rlib ll p, analyses w target file rlib ll p /\ (unambiguous p -> main demangle w' = (t, 0%Z)).
Proof.
  assert (K : keeps (run demangle w) (run demangle w')).
  { unfold run. change (w_wrapper w') with (w_wrapper w). rewrite (sane_user _ Sw).
    change (w_meta w') with (w_meta w). apply keeps_bind. intros [] _. change (w_hash w') with (w_hash w). change (w_override w') with (w_override w).
    destruct (_ && _)%bool; [intros u E; discriminate E|]. cbv zeta. change (w_args w') with (w_args w). apply keeps_bind. intros file Pf. change (w_project w') with (w_project w). apply keeps_bind. intros config _.
    change (w_host w') with (w_host w). apply keeps_bind. intros _ _. change (ask_cfg w') with (ask_cfg w). apply keeps_bind. intros cfg _. change (w_exe w') with (w_exe w).
    apply keeps_bind. intros exe _. rewrite touch_al. apply keeps_bind. intros _ _. apply keeps_bind. intros _ _.
    unfold build_and_analyse. apply keeps_bind. intros _ _. change (w_cargo w') with (w_cargo w). apply keeps_bind. intros child _. change (w_utf8 w') with (w_utf8 w). apply keeps_bind. intros paths _.
    destruct (snd child) as [[|c|c]|]; [apply keeps_analyse | intros u E; discriminate E ..]. }
  intros M. pose proof (c60 demangle w t 0%Z (sane_user _ Sw) M) as [[C _] _]. destruct (C eq_refl) as [u [out Eu]].
  unfold main in M. destruct (run demangle w) as [tr [z| | |]] eqn:R; try discriminate M. injection M as -> ->.
  destruct (K t eq_refl) as [target [file [rlib [ll [p [A' H]]]]]]. exists target, file, rlib, ll, p. split; [exact A'|]. intros U. unfold main. rewrite (H U). reflexivity.
Qed.
End Listing.
