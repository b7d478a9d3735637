(** Lemmas on the cooperation of the wrapper and the driver. *)
From Verif Require Import M_base L_base M_names M_thumb M_parse M_build M_run M_wrapper M_driver S_build S_run S_driver S_pair L_driver1 L_driver2 L_driver3 L_driver5.

(** ** Last elements *)
Lemma latest_select {A} (f : A -> option str) l v : latest f l (Some v) <-> exists pre, select f l = pre ++ [v].
Proof.
  split.
  - intros [a [x [b [-> [E N]]]]]. exists (select f a). rewrite select_app. cbn [select]. rewrite E. f_equal. f_equal. induction b as [|y b IH]; [reflexivity|]. cbn [select]. rewrite (N y) by now left. apply IH. intros z I. apply N. now right.
  - intros [pre E]. pose proof (last_of_latest f l) as L. destruct (last_of f l None) as [u|].
    + enough (u = v) by now subst. destruct L as [a [x [b [-> [Ex N]]]]]. rewrite select_app in E. cbn [select] in E. rewrite Ex in E.
      assert (Z : select f b = []). { clear E. induction b as [|y b IH]; [reflexivity|]. cbn [select]. rewrite (N y) by now left. apply IH. intros z I. apply N. now right. }
      rewrite Z in E. apply app_inj_tail in E. tauto.
    + exfalso. cbn in L. assert (Z : select f l = []). { clear E. induction l as [|y l IH]; [reflexivity|]. cbn [select]. rewrite (L y) by now left. apply IH. intros z I. apply L. now right. }
      rewrite Z in E. now destruct pre.
Qed.

(** ** What one run reports *)
Definition told (c : compile) : list note :=
  select builtins_rlib (cp_opts c) ++
  match last_of crate_of (cp_opts c) None, last_of out_of (cp_opts c) None with
  | Some n, Some d => if str_eqb n builtins then [NLl (d ++ lit "/compiler_builtins" ++ match last_of extra_of (cp_opts c) None with Some e => e | None => [] end ++ lit ".ll")] else []
  | _, _ => []
  end.
Lemma told_errors exe rustc c f : works c -> errors (fst (wrap (exe :: rustc :: concat (cp_words c)) f)) = map note_line (told c).
Proof.
  intros [F [n Hn] Ho]. set (a := mkRustcArgs (match last_of extra_of (cp_opts c) None with Some e => e | None => [] end) n (last_of out_of (cp_opts c) None) (select extern_of (cp_opts c))).
  assert (E : parse_args (concat (cp_words c)) = Ret a).
  { apply (proj1 (c47_read (cp_opts c) (cp_words c) F)). cbn. split; [exact Hn|]. split; [exists (last_of extra_of (cp_opts c) None); split; [apply last_of_latest | reflexivity]|]. split; [apply last_of_latest | reflexivity]. }
  pose proof (last_of_latest out_of (cp_opts c)) as Lo. pose proof (last_of_latest crate_of (cp_opts c)) as Lc.
  assert (R : can_run a). { intros Eb. cbn in Eb |- *. subst n. destruct (Ho Hn) as [d Hd]. rewrite (latest_unique _ _ _ _ Lo Hd). discriminate. }
  destruct (wrap_runs exe rustc (concat (cp_words c)) f a E R) as [_ [K _]]. rewrite K. unfold reports, told, a. cbn [ra_externs ra_crate ra_out ra_extra].
  rewrite rlib_notes_opts, (latest_unique _ _ _ _ Lc Hn). change compiler_builtins with builtins. f_equal. f_equal.
  destruct (last_of out_of (cp_opts c) None); destruct (str_eqb n builtins); reflexivity.
Qed.

Definition mark (n : note) : bool := match n with NText _ => false | _ => true end.
Lemma told_marks c : Forall (fun n => mark n = true) (told c).
Proof.
  unfold told. apply Forall_app. split.
  - induction (cp_opts c) as [|o os IH]; [constructor|]. cbn [select]. destruct (builtins_rlib o) as [n|] eqn:E; [|exact IH]. constructor; [|exact IH].
    destruct o as [m [q|]| | | |]; cbn [builtins_rlib] in E; try discriminate. destruct (str_eqb m (lit "compiler_builtins")); [|discriminate]. now injection E as <-.
  - destruct (last_of crate_of (cp_opts c) None) as [n|]; [|constructor]. destruct (last_of out_of (cp_opts c) None) as [d|]; [|constructor]. destruct (str_eqb n builtins); repeat constructor.
Qed.
Lemma mark_inj m n : mark m = true -> mark n = true -> note_line m = note_line n -> m = n.
Proof.
  destruct m as [|a|a], n as [|b|b]; try discriminate; intros _ _ E; cbn [note_line] in E.
  - apply app_inv_head in E. now subst.
  - apply app_inv_head in E. now subst.
Qed.
Lemma marks_inj l : forall k, Forall (fun n => mark n = true) l -> Forall (fun n => mark n = true) k -> map note_line l = map note_line k -> l = k.
Proof.
  induction l as [|m l IH]; intros [|n k] Fl Fk E; try discriminate; [reflexivity|]. cbn in E. injection E as E1 E2. inversion Fl; inversion Fk; subst. f_equal; [now apply mark_inj | now apply IH].
Qed.
Lemma select_mark ns : select mark_of ns = map note_line (filter mark ns).
Proof. induction ns as [|n ns IH]; [reflexivity|]. destruct n; cbn [select mark_of filter mark map]; now rewrite ?IH. Qed.
Lemma select_filter {B} (f : note -> option B) ns : (forall n, mark n = false -> f n = None) -> select f (filter mark ns) = select f ns.
Proof. intros H. induction ns as [|n ns IH]; [reflexivity|]. cbn [filter select]. destruct (mark n) eqn:E; cbn [select]; [now rewrite IH | rewrite (H n E); exact IH]. Qed.
Lemma build_told utf8 exe rustc cs f ns : Forall works cs -> Forall (passes utf8 exe rustc) cs -> reported_by utf8 exe rustc cs f ns -> filter mark ns = concat (map told cs).
Proof.
  intros W U B. unfold reported_by in B. rewrite select_mark in B. apply marks_inj.
  - apply Forall_forall. intros n I. now apply filter_In in I.
  - clear W U B. induction cs as [|c cs IH]; [constructor|]. cbn [map concat]. apply Forall_app. split; [apply told_marks | exact IH].
  - rewrite B. clear B. induction W as [|c cs Wc W IH]; [reflexivity|]. apply Forall_cons_iff in U. destruct U as [Uc U]. cbn [map concat]. rewrite map_app, (IH U), (wrapper_wrap utf8 _ (f c) Uc), (told_errors exe rustc c (f c) Wc). reflexivity.
Qed.

(** ** The archive *)
Lemma told_rlib c : select rlib_of (told c) = select links_builtins (cp_opts c).
Proof.
  unfold told. rewrite select_app. set (tl := match last_of crate_of (cp_opts c) None with Some _ => _ | None => _ end).
  assert (Z : select rlib_of tl = []). { unfold tl. destruct (last_of crate_of (cp_opts c) None) as [n|]; [|reflexivity]. destruct (last_of out_of (cp_opts c) None) as [d|]; [|reflexivity]. now destruct (str_eqb n builtins). }
  rewrite Z, app_nil_r. clear tl Z. induction (cp_opts c) as [|o os IH]; [reflexivity|]. cbn [select]. destruct o as [m [q|]| | | |]; cbn [builtins_rlib links_builtins]; try exact IH.
  change builtins with (lit "compiler_builtins"). destruct (str_eqb m (lit "compiler_builtins")); cbn [select rlib_of]; [now rewrite IH | exact IH].
Qed.
Lemma build_rlib cs : select rlib_of (concat (map told cs)) = select links_builtins (concat (map cp_opts cs)).
Proof. induction cs as [|c cs IH]; [reflexivity|]. cbn [map concat]. now rewrite !select_app, told_rlib, IH. Qed.

(** ** The IR *)
Lemma told_ll c : select ll_of (told c) = [] /\ (works c -> ~ latest crate_of (cp_opts c) (Some builtins)) \/ exists path, select ll_of (told c) = [path] /\ compiles_builtins c path.
Proof.
  unfold told. rewrite select_app.
  assert (Z : select ll_of (select builtins_rlib (cp_opts c)) = []).
  { induction (cp_opts c) as [|o os IH]; [reflexivity|]. cbn [select]. destruct o as [m [q|]| | | |]; cbn [builtins_rlib]; try exact IH. destruct (str_eqb m (lit "compiler_builtins")); exact IH. }
  rewrite Z. cbn [app]. pose proof (last_of_latest crate_of (cp_opts c)) as Lc. pose proof (last_of_latest out_of (cp_opts c)) as Lo. pose proof (last_of_latest extra_of (cp_opts c)) as Le.
  destruct (last_of crate_of (cp_opts c) None) as [n|].
  - destruct (str_eqb_spec n builtins) as [->|Nb].
    + destruct (last_of out_of (cp_opts c) None) as [d|].
      * right. eexists. split; [reflexivity|]. split; [exact Lc|]. exists d, (last_of extra_of (cp_opts c) None). split; [exact Lo|]. split; [exact Le | reflexivity].
      * left. split; [reflexivity|]. intros W L. destruct (wk_out c W L) as [d Hd]. pose proof (latest_unique _ _ _ _ Lo Hd). discriminate.
    + left. split; [now destruct (last_of out_of (cp_opts c) None)|]. intros _ L. pose proof (latest_unique _ _ _ _ Lc L) as K. injection K as K. now apply Nb.
  - left. split; [reflexivity|]. intros _ L. pose proof (latest_unique _ _ _ _ Lc L). discriminate.
Qed.
Lemma build_ll cs path pre : Forall works cs -> select ll_of (concat (map told cs)) = pre ++ [path] ->
  exists a c b, cs = a ++ c :: b /\ compiles_builtins c path /\ forall c', In c' b -> ~ latest crate_of (cp_opts c') (Some builtins).
Proof.
  revert pre. induction cs as [|c cs IH] using rev_ind; intros pre W E; [now destruct pre|].
  apply Forall_app in W. destruct W as [W Wc]. inversion Wc as [|? ? Wc' _]; subst. rewrite map_app, concat_app, select_app in E. cbn [map concat] in E. rewrite app_nil_r in E.
  destruct (told_ll c) as [[Z N]|[q [Z C]]]; rewrite Z in E.
  - rewrite app_nil_r in E. destruct (IH pre W E) as [a [c0 [b [-> [C L]]]]]. exists a, c0, (b ++ [c]). split; [now rewrite <- app_assoc|]. split; [exact C|].
    intros c' I. apply in_app_or in I. destruct I as [I|[<-|[]]]; [now apply L | now apply N].
  - apply app_inj_tail in E. destruct E as [_ <-]. exists cs, c, []. split; [reflexivity|]. split; [exact C|]. now intros c' [].
Qed.

Theorem pair_run demangle w t c command ns code exe rustc cs f : sane w -> main demangle w = (t, c) -> In (lit "cargo", command) (commands t) ->
  w_cargo w command = Ret (concat (map (fun n => note_line n ++ ["010"%char]) ns), code) -> Forall note_ok ns -> (forall n, In n ns -> w_utf8 w (note_line n) = true) ->
  Forall works cs -> Forall (passes (w_utf8 w) exe rustc) cs -> reported_by (w_utf8 w) exe rustc cs f ns -> c = 0%Z ->
  exists target file rlib ll p out before last after,
    latest links_builtins (concat (map cp_opts cs)) (Some rlib) /\
    cs = before ++ last :: after /\ compiles_builtins last ll /\ (forall c', In c' after -> ~ latest crate_of (cp_opts c') (Some builtins)) /\
    analyses w target file rlib ll p /\ output demangle (w_orders w) (a_start (w_args w)) (a_format (w_args w)) p = Ret out /\ printed t = [out].
Proof.
  intros S M I E F U W Up B N. destruct (c48_run demangle w t c command ns code S M I E F U) as [_ [_ H]]. destruct (H N) as [target [file [rlib [ll [p [out [Lr [Ll [A [O P]]]]]]]]]].
  pose proof (build_told (w_utf8 w) exe rustc cs f ns W Up B) as K. apply latest_select in Lr. apply latest_select in Ll. destruct Lr as [p1 Lr]. destruct Ll as [p2 Ll].
  rewrite <- (select_filter rlib_of), K, build_rlib in Lr by (now intros [| |]). rewrite <- (select_filter ll_of), K in Ll by (now intros [| |]).
  destruct (build_ll cs ll p2 W Ll) as [a [x [b [Ec [C L]]]]]. exists target, file, rlib, ll, p, out, a, x, b.
  split; [apply latest_select; now exists p1|]. split; [exact Ec|]. split; [exact C|]. split; [exact L|]. split; [exact A|]. split; [exact O | exact P].
Qed.
