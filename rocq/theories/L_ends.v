(** How a run ends: lemmas for C95. *)
From Verif Require Import M_base M_stack M_graph M_analysis M_filter M_names M_thumb M_ty M_parse M_build M_run M_log M_wrapper M_driver S_names S_graph S_sig S_build S_run S_log S_driver S_ends.
From Verif Require Import L_base L_names L_build1 L_build2 L_build9 L_log L_log2 L_log8 L_log9 L_driver1 L_driver2 L_path L_write L_driver3 L_debug5 L_driver4 L_driver5 L_log10 L_nofail.

Lemma fails_stops {A} (o : outcome A) f c : fails o f c -> stops o.
Proof. intros F z E. subst o. inversion F. Qed.
Lemma stops_fails {A} (o : outcome A) : stops o -> exists f c, fails o f c.
Proof. intros S. destruct o as [a|m|s|]; [destruct (S a eq_refl)|..]; eexists; eexists; constructor. Qed.
Lemma fails_nf {A} (o : outcome A) : stops o -> nf o -> fails o Crash 101.
Proof. intros S N. destruct o as [a|m|s|]; [destruct (S a eq_refl) | destruct (N m eq_refl) | constructor | constructor]. Qed.
Lemma fails_fun {A} (o : outcome A) f c f' c' : fails o f c -> fails o f' c' -> f = f' /\ c = c'.
Proof. intros A1 B. destruct A1; inversion B; split; reflexivity. Qed.

(** Reading the files. *)
Lemma load_split w target file rlib ll :
  (forall f c, fails (load (without_symtab w) target file rlib ll) f c -> fails (load_files w target file rlib ll) f c) /\
  (forall q, load (without_symtab w) target file rlib ll = Ret q -> exists s, load_files w target file rlib ll = Ret (q, s) /\ symtab_is w file q s).
Proof.
  assert (A : forall ms, archive_sizes (without_symtab w) ms = archive_sizes w ms) by (induction ms as [|m ms IH]; [reflexivity|]; cbn [archive_sizes]; rewrite IH; reflexivity).
  rewrite load_flat. unfold load_files. cbv zeta.
  change (w_path (without_symtab w)) with (w_path w). change (w_args (without_symtab w)) with (w_args w). change (w_host (without_symtab w)) with (w_host w). change (w_read (without_symtab w)) with (w_read w).
  change (w_dir (without_symtab w)) with (w_dir w). change (w_object (without_symtab w)) with (w_object w). change (w_archive (without_symtab w)) with (w_archive w). change (w_executable (without_symtab w)) with (w_executable w).
  change (w_text (without_symtab w)) with (w_text w). change (w_defines_order (without_symtab w)) with (w_defines_order w). change (w_symtab (without_symtab w)) with (fun _ : str => Ret (@nil (N * str))).
  change (read_to_string (without_symtab w)) with (read_to_string w).
  assert (F : forall (A B C : Type) (o : outcome A), (forall a, o <> Ret a) -> forall (k : A -> outcome B) (k' : A -> outcome C), 
     (forall f c, fails (bind o k) f c -> fails (bind o k') f c) /\ (forall q, bind o k <> Ret q)).
  { intros A1 B C o S k k'. destruct o; [destruct (S a eq_refl)|..]; cbn [bind]; (split; [intros f c H; inversion H; subst; constructor | intros; discriminate]). }
  pose (P := fun (x : outcome prog) (y : outcome (prog * outcome (list (N * str)))) => (forall f c, fails x f c -> fails y f c) /\ (forall q, x = Ret q -> exists s, y = Ret (q, s) /\ symtab_is w file q s)).
  match goal with |- (forall f c, fails ?x f c -> fails ?y f c) /\ _ => change (P x y) end.
  assert (St : forall (A : Type) (o : outcome A) (k : A -> outcome prog) k', (forall a, o = Ret a -> P (k a) (k' a)) -> P (bind o k) (bind o k')).
  { intros A1 o k k' H. destruct (outcome_dec o) as [[a ->]|S]; [cbn [bind]; apply H; reflexivity|]. destruct (F _ _ _ o S k k') as [F1 F2]. split; [exact F1 | intros q E; destruct (F2 q E)]. }
  apply St. intros path Ep. apply St. intros elf El.
  assert (El' : w_read w path = Ret elf) by (unfold context in El; destruct (w_read w path); first [exact El | discriminate El]).
  apply St. intros dir Ed. apply St. intros [[n t]|] En; [|split; [intros f c H; inversion H; constructor | discriminate]].
  do 7 (apply St; intros ? ?). rewrite A. apply St. intros more _. apply St. intros el _.
  split.
  - intros f c Hf. exfalso. revert Hf. destruct (is_thumb (classify_target target)); cbn [bind]; intros Hf; inversion Hf.
  - intros q. destruct (is_thumb (classify_target target)) eqn:T; cbn [bind]; intros E; injection E as <-; eexists; (split; [reflexivity|]).
    + apply (sy_thumb w file _ path elf); [exact T | exact Ep | exact El'].
    + apply sy_other. exact T.
Qed.
Lemma load_of_files w target file rlib ll q l : load_files w target file rlib ll = Ret (q, Ret l) -> load w target file rlib ll = Ret (with_tags q l).
Proof. intros E. unfold load. rewrite E. reflexivity. Qed.

(** What comes before the symbol table. *)
Lemma early_iff demangle p : wf_prog p -> (exists e, snd (early_log demangle p) = Ret e) <-> early_ok p.
Proof.
  intros W. unfold early_log. rewrite snd_lbind. cbn [quiet snd]. destruct (default_methods_total demangle (map fst (pg_defines p))) as [u ->]. cbn [bind]. rewrite snd_lbind, real_erase. split.
  - intros [e E]. apply bind_inv in E. destruct E as [n [En E]]. rewrite ir_erase in E. pose proof (real_nodes_spec _ _ _ W En) as R.
    split; [exact (real_nodes_named demangle p n En)|]. apply (ir_edges_iff demangle p n W R). exists e. exact E.
  - intros [N S]. destruct (real_nodes_total demangle p N) as [n En]. rewrite En. cbn [bind]. rewrite ir_erase. apply (ir_edges_iff demangle p n W (real_nodes_spec _ _ _ W En)). exact S.
Qed.
Lemma early_nf demangle p : nf (snd (early_log demangle p)).
Proof.
  unfold early_log. rewrite snd_lbind. cbn [quiet snd]. apply nf_bind; [auto with nf | intros _]. rewrite snd_lbind, real_erase. apply nf_bind; [auto with nf | intros n]. rewrite ir_erase. auto with nf.
Qed.

(** After a successful build. *)
Definition ended (o : outcome Z) (f : final) : Prop :=
  match f with Done => exists z, o = Ret z | Says m => o = Fail m | Crash => stops o end.
Lemma fails_ended {A} (o : outcome A) f c : fails o f c -> forall r : outcome Z, fails r f c -> ended r f /\ code_of r = c.
Proof. intros F r G. destruct G; (split; [first [reflexivity | intros z; discriminate] | reflexivity]). Qed.
Lemma ibind_fails {A B} (t : list event) (o : outcome A) (k : A -> io B) f c : fails o f c -> fst (ibind (t, o) k) = t /\ fails (snd (ibind (t, o) k)) f c.
Proof. intros F. destruct F; (split; [reflexivity | constructor]). Qed.
Lemma loading_split demangle w target file rlib ll : sane w ->
  (forall f c, fails (load (without_symtab w) target file rlib ll) f c -> fails (snd (loading demangle w target file rlib ll)) f c) /\
  (forall p s, load (without_symtab w) target file rlib ll = Ret p -> symtab_is w file p s -> load_files w target file rlib ll = Ret (p, s) -> stops s ->
     (early_ok p -> forall f c, fails s f c -> fails (snd (loading demangle w target file rlib ll)) f c) /\
     (~ early_ok p -> fails (snd (loading demangle w target file rlib ll)) Crash 101)).
Proof.
  intros Sa. destruct (load_split w target file rlib ll) as [L1 L2]. split.
  - intros f c F. unfold loading. apply (proj2 (ibind_fails [] _ _ f c (L1 f c F))).
  - intros p s E Sy Lf St. destruct (loaded _ target file rlib ll p (without_sane w Sa) E) as [Wp _]. unfold loading. rewrite Lf, ibind_ret. pose proof (early_iff demangle p Wp) as I. pose proof (early_nf demangle p) as N.
    assert (Rs : read_symtab demangle p s = ibind (logged (early_log demangle p)) (fun _ => lift (bind s (fun l => Ret (with_tags p l))))) by (destruct s; [destruct (St _ eq_refl) | reflexivity..]).
    rewrite Rs. split.
    + intros Ok f c F. destruct (proj2 I Ok) as [e Ee]. unfold logged. rewrite Ee, ibind_go. cbn [lift snd]. destruct F; constructor.
    + intros No. unfold logged. apply (proj2 (ibind_fails _ _ _ Crash 101%Z (fails_nf _ (fun e Ee => No (proj1 I (ex_intro _ e Ee))) N))).
Qed.
Lemma loading_silent demangle w target file rlib ll (k : prog -> io Z) f c : fails (snd (loading demangle w target file rlib ll)) f c ->
  printed (fst (ibind (loading demangle w target file rlib ll) k)) = [] /\ errors (fst (ibind (loading demangle w target file rlib ll) k)) = [] /\ fails (snd (ibind (loading demangle w target file rlib ll) k)) f c.
Proof.
  intros F. destruct (loading_logs demangle w target file rlib ll) as [ms E]. destruct (loading demangle w target file rlib ll) as [t o]. cbn [fst snd] in E, F. destruct (ibind_fails t o k f c F) as [-> G]. rewrite E.
  destruct (logs_silent ms) as [_ [K1 [_ K2]]]. split; [exact K1|]. split; [exact K2 | rewrite <- E; exact G].
Qed.
Lemma analyse_ends demangle w target file rlib ll : sane w -> let b := analyse demangle w target file (Some rlib, Some ll) in
  exists f out, analysis_ends demangle w target file rlib ll f out (code_of (snd b)) /\ printed (fst b) = out /\ errors (fst b) = [] /\ ended (snd b) f.
Proof.
  intros Sa. cbv zeta. cbn [analyse].
  set (k := fun p : prog => ibind (logged (report_log demangle (w_orders w) (a_start (w_args w)) p)) (fun '(g, cycles) => ibind (emit (write_output w demangle g cycles)) (fun _ => iret 0%Z))).
  change (exists f out, analysis_ends demangle w target file rlib ll f out (code_of (snd (ibind (loading demangle w target file rlib ll) k))) /\ printed (fst (ibind (loading demangle w target file rlib ll) k)) = out /\
    errors (fst (ibind (loading demangle w target file rlib ll) k)) = [] /\ ended (snd (ibind (loading demangle w target file rlib ll) k)) f).
  assert (Stop : forall f c, fails (snd (loading demangle w target file rlib ll)) f c -> analysis_ends demangle w target file rlib ll f [] c ->
    exists f out, analysis_ends demangle w target file rlib ll f out (code_of (snd (ibind (loading demangle w target file rlib ll) k))) /\ printed (fst (ibind (loading demangle w target file rlib ll) k)) = out /\
      errors (fst (ibind (loading demangle w target file rlib ll) k)) = [] /\ ended (snd (ibind (loading demangle w target file rlib ll) k)) f).
  { intros f c F En. destruct (loading_silent demangle w target file rlib ll k f c F) as [P [Er G]]. destruct (fails_ended _ f c F _ G) as [D C]. exists f, []. rewrite C. split; [exact En|]. split; [exact P|]. split; [exact Er | exact D]. }
  destruct (loading_split demangle w target file rlib ll Sa) as [L1 L2]. destruct (outcome_dec (load (without_symtab w) target file rlib ll)) as [[p E]|S].
  2:{ destruct (stops_fails _ S) as [f [c F]]. exact (Stop f c (L1 f c F) (an_files demangle w target file rlib ll f c F)). }
  destruct (proj2 (load_split w target file rlib ll) p E) as [s [Lf Sy]]. destruct (outcome_dec s) as [[l ->]|Ss].
  2:{ destruct (L2 p s E Sy Lf Ss) as [H1 H2]. destruct (loaded _ target file rlib ll p (without_sane w Sa) E) as [Wp _]. destruct (outcome_dec (snd (early_log demangle p))) as [Ok|No].
      - apply (early_iff demangle p Wp) in Ok. destruct (stops_fails _ Ss) as [f [c F]]. exact (Stop f c (H1 Ok f c F) (an_symtab demangle w target file rlib ll p s f c E Sy Ok F)).
      - assert (No' : ~ early_ok p) by (intros Ok; apply (early_iff demangle p Wp) in Ok; destruct Ok as [e Ee]; exact (No e Ee)). exact (Stop _ _ (H2 No') (an_early demangle w target file rlib ll p s E Sy No' Ss)). }
  pose proof (load_of_files _ _ _ _ _ _ _ Lf) as Lo. set (q := with_tags p l) in *. rewrite (loading_ret demangle _ _ _ _ _ _ Lo), ibind_iret. subst k. cbv beta.
  rewrite log_parts. pose proof (output_says demangle w q) as O. set (ms := fst (report_log demangle (w_orders w) (a_start (w_args w)) q)). destruct (logs_silent ms) as [_ [K1 [_ K2]]].
  destruct (outcome_dec (report demangle (w_orders w) (a_start (w_args w)) q)) as [[[g cycles] R]|S].
  - rewrite R in O |- *. destruct O as [text [O Sa']]. rewrite ibind_go. destruct (received_any (w_fault w) text) as [out [e Rc]]. rewrite (emit_says _ _ _ _ _ Sa' Rc). destruct e as [e|].
    + exists (Says e), [out]. cbn [ibind lift fst snd code_of]. split; [exact (an_stdout demangle w target file rlib ll q text out e Lo O Rc)|].
      split; [rewrite printed_app, K1; reflexivity|]. split; [rewrite errors_app, K2; reflexivity | reflexivity].
    + destruct (proj1 (received_all (w_fault w) text out) Rc) as [-> _]. exists Done, [text]. rewrite ibind_go. cbn [iret lift fst snd code_of]. split; [exact (an_done demangle w target file rlib ll q text Lo O Rc)|].
      split; [rewrite printed_app, K1; reflexivity|]. split; [rewrite errors_app, K2; reflexivity | now exists 0%Z].
  - pose proof (fails_nf _ S (report_nf demangle (w_orders w) (a_start (w_args w)) q)) as F.
    match goal with |- context [ibind (map ELog ms, ?o) ?k] => destruct (ibind_fails (map ELog ms) o k _ _ F) as [G1 G2] end. rewrite G1. destruct (fails_ended _ _ _ F _ G2) as [D C]. rewrite C.
    exists Crash, []. split; [apply (an_program demangle w target file rlib ll q Lo); destruct (report demangle (w_orders w) (a_start (w_args w)) q) as [[g cycles]| | |]; [destruct (S _ eq_refl)|..]; exact O|].
    split; [exact K1|]. split; [exact K2 | exact D].
Qed.
Lemma echo_silent l : printed (map EErr l) = [].
Proof. unfold printed. induction l as [|x l IH]; [reflexivity | exact IH]. Qed.
Lemma legible_all w ls : legible w ls -> Forall (fun x => w_utf8 w x = true) ls.
Proof. intros L. apply Forall_forall. exact L. Qed.
Lemma first_illegible w ls : legible w ls \/ exists a l b, ls = a ++ l :: b /\ legible w a /\ w_utf8 w l = false.
Proof.
  induction ls as [|x ls IH]; [left; intros l []|]. destruct (w_utf8 w x) eqn:E; [|right; exists [], x, ls; split; [reflexivity|]; split; [intros l [] | exact E]].
  destruct IH as [L|[a [l [b [-> [L U]]]]]]; [left; intros l [<-|I]; [exact E | exact (L l I)]|]. right. exists (x :: a), l, b. split; [reflexivity|]. split; [intros y [<-|I]; [exact E | exact (L y I)] | exact U].
Qed.
Lemma build_ends demangle w target file exe command : sane w -> let b := build_and_analyse demangle w target file exe command in
  exists echo f out, ends demangle w command target file echo f out (code_of (snd b)) /\ printed (fst b) = out /\ errors (fst b) = echo /\ ended (snd b) f.
Proof.
  intros Sa. cbv zeta. unfold build_and_analyse. rewrite ibind_say. cbn [fst snd]. set (cmd := ECmd _ _ _). assert (C : forall x, errors (cmd :: x) = errors x /\ printed (cmd :: x) = printed x) by (intros x; split; reflexivity).
  rewrite (proj1 (C _)), (proj2 (C _)). clear C. destruct (outcome_dec (w_cargo w command)) as [[[text code] Ec]|S].
  2:{ destruct (stops_fails _ S) as [f [c F]]. unfold lift. match goal with |- context [ibind ([], w_cargo w command) ?k] => destruct (ibind_fails [] _ k f c F) as [G1 G2] end. rewrite G1. destruct (fails_ended _ f c F _ G2) as [D Cc]. rewrite Cc.
      exists [], f, []. split; [exact (en_spawn demangle w command target file f c F)|]. split; [reflexivity|]. split; [reflexivity | exact D]. }
  rewrite Ec, ibind_ret. cbn [fst snd]. destruct (c48_lines text) as [ls [ns [Ll [Ln _]]]]. rewrite (lines_of_buf _ _ Ll).
  assert (Re : cargo_wrote w command code ls ns) by (exists text; split; [exact Ec|]; split; assumption).
  destruct (first_illegible w ls) as [Le|[a [l [b [El [La Ul]]]]]].
  2:{ rewrite (proj2 (read_any (w_utf8 w) ls ns Ln None None) a l b El (legible_all _ _ La) Ul). cbn [ibind fst snd code_of]. exists (select text_of (firstn (length a) ns)), (Says (lit "stream did not contain valid UTF-8")), [].
      split; [exact (en_bytes demangle w command target file code ls ns a l b Re El La Ul)|]. split; [apply echo_silent|]. split; [apply errors_echo | reflexivity]. }
  rewrite (proj1 (read_any (w_utf8 w) ls ns Ln None None) (legible_all _ _ Le)), ibind_go. cbn [fst snd]. rewrite printed_app, errors_app, echo_silent, errors_echo. cbn [app].
  assert (Nz : code <> Some 0%Z \/ code = Some 0%Z) by (destruct code as [[|z|z]|]; [right; reflexivity | left; discriminate..]).
  destruct Nz as [Nz | ->].
  - exists (select text_of ns), Done, []. replace (match code with Some 0%Z => analyse demangle w target file (last_of rlib_of ns None, last_of ll_of ns None) | Some c0 => iret c0 | None => iret 1%Z end) with (iret (match code with Some c => c | None => 1%Z end)) by (destruct code as [[|z|z]|]; [destruct (Nz eq_refl) | reflexivity..]).
    cbn [iret lift fst snd code_of]. split; [exact (en_build demangle w command target file code ls ns Re Le Nz)|]. split; [reflexivity|]. split; [apply app_nil_r | eexists; reflexivity].
  - pose proof (last_of_latest rlib_of ns) as Lr. pose proof (last_of_latest ll_of ns) as Lb. destruct (last_of rlib_of ns None) as [rlib|] eqn:Kr; [destruct (last_of ll_of ns None) as [ll|] eqn:Kb|].
    + assert (B : builds w command rlib ll (select text_of ns)) by (exists ls, ns; repeat (split; [assumption|]); reflexivity).
      destruct (analyse_ends demangle w target file rlib ll Sa) as [f [out [H1 [H2 [H3 H4]]]]]. exists (select text_of ns), f, out. split; [exact (en_analysis demangle w command target file rlib ll _ f out _ B H1)|]. split; [exact H2|]. split; [rewrite H3; apply app_nil_r | exact H4].
    + exists (select text_of ns), Crash, []. split; [exact (en_unlinked demangle w command target file ls ns Re Le (or_intror Lb))|]. split; [reflexivity|]. split; [apply app_nil_r | intros z; discriminate].
    + exists (select text_of ns), Crash, []. split; [exact (en_unlinked demangle w command target file ls ns Re Le (or_introl Lr))|]. split; [reflexivity|]. split; [apply app_nil_r | intros z; discriminate].
Qed.
(** C95 *)
Theorem run_ends demangle w t c command : sane w -> main demangle w = (t, c) -> In (lit "cargo", command) (commands t) ->
  exists target file echo f out, In (lit "rustc", [lit "--print=cfg"; lit "--target"; target]) (commands t) /\ one_artifact (w_args w) file /\
    ends demangle w command target file echo f out c /\ printed t = out /\ last_words echo f (errors t).
Proof.
  intros Sa M I. destruct (user_run demangle w t c (sane_user w Sa) M) as [[H _]|[file [config [_ [P [Ec H]]]]]]; [rewrite H in I; destruct I|].
  destruct H as [[H _]|[cfg [r0 [pre [exe [extra [G [Ht [Hc [H1 [Hp [He Hx]]]]]]]]]]]]; [rewrite H in I; destruct I as [I|[]]; discriminate I|].
  assert (It : In (lit "rustc", [lit "--print=cfg"; lit "--target"; target_of w config]) (commands t)) by (rewrite H1; left; reflexivity).
  rewrite H1 in I. destruct I as [I|[I|[]]]; [discriminate I|]. injection I as <-.
  destruct (build_ends demangle w (target_of w config) file exe (cargo_args (w_args w) file (no_std (buf_lines cfg))) Sa) as [echo [f [out [E [Po [Eo D]]]]]].
  set (b := build_and_analyse demangle w (target_of w config) file exe (cargo_args (w_args w) file (no_std (buf_lines cfg)))) in *.
  exists (target_of w config), file, echo, f, out. split; [exact It|]. split; [exact P|]. split; [rewrite Hc; exact E|]. split; [rewrite Hp; exact Po|].
  assert (Et : errors t = echo ++ errors extra) by (rewrite Ht, !errors_app, (proj1 He), Eo; reflexivity). rewrite Et. destruct f as [|m|]; cbn [ended last_words] in *.
  - destruct D as [z D]. destruct Hx as [[-> _]|[Hx _]]; [apply app_nil_r | destruct (Hx _ D)].
  - destruct Hx as [[_ [z Hz]]|[_ [m' [-> Hm]]]]; [congruence|]. rewrite (Hm m D). reflexivity.
  - destruct Hx as [[_ [z Hz]]|[_ [m' [-> Hm]]]]; [destruct (D _ Hz)|]. exists m'. reflexivity.
Qed.

(** The ending is determined. *)
Lemma wrote_fun w command code ls ns code' ls' ns' : cargo_wrote w command code ls ns -> cargo_wrote w command code' ls' ns' -> code = code' /\ ls = ls' /\ ns = ns'.
Proof.
  intros [text [E [L N]]] [text' [E' [L' N']]]. rewrite E in E'. injection E' as <- <-. destruct (c48_lines text) as [l0 [n0 [_ [_ U]]]]. destruct (U _ _ L N) as [-> ->]. destruct (U _ _ L' N') as [-> ->]. repeat split.
Qed.
Lemma builds_fun w command rlib ll echo rlib' ll' echo' : builds w command rlib ll echo -> builds w command rlib' ll' echo' -> rlib = rlib' /\ ll = ll' /\ echo = echo'.
Proof.
  intros [ls [ns [A1 [_ [A2 [A3 ->]]]]]] [ls' [ns' [B1 [_ [B2 [B3 ->]]]]]]. destruct (wrote_fun _ _ _ _ _ _ _ _ A1 B1) as [_ [<- <-]].
  pose proof (latest_unique _ _ _ _ A2 B2) as X. pose proof (latest_unique _ _ _ _ A3 B3) as Y. injection X as ->. injection Y as ->. repeat split.
Qed.
Lemma first_fun w a l b a' l' b' : a ++ l :: b = a' ++ l' :: b' -> legible w a -> legible w a' -> w_utf8 w l = false -> w_utf8 w l' = false -> a = a'.
Proof.
  revert a'. induction a as [|x a IH]; intros [|y a'] E L L' U U'; cbn in E; injection E as E1 E2; [reflexivity | | |].
  - rewrite E1, (L' y (or_introl eq_refl)) in U. discriminate.
  - rewrite <- E1, (L x (or_introl eq_refl)) in U'. discriminate.
  - f_equal; [exact E1|]. apply (IH a' E2); [intros z I; apply L; now right | intros z I; apply L'; now right | exact U | exact U'].
Qed.
Lemma symtab_fun w file p s s' : symtab_is w file p s -> symtab_is w file p s' -> s = s'.
Proof.
  intros A B. destruct A as [T|path elf T P E], B as [T'|path' elf' T' P' E']; congruence.
Qed.
Lemma load_inv w target file rlib ll p : load w target file rlib ll = Ret p ->
  exists q l, load (without_symtab w) target file rlib ll = Ret q /\ symtab_is w file q (Ret l).
Proof.
  intros L. destruct (load_split w target file rlib ll) as [L1 L2]. unfold load in L. apply bind_Ret in L. destruct L as [[q s] [E L]]. apply bind_Ret in L. destruct L as [l [-> _]].
  destruct (outcome_dec (load (without_symtab w) target file rlib ll)) as [[q' Q]|S].
  - destruct (L2 q' Q) as [s [Lf Sy]]. rewrite E in Lf. injection Lf as <- <-. exists q, l. split; assumption.
  - destruct (stops_fails _ S) as [f [c F]]. pose proof (L1 f c F) as K. rewrite E in K. inversion K.
Qed.
Theorem analysis_fun demangle w target file rlib ll f out c f' out' c' :
  analysis_ends demangle w target file rlib ll f out c -> analysis_ends demangle w target file rlib ll f' out' c' -> f = f' /\ out = out' /\ c = c'.
Proof.
  assert (X1 : forall p f c, load w target file rlib ll = Ret p -> fails (load (without_symtab w) target file rlib ll) f c -> False).
  { intros p f0 c0 L F. destruct (load_inv _ _ _ _ _ _ L) as [q [l [Q _]]]. rewrite Q in F. inversion F. }
  assert (X2 : forall p q s, load w target file rlib ll = Ret p -> load (without_symtab w) target file rlib ll = Ret q -> symtab_is w file q s -> stops s -> False).
  { intros p q s L Q Sy S. destruct (load_inv _ _ _ _ _ _ L) as [q' [l [Q' Sy']]]. rewrite Q in Q'. injection Q' as <-. exact (S l (symtab_fun _ _ _ _ _ Sy Sy')). }
  intros A B.
  destruct A as [f c F|p s f c L Sy Ok F|p s L Sy No S|p L O|p text out e L O R|p text L O R]; destruct B as [f' c' F'|p' s' f' c' L' Sy' Ok' F'|p' s' L' Sy' No' S'|p' L' O'|p' text' out' e' L' O' R'|p' text' L' O' R'];
  try (exfalso; eapply X1; eassumption); try (exfalso; rewrite L in F'; now inversion F'); try (exfalso; rewrite L' in F; now inversion F);
  try (exfalso; eapply X2; first [eassumption | eapply fails_stops; eassumption]);
  try (rewrite L in L'; injection L' as <-); try (pose proof (symtab_fun _ _ _ _ _ Sy Sy'); subst s'); try (exfalso; tauto); try (exfalso; eapply O'; eassumption); try (exfalso; eapply O; eassumption).
  - destruct (fails_fun _ _ _ _ _ F F') as [-> ->]. repeat split.
  - destruct (fails_fun _ _ _ _ _ F F') as [-> ->]. repeat split.
  - repeat split.
  - repeat split.
  - rewrite O in O'. injection O' as <-. destruct (received_fun _ _ _ _ _ _ R R') as [-> E]. injection E as ->. repeat split.
  - rewrite O in O'. injection O' as <-. destruct (received_fun _ _ _ _ _ _ R R') as [_ E]. discriminate E.
  - rewrite O in O'. injection O' as <-. destruct (received_fun _ _ _ _ _ _ R R') as [_ E]. discriminate E.
  - rewrite O in O'. injection O' as <-. repeat split.
Qed.
Theorem ends_fun demangle w command target file echo f out c echo' f' out' c' :
  ends demangle w command target file echo f out c -> ends demangle w command target file echo' f' out' c' -> echo = echo' /\ f = f' /\ out = out' /\ c = c'.
Proof.
  assert (X1 : forall code ls ns f c, cargo_wrote w command code ls ns -> fails (w_cargo w command) f c -> False) by (intros code ls ns f0 c0 [text [E _]] F; rewrite E in F; inversion F).
  assert (X2 : forall code ls ns code' ls' ns' a l b, cargo_wrote w command code ls ns -> legible w ls -> cargo_wrote w command code' ls' ns' -> ls' = a ++ l :: b -> w_utf8 w l = false -> False).
  { intros code ls ns code' ls' ns' a l b A L B E U. destruct (wrote_fun _ _ _ _ _ _ _ _ A B) as [_ [-> _]]. rewrite (L l) in U; [discriminate|]. rewrite E. apply in_or_app. right. now left. }
  assert (X3 : forall rlib ll echo, builds w command rlib ll echo -> exists ls ns, cargo_wrote w command (Some 0%Z) ls ns /\ legible w ls /\ latest rlib_of ns (Some rlib) /\ latest ll_of ns (Some ll)).
  { intros rlib ll e [ls [ns [H1 [H2 [H3 [H4 _]]]]]]. exists ls, ns. repeat (split; [assumption|]). assumption. }
  intros A B.
  destruct A as [f c F|code ls ns a l b C E L U|code ls ns C L N|ls ns C L N|rlib ll echo f out c D An]; destruct B as [f' c' F'|code' ls' ns' a' l' b' C' E' L' U'|code' ls' ns' C' L' N'|ls' ns' C' L' N'|rlib' ll' echo' f' out' c' D' An'];
  try (destruct (X3 _ _ _ D) as [ls [ns [C [L [Lr Lb]]]]]); try (destruct (X3 _ _ _ D') as [ls' [ns' [C' [L' [Lr' Lb']]]]]);
  try (exfalso; eapply X1; eassumption); try (exfalso; exact (X2 _ _ _ _ _ _ _ _ _ C' L' C E U)); try (exfalso; exact (X2 _ _ _ _ _ _ _ _ _ C L C' E' U')); try (destruct (wrote_fun _ _ _ _ _ _ _ _ C C') as [Ec [El En]]; subst); try congruence.
  - destruct (fails_fun _ _ _ _ _ F F') as [-> ->]. repeat split.
  - rewrite (first_fun w a l b a' l' b' El L L' U U'). repeat split.
  - repeat split.
  - repeat split.
  - exfalso. destruct N as [N|N]; [pose proof (latest_unique _ _ _ _ N Lr') as X | pose proof (latest_unique _ _ _ _ N Lb') as X]; discriminate X.
  - exfalso. destruct N' as [N'|N']; [pose proof (latest_unique _ _ _ _ N' Lr) as X | pose proof (latest_unique _ _ _ _ N' Lb) as X]; discriminate X.
  - destruct (builds_fun _ _ _ _ _ _ _ _ D D') as [<- [<- <-]]. destruct (analysis_fun _ _ _ _ _ _ _ _ _ _ _ _ An An') as [-> [-> ->]]. repeat split.
Qed.
(** The exit codes after a successful build. *)
Theorem codes demangle w t c command text : sane w -> main demangle w = (t, c) -> In (lit "cargo", command) (commands t) ->
  w_cargo w command = Ret (text, Some 0%Z) ->
  (c = 0%Z /\ exists out, printed t = [out]) \/ (c = 1%Z /\ exists pre m, errors t = pre ++ [lit "error: " ++ m]) \/ (c = 101%Z /\ printed t = []).
Proof.
  intros Sa M I E. destruct (run_ends demangle w t c command Sa M I) as [target [file [echo [f [out [_ [_ [En [P La]]]]]]]]].
  assert (Q : forall A (o : outcome A) f c, fails o f c -> (exists m, f = Says m /\ c = 1%Z) \/ (f = Crash /\ c = 101%Z)) by (intros A o f0 c0 F; destruct F; [left; eexists; split; reflexivity | right; split; reflexivity..]).
  assert (G : (f = Done /\ c = 0%Z /\ exists x, out = [x]) \/ (exists m, f = Says m /\ c = 1%Z) \/ (f = Crash /\ c = 101%Z /\ out = [])).
  { destruct En as [f c F|code ls' ns a l b C Ea L' U|code ls' ns C L' N|ls' ns C L' N|rlib ll echo f out c D An].
    - rewrite E in F. inversion F.
    - right. left. eexists. split; reflexivity.
    - exfalso. destruct C as [text' [E' _]]. rewrite E in E'. injection E' as _ <-. exact (N eq_refl).
    - right. right. repeat split.
    - destruct An as [f c F|p s f c Lo Sy Ok F|p s Lo Sy No S|p Lo O|p text' out e Lo O R|p text' Lo O R].
      + destruct (Q _ _ _ _ F) as [H|[-> ->]]; [right; left; exact H | right; right; repeat split].
      + destruct (Q _ _ _ _ F) as [H|[-> ->]]; [right; left; exact H | right; right; repeat split].
      + right. right. repeat split.
      + right. right. repeat split.
      + right. left. eexists. split; reflexivity.
      + left. split; [reflexivity|]. split; [reflexivity | eexists; reflexivity]. }
  destruct G as [[-> [-> [x ->]]]|[[m [-> ->]]|[-> [-> ->]]]]; cbn [last_words] in La.
  - left. split; [reflexivity | exists x; exact P].
  - right. left. split; [reflexivity|]. exists echo, m. exact La.
  - right. right. split; [reflexivity | exact P].
Qed.
