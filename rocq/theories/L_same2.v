(** Runs that differ in the iteration orders. *)
From Coq Require Import Permutation.
From Verif Require Import M_base M_stack M_graph M_analysis M_names M_thumb M_ty M_parse M_render M_write M_build M_run M_log M_wrapper M_driver
  L_base L_driver3 S_graph S_build S_run S_calls S_driver S_same S_log S_samelog L_log L_log2 L_log3 L_log8 L_log9 L_write L_driver4 L_driver5 L_calls5 L_same L_move L_samelog.

Lemma deeds_app a b : deeds (a ++ b) = deeds a ++ deeds b.
Proof. apply filter_app. Qed.
Lemma deeds_log l : deeds (map ELog l) = [].
Proof. induction l as [|x l IH]; [reflexivity | exact IH]. Qed.
Lemma printed_log l : printed (map ELog l) = [].
Proof. induction l as [|x l IH]; [reflexivity | exact IH]. Qed.

Section Orders.
Variables (demangle : str -> str) (ds : list (str * define) -> list (str * define)) (os : orders) (w : world).
Hypothesis (Sw : sane w) (Pd : forall m, Permutation (ds m) m) (Fo : fair os) (Nf : forall k, w_fault w k = None).
Notation w' := (reordered ds os w).
Definition ordered (p : prog) : Prop := stable p /\ one_void p /\ sizes_u64 p.
(** What the second run does if the first one ends well. *)
Definition ends_alike (p : prog) (t : list event) (y : list event * outcome Z) (a : Z) : Prop :=
  exists t', y = (t', Ret a) /\ deeds t' = deeds t /\ exists pre g1 c1 g2 c2 f f', printed t = pre ++ [text_in (a_format (w_args w)) demangle g1 c1] /\
    printed t' = pre ++ [text_in (a_format (w_args w)) demangle g2 c2] /\ same_nodes g1 g2 f f' /\ same_groups c1 c2 f /\ (log_settled p -> Permutation (messages t) (messages t')).
Definition follows (x y : io Z) : Prop := forall t, x = (t, Ret 0%Z) ->
  printed t = [] \/ exists target file rlib ll p, analyses w target file rlib ll p /\ (ordered p -> ends_alike p t y 0%Z).
Lemma follows_bind {A} (x : io A) f g : printed (fst x) = [] -> (forall a, snd x = Ret a -> follows (f a) (g a)) -> follows (ibind x f) (ibind x g).
Proof.
  intros Px H t E. unfold ibind in *. destruct x as [tx [a| | |]]; cbn [fst snd] in *; try discriminate E. destruct (f a) as [tf r] eqn:Ef. cbn [fst snd] in E. injection E as <- ->.
  destruct (H a eq_refl tf Ef) as [N|[target [file [rlib [ll [p [L K]]]]]]]; [left; rewrite printed_app, Px, N; reflexivity|]. right. exists target, file, rlib, ll, p. split; [exact L|]. intros O.
  destruct (K O) as [t' [E' [D [pre [g1 [c1 [g2 [c2 [h [h' [P1 [P2 [S [S2 Lg]]]]]]]]]]]]]]. exists (tx ++ t'). rewrite E'. cbn [fst snd]. split; [reflexivity|]. split; [rewrite !deeds_app, D; reflexivity|].
  exists pre, g1, c1, g2, c2, h, h'. rewrite !printed_app, Px. split; [exact P1|]. split; [exact P2|]. split; [exact S|]. split; [exact S2|]. intros Ls. rewrite !messages_app. apply Permutation_app_head, Lg, Ls.
Qed.
Lemma archive_re ms : archive_sizes w' ms = archive_sizes w ms.
Proof. induction ms as [|m ms IH]; [reflexivity|]. cbn [archive_sizes]. rewrite IH. reflexivity. Qed.
Lemma load_files_re target file rlib ll p st : load_files w target file rlib ll = Ret (p, st) ->
  exists q, load_files w' target file rlib ll = Ret (q, st) /\ same_prog p q.
Proof.
  unfold load_files. cbv zeta. change (w_args w') with (w_args w). change (w_path w') with (w_path w). change (w_host w') with (w_host w). change (w_read w') with (w_read w). change (w_dir w') with (w_dir w).
  change (read_to_string w') with (read_to_string w). change (w_object w') with (w_object w). change (w_archive w') with (w_archive w). change (w_executable w') with (w_executable w). change (w_text w') with (w_text w). change (w_symtab w') with (w_symtab w).
  intros E. repeat (match type of E with bind ?x _ = _ => destruct x eqn:? end; try discriminate E; cbn [bind] in E |- * ).
  match type of E with match ?b with _ => _ end = _ => destruct b as [[ll_name tm]|] end; [|discriminate E].
  repeat (rewrite ?archive_re; match type of E with bind ?x _ = _ => destruct x eqn:? end; try discriminate E; cbn [bind] in E |- * ).
  injection E as <- <-. eexists. split; [reflexivity|]. constructor; cbn [pg_target pg_defines pg_declares pg_sizes pg_defined pg_undefined pg_tags pg_text]; try reflexivity.
  change (w_defines_order w') with ds. eapply Permutation_trans; [apply Pd | apply Permutation_sym; apply (sane_defines _ Sw)].
Qed.
Lemma same_tags p q s : same_prog p q -> same_prog (with_tags p s) (with_tags q s).
Proof. intros [T D1 D2 D3 D4 D5 D6 D7]. constructor; assumption || reflexivity. Qed.
Lemma loading_inv target file rlib ll t p : loading demangle w target file rlib ll = (t, Ret p) ->
  t = [] /\ exists p0 s, load_files w target file rlib ll = Ret (p0, Ret s) /\ p = with_tags p0 s.
Proof.
  unfold loading, ibind, lift. destruct (load_files w target file rlib ll) as [[p0 st]| | |]; cbn [fst snd]; try discriminate. destruct st as [s|m|m|]; cbn [read_symtab].
  - unfold iret. cbn [fst snd app]. intros E. injection E as <- <-. split; [reflexivity|]. exists p0, s. split; reflexivity.
  - unfold ibind, logged. cbn [fst snd bind]. destruct (snd (early_log demangle p0)); discriminate.
  - unfold ibind, logged. cbn [fst snd bind]. destruct (snd (early_log demangle p0)); discriminate.
  - unfold ibind, logged. cbn [fst snd bind]. destruct (snd (early_log demangle p0)); discriminate.
Qed.
Lemma emit_all g cs : emit (write_output w demangle g cs) = ([EOut (text_in (a_format (w_args w)) demangle g cs)], Ret tt).
Proof.
  unfold write_output, text_in. destruct (a_format (w_args w)).
  - apply (emit_says (w_fault w) _ _ _ None (says_dot _ demangle g cs)). apply received_all. split; [reflexivity | intros k _; apply Nf].
  - apply (emit_says (w_fault w) _ _ _ None (says_top _ demangle g)). apply received_all. split; [reflexivity | intros k _; apply Nf].
Qed.
Lemma follows_analyse target file paths : follows (analyse demangle w target file paths) (analyse demangle w' target file paths).
Proof.
  intros t E. unfold analyse in *. destruct paths as [[rlib|] [ll|]]; try discriminate E. right. exists target, file, rlib, ll.
  destruct (loading demangle w target file rlib ll) as [t0 [p| | |]] eqn:L; try discriminate E. unfold ibind in E. cbn [fst snd] in E.
  destruct (loading_inv _ _ _ _ _ _ L) as [-> [p0 [s [L0 ->]]]]. destruct (load_files_re _ _ _ _ _ _ L0) as [q0 [L1 Sp]]. apply (same_tags _ _ s) in Sp.
  exists (with_tags p0 s). assert (Ld : load w target file rlib ll = Ret (with_tags p0 s)) by (unfold load; rewrite L0; reflexivity). destruct (loaded w target file rlib ll _ Sw Ld) as [Wf An]. split; [exact An|]. intros [St [Ov Sz]].
  set (p := with_tags p0 s) in *. set (q := with_tags q0 s) in *. unfold logged in E. cbn [fst snd] in E. rewrite report_erase in E.
  destruct (report demangle (w_orders w) (a_start (w_args w)) p) as [[g1 c1]| | |] eqn:R; try discriminate E. cbn [fst snd] in E. rewrite emit_all in E. cbn [fst snd] in E. injection E as <-.
  destruct (same_report demangle (w_orders w) os (a_start (w_args w)) p q g1 c1 Wf Sp (sane_orders _ Sw) Fo St Ov Sz R) as [g2 [c2 [f [f' [R2 [Sn Sg]]]]]].
  unfold loading, ibind, lift. rewrite L1. cbn [fst snd read_symtab iret]. unfold logged. cbn [fst snd]. rewrite report_erase. fold q. change (w_orders w') with os. change (w_args w') with (w_args w). rewrite R2. cbn [fst snd].
  change (write_output w' demangle g2 c2) with (write_output w demangle g2 c2). rewrite emit_all. cbn [fst snd app].
  eexists. split; [reflexivity|]. split; [rewrite !deeds_app, !deeds_log; reflexivity|]. exists [], g1, c1, g2, c2, f, f'. rewrite !printed_app, !printed_log. repeat (split; [first [reflexivity | exact Sn | exact Sg]|]). intros Ls. rewrite !messages_app, !logs_messages. cbn [messages flat_map]. rewrite !app_nil_r.
  exact (report_logs_perm demangle (w_orders w) os (a_start (w_args w)) p q _ _ Wf Sp (sane_orders _ Sw) Fo Ov Ls R R2).
Qed.
Lemma touch_re : touch w' = touch w.
Proof.
  assert (H : forall l, touch_first w' l = touch_first w l) by (induction l as [|x l IH]; [reflexivity|]; cbn [touch_first]; rewrite IH; reflexivity).
  unfold touch. rewrite H. reflexivity.
Qed.
Lemma printed_touch : printed (fst (touch w)) = [].
Proof.
  assert (H : forall l, printed (fst (touch_first w l)) = []) by (induction l as [|[x| | |] l IH]; try reflexivity; cbn [touch_first]; unfold ibind, lift; cbn [fst snd app]; destruct (is_rs x); cbn [fst snd]; [destruct (w_set_times w x); reflexivity | destruct (touch_first w l) as [? []]; exact IH]).
  unfold touch. destruct (is_ok _); [reflexivity|]. destruct (is_ok _); [reflexivity | apply H].
Qed.
Lemma follows_run : follows (run demangle w) (run demangle w').
Proof.
  unfold run. change (w_wrapper w') with (w_wrapper w). rewrite (sane_user _ Sw).
  change (w_meta w') with (w_meta w). apply follows_bind; [reflexivity|]. intros [] _. change (w_hash w') with (w_hash w). change (w_override w') with (w_override w).
  destruct (_ && _)%bool; [intros t E; discriminate E|]. cbv zeta. change (w_args w') with (w_args w). apply follows_bind; [reflexivity|]. intros file _. change (w_project w') with (w_project w). apply follows_bind; [reflexivity|]. intros config _.
  change (w_host w') with (w_host w). apply follows_bind; [reflexivity|]. intros _ _. change (ask_cfg w') with (ask_cfg w). apply follows_bind; [reflexivity|]. intros cfg _. change (w_exe w') with (w_exe w).
  apply follows_bind; [reflexivity|]. intros exe _. rewrite touch_re. apply follows_bind; [exact printed_touch|]. intros _ _. apply follows_bind; [destruct (a_verbose _); reflexivity|]. intros _ _.
  unfold build_and_analyse. apply follows_bind; [reflexivity|]. intros _ _. change (w_cargo w') with (w_cargo w). apply follows_bind; [reflexivity|]. intros child _. change (w_utf8 w') with (w_utf8 w). apply follows_bind; [apply read_silent|]. intros paths _.
  destruct (snd child) as [[|c|c]|]; [apply follows_analyse | intros t E; discriminate E | intros t E; discriminate E | intros t E; discriminate E].
Qed.
Theorem same_run t : main demangle w = (t, 0%Z) -> exists target file rlib ll p, analyses w target file rlib ll p /\
  (ordered p -> exists t' g1 c1 g2 c2 f f', main demangle w' = (t', 0%Z) /\ deeds t' = deeds t /\ printed t = [text_in (a_format (w_args w)) demangle g1 c1] /\
     printed t' = [text_in (a_format (w_args w)) demangle g2 c2] /\ same_nodes g1 g2 f f' /\ same_groups c1 c2 f /\ (log_settled p -> Permutation (messages t) (messages t'))).
Proof.
  intros M. pose proof (c60 demangle w t 0%Z (sane_user _ Sw) M) as [[C _] [C2 _]]. destruct (C eq_refl) as [u [out Eu]].
  unfold main in M. destruct (run demangle w) as [tr [z| | |]] eqn:R; try discriminate M. injection M as -> ->.
  assert (P : printed t = [out]).
  { destruct C2 as [N|[a [b [c [Et [Pa Q]]]]]]; [rewrite Eu, printed_app in N; cbn in N; destruct (printed u); discriminate N|]. rewrite Et in *. destruct Q as [->|[m ->]].
    - apply app_inj_tail in Eu. destruct Eu as [-> Eu]. injection Eu as ->. rewrite printed_app, Pa. reflexivity.
    - exfalso. change (EOut b :: [EErr m]) with ([EOut b] ++ [EErr m]) in Eu. rewrite app_assoc in Eu. apply app_inj_tail in Eu. destruct Eu as [_ Eu]. discriminate Eu. }
  destruct (follows_run t R) as [N|[target [file [rlib [ll [p [A K]]]]]]]; [rewrite N in P; discriminate P|]. exists target, file, rlib, ll, p. split; [exact A|]. intros O.
  destruct (K O) as [t' [E' [D [pre [g1 [c1 [g2 [c2 [f [f' [P1 [P2 [Sn [Sg Lg]]]]]]]]]]]]]]. rewrite P in P1. destruct pre as [|x pre]; [|destruct pre; discriminate P1].
  exists t', g1, c1, g2, c2, f, f'. unfold main. rewrite E'. repeat (split; [first [reflexivity | exact D | (rewrite P; exact P1) | exact P2 | exact Sn | exact Sg]|]). exact Lg.
Qed.
End Orders.
