(** The log of a run. *)
From Coq Require Import Permutation Sorted.
From Verif Require Import M_base M_stack M_graph M_analysis M_filter M_names M_thumb M_ty M_parse M_build M_run M_log M_wrapper M_driver S_names S_graph S_sig S_build S_run S_log S_driver.
From Verif Require Import L_base L_names L_maxprops L_build1 L_build2 L_build3 L_build4 L_build5 L_build6 L_build7 L_run L_log L_log2 L_literal L_log3 L_log4 L_log5 L_log6 L_log7 L_report L_driver1 L_driver2 L_driver3 L_driver4 L_driver5.

Section Report.
Variables (demangle : str -> str) (o : orders) (start : option str) (p : prog) (ms : list message) (g : graph node) (cs : list (list nat)).
Hypothesis (W : wf_prog p) (Fo : fair o) (E : report_log demangle o start p = (ms, Ret (g, cs))).
Lemma built_of : exists b, build demangle o p = Ret b /\ finish demangle start b = Ret (g, cs).
Proof. pose proof (report_erase demangle o start p) as R. rewrite E in R. cbn [snd] in R. symmetry in R. unfold report in R. exact (bind_inv _ _ _ R). Qed.
Lemma usage_all i : i < length (pg_defined p) -> exists l, usage p i l.
Proof.
  intros L. destruct built_of as [b [Eb _]]. destruct (build_spec _ _ _ _ W Fo Eb) as [ks [void [G _]]]. pose proof (go_real _ _ _ _ G i L) as K.
  destruct (nth_error (gnodes (b_g b)) i) as [nd|] eqn:N.
  - destruct (key_at _ _ _ _ G _ _ N) as [k [K1 K2]]. rewrite K in K1. injection K1 as <-. inversion K2; subst. eexists. eassumption.
  - apply nth_error_None in N. pose proof (Forall2_len _ _ _ (go_show _ _ _ _ G)) as Q. assert (nth_error ks i <> None) as X by congruence. apply nth_error_Some in X. lia.
Qed.
Lemma measured_dec : measured p \/ ~ measured p.
Proof. destruct built_of as [b [Eb _]]. destruct (build_spec _ _ _ _ W Fo Eb) as [ks [void [_ [_ [_ [_ H]]]]]]. destruct (b_info b); [left; apply H; reflexivity | right; intros K; apply H in K; discriminate K]. Qed.
Theorem told : exists void, voids p void /\ (forall m, In m ms <-> announces demangle p start void m) /\ (ms = [] <-> unremarkable demangle p start void).
Proof.
  pose proof (report_log_notes _ _ _ _ _ _ W Fo E) as N. destruct (notes_exact demangle p W start ms N) as [void [V Ex]]. exists void. split; [exact V|]. split; [exact Ex|].
  exact (silence demangle p W start ms void N Ex usage_all measured_dec).
Qed.
Theorem told_usage n : (In (no_usage n) ms <-> exists i, chosen p i n /\ usage p i LUnknown /\ (is_thumb (pg_target p) = true -> pg_text p <> None)) /\ (In (no_usage n) ms -> once (no_usage n) ms).
Proof.
  split; [|apply (once_usage demangle p W start), (report_log_notes _ _ _ _ _ _ W Fo E)]. destruct told as [void [_ [Ex _]]]. rewrite Ex. apply kind_usage.
Qed.
Theorem told_lowered f : (In (lowering_note f) ms <-> is_thumb (pg_target p) = false /\ assumed f /\ exists i, body p i (DirectCall f)) /\ (In (lowering_note f) ms -> once (lowering_note f) ms).
Proof.
  split; [|apply (once_lowered demangle p W start), (report_log_notes _ _ _ _ _ _ W Fo E)]. destruct told as [void [_ [Ex _]]]. rewrite Ex. apply kind_lowered.
Qed.
Theorem told_asm i n : chosen p i n -> (has_asm p i <-> exists code, first_asm p i code /\ In (asm_note code n) ms).
Proof.
  intros C. destruct told as [void [_ [Ex _]]]. split.
  - intros A. destruct (notes_trace demangle p start ms (report_log_notes _ _ _ _ _ _ W Fo E)) as [tr T]. destruct (asm_first p W i tr T A) as [code F]. exists code. split; [exact F|]. apply Ex. exact (an_asm _ _ _ _ i code n C F).
  - intros [code [[tr [pre [post [T [E1 _]]]]] _]]. exists code. apply (trace_body p W _ T). rewrite E1. apply in_or_app. right. now left.
Qed.
Theorem told_override i n m k why : chosen p i n -> overridden p i m k why -> In (override_note n m k why) ms.
Proof. intros C O. destruct told as [void [_ [Ex _]]]. apply Ex. exact (an_override _ _ _ _ i n m k why C O). Qed.
Theorem told_replaced : (forall i n m k why, chosen p i n -> overridden p i m k why -> In (override_note n m k why) ms) /\
  (forall i k m, usage p i (LExact k) -> llvm_size p i (Some m) -> k <> m -> exists n why, chosen p i n /\ In (override_note n m k why) ms).
Proof.
  split; [exact told_override|]. intros i k m U L N. assert (C : exists n, chosen p i n) by (destruct L as [n [C _]]; now exists n). destruct C as [n C].
  assert (O : exists why, overridden p i m k why); [|destruct O as [why O]; exists n, why; split; [exact C | exact (told_override i n m k why C O)]].
  inversion U; subst; match goal with L' : llvm_size p i _ |- _ => pose proof (llvm_size_fun p i _ _ W L L') as Q; try discriminate Q; try (injection Q as Q; subst) end; try contradiction.
  - eexists. eapply ov_asm; eassumption.
  - eexists. eapply ov_outlined; try eassumption. reflexivity.
Qed.
Theorem told_types n : (In (no_type n) ms <-> exists i, chosen p i n /\ untyped_fn p i) /\ (In untyped_note ms <-> untyped p) /\ (In (blind_note n) ms <-> exists i, chosen p i n /\ blind p i) /\
  (forall m, m = no_type n \/ m = untyped_note \/ m = blind_note n -> In m ms -> once m ms).
Proof.
  destruct told as [void [_ [Ex _]]]. split; [rewrite Ex; apply kind_type|]. split; [rewrite Ex; apply kind_untyped|]. split; [rewrite Ex; apply kind_blind|]. pose proof (report_log_notes _ _ _ _ _ _ W Fo E) as N.
  intros m [-> | [-> | ->]]; [apply (once_type demangle p W start ms n N) | apply (once_untyped demangle p W start ms N) | apply (once_blind demangle p W start ms n N)].
Qed.
Theorem told_start : (In start_missing ms <-> ~ quiet_start demangle p start) /\
  (forall l s text, In (l, lit "multiple matches for " ++ text) ms -> start = Some s -> exists names hits, l = Error /\ text = tick s ++ lit ": " ++ names /\
     (forall hits', literals hits' names <-> hits' = hits) /\ ~ shown_name p s /\ 2 <= length hits /\ NoDup hits /\ Sorted str_le hits /\
     forall n, In n hits <-> shown_name p n /\ hashed_start demangle s n) /\
  (forall s n n', start = Some s -> ~ shown_name p s -> shown_name p n -> hashed_start demangle s n -> shown_name p n' -> hashed_start demangle s n' -> n <> n' ->
     exists names, In (Error, lit "multiple matches for " ++ tick s ++ lit ": " ++ names) ms).
Proof.
  pose proof (report_log_notes _ _ _ _ _ _ W Fo E) as [bs [sl [fg [Es [B [Sl Fg]]]]]]. destruct told as [void [_ [Ex _]]]. split; [|split].
  - rewrite Ex, kind_missing. split.
    + intros [b [S I]] Q. destruct (start_kinds demangle p start b _ S I) as [s [-> [Sn K]]]. destruct (Q s eq_refl) as [Y|[n Y]]; [contradiction|]. destruct (proj2 (Y n) eq_refl) as [Y1 Y2].
      assert (Z : forall hits : list str, 2 <= length hits -> NoDup hits -> (forall n, In n hits <-> shown_name p n /\ hashed_start demangle s n) -> False).
      { intros hits L N Q'. destruct hits as [|x1 [|x2 l]]; cbn in L; try lia. assert (X1 : x1 = n) by (apply Y, Q'; now left). assert (X2 : x2 = n) by (apply Y, Q'; right; now left). inversion N as [|? ? K' _]; subst. apply K'. now left. }
      destruct K as [[_ [K|[hits [K1 [K2 K3]]]]]|[hits [tx [_ [_ [K1 [K2 [_ K3]]]]]]]]; [exact (K n Y1 Y2) | exact (Z hits K1 K2 K3) | exact (Z hits K1 K2 K3)].
    + intros Q. exists sl. split; [exact Sl|]. destruct Sl as [|s S|s n S U|s S M|s hits text Lt S L N O H]; try (exfalso; apply Q; intros s' K; (discriminate K || (injection K as <-; tauto))).
      * exfalso. apply Q. intros s' K. injection K as <-. right. now exists n.
      * now left.
      * right. now left.
  - intros l s text I Es'. apply Ex in I. remember (l, lit "multiple matches for " ++ text) as m eqn:Em. destruct I; try discriminate Em. subst m. destruct (start_kinds demangle p start b _ H H0) as [s' [Es2 [Sn [[K _]|[hits [names [K1 [K2 K3]]]]]]]]; [discriminate K|].
    rewrite Es' in Es2. injection Es2 as <-. injection K1 as -> K1. exists names, hits. split; [reflexivity|]. split; [rewrite K1; unfold tick; rewrite <- ?app_assoc; reflexivity|].
    split; [intros hits'; split; [intros L; exact (literals_unique _ _ _ L K2) | intros ->; exact K2]|]. split; [exact Sn | exact K3].
  - intros s n n' Es' Sn S1 H1 S2 H2 D. destruct Sl as [|s0 S|s0 m S U|s0 S M|s0 hits text Lt S L N O H]; try discriminate Es'; injection Es' as ->.
    + contradiction.
    + exfalso. apply D. rewrite (proj1 (U n) (conj S1 H1)), (proj1 (U n') (conj S2 H2)). reflexivity.
    + exfalso. exact (M n S1 H1).
    + exists text. rewrite Es. apply in_or_app. right. apply in_or_app. left. left. reflexivity.
Qed.
(** A silent run in which every function called by name is known: the maximum of a function is exact unless a recursive function which uses
    stack can be reached. *)
Theorem silent_exact : ms = [] -> (forall i f, body p i (DirectCall f) -> ~ intrinsic f -> exists j, live p f j) ->
  forall v m, reported g v m -> (exact m <-> forall u, reach g v u -> recursive g u -> known g u 0).
Proof.
  intros Em D v m R. destruct told as [void [_ [_ Un]]]. apply Un in Em. destruct built_of as [b [Eb Ef]].
  destruct (report_figures demangle o p b W Fo Eb start g cs Ef) as [F _]. destruct g as [nds es] eqn:Eg. cbn [gnodes gedges] in F. destruct (F v m R) as [X _]. rewrite X.
  assert (K : forall u, reach (mkG nds es) v u -> exists n, known (mkG nds es) u n); [|split; [intros [_ H]; exact H | intros H; split; [exact K | exact H]]].
  intros u Ru. destruct (report_graph demangle o p b W Fo Eb start _ cs Ef) as [ks [vd P]]. cbn [gnodes gedges] in P.
  assert (Lu : u < length ks).
  { destruct R as [nd [R _]]. assert (Lv : v < length ks) by (rewrite (proj2 (pi_keys _ _ _ _ _ _ _ P)); apply nth_error_Some; cbn [gnodes] in R; congruence).
    clear - Ru P Lv. induction Ru as [|a c d X S IH]; [exact Lv|]. apply IH. exact (proj2 (pi_wf _ _ _ _ _ _ _ P _ _ X)). }
  destruct (nth_error ks u) as [k|] eqn:Ek; [|apply nth_error_None in Ek; lia]. rewrite (proj2 (pi_keys _ _ _ _ _ _ _ P)) in Lu. destruct (nth_error nds u) as [nd|] eqn:En; [|apply nth_error_None in En; lia].
  destruct (pi_show _ _ _ _ _ _ _ P _ _ _ Ek En) as [vv [nd0 [No [Lo _]]]]. unfold known, local_of. cbn [gnodes]. rewrite En. cbn [option_map]. rewrite Lo.
  pose proof (pi_nodes _ _ _ _ _ _ _ P k (nth_error_In _ _ Ek)) as Nk. destruct No as [i n l C U|n|i|s l L|s]; cbn [nlocal].
  - destruct (un_usage _ _ _ _ Em i (chosen_lt p i n C)) as [q Q]. rewrite (usage_fun p i _ _ W U Q). now exists q.
  - inversion Nk as [|? Cr| | |]; subst. exfalso. exact (none_created demangle p W start void Em (notes_trace demangle p start ms (report_log_notes _ _ _ _ _ _ W Fo E)) D n Cr).
  - inversion Nk as [| |? Bl| |]; subst. exfalso. exact (un_blind _ _ _ _ Em i Bl).
  - now exists 0%N.
  - inversion Nk as [| | | |? _ Ut]; subst. exfalso. exact (un_typed _ _ _ _ Em Ut).
Qed.
End Report.

(** ** The run *)
Lemma read_messages utf8 lines : forall r l, messages (fst (read_stderr utf8 lines r l)) = [].
Proof.
  induction lines as [|x lines IH]; intros r l; cbn [read_stderr]; [reflexivity|]. destruct (negb (utf8 x)); [reflexivity|].
  destruct (starts_with rlib_marker x); [apply IH|]. destruct (starts_with ll_marker x); [apply IH|]. rewrite ibind_say. cbn [fst]. exact (IH r l).
Qed.
Lemma logs_messages ms : messages (map ELog ms) = ms.
Proof. induction ms as [|m ms IH]; [reflexivity|]. cbn [map]. change (messages (ELog m :: map ELog ms)) with (m :: messages (map ELog ms)). now rewrite IH. Qed.
Lemma build_logs demangle w target file exe command out : let b := build_and_analyse demangle w target file exe command in In out (printed (fst b)) ->
  exists text rlib ll p echo res, w_cargo w command = Ret (text, Some 0%Z) /\ read_stderr (w_utf8 w) (buf_lines text) None None = (echo, Ret (Some rlib, Some ll)) /\
    load w target file rlib ll = Ret p /\ output demangle (w_orders w) (a_start (w_args w)) (a_format (w_args w)) p = Ret res /\
    exists pre, fst b = pre ++ [EOut out] /\ messages pre = fst (report_log demangle (w_orders w) (a_start (w_args w)) p).
Proof.
  intros b N. destruct (build_shape demangle w target file exe command) as [tail [_ [Ht H]]]. fold b in Ht, H. destruct H as [[H1 H2]|[text [code [echo [rlib [ll [after [E1 [E2 [E3 [E4 [E5 H]]]]]]]]]]]].
  - rewrite H1 in N. destruct N.
  - destruct H as [[-> A]|[Nc [A1 A2]]].
    + destruct A as [[ms [A1 A2]]|[r [l [p [res [out' [e [-> [-> [L [O [R [A1 A2]]]]]]]]]]]]].
      * rewrite E5, A1, (proj1 (proj2 (logs_silent ms))) in N. destruct N.
      * exists text, r, l, p, echo, res. split; [exact E1|]. split; [exact E2|]. split; [exact L|]. split; [exact O|]. set (lm := fst (report_log demangle (w_orders w) (a_start (w_args w)) p)) in *.
        rewrite E5, A1, printed_app, (proj1 (proj2 (logs_silent lm))) in N. destruct N as [<-|[]].
        exists (hd (EErr []) (fst b) :: echo ++ map ELog lm). split; [rewrite Ht at 1; rewrite E3, A1; cbn [app]; rewrite app_assoc; reflexivity|].
        assert (M : messages [hd (EErr []) (fst b)] = []) by (subst b; unfold build_and_analyse; rewrite ibind_say; reflexivity).
        change (messages ([hd (EErr []) (fst b)] ++ echo ++ map ELog lm) = lm). rewrite !messages_app, M, logs_messages. pose proof (read_messages (w_utf8 w) (buf_lines text) None None) as Q. rewrite E2 in Q. cbn [fst] in Q. rewrite Q. reflexivity.
    + rewrite E5, A1 in N. destruct N.
Qed.
Theorem run_log demangle w t c out : sane w -> main demangle w = (t, c) -> In out (printed t) ->
  exists target file rlib ll p r pre post, one_artifact (w_args w) file /\ analyses w target file rlib ll p /\ wf_prog p /\
    t = pre ++ EOut out :: post /\ messages post = [] /\ report_log demangle (w_orders w) (a_start (w_args w)) p = (messages pre, Ret r) /\ messages t = messages pre /\ notes demangle p (a_start (w_args w)) (messages t).
Proof.
  intros S M N. destruct (user_run demangle w t c (sane_user w S) M) as [[_ [H _]]|[file [config [_ [P [Ec H]]]]]]; [rewrite H in N; destruct N|].
  destruct H as [[_ [H _]]|[cfg [r0 [pre [exe [extra [[G _] [Ht [Hc [Hcm [Hp [[_ Hm] Hx]]]]]]]]]]]]; [rewrite H in N; destruct N|].
  rewrite Hp in N. destruct (build_logs demangle w (target_of w config) file exe _ out N) as [text [rlib [ll [p [echo [res [K1 [K2 [K3 [K4 [pre' [K5 K6]]]]]]]]]]]].
  destruct (loaded w (target_of w config) file rlib ll p S K3) as [Wp A]. exists (target_of w config), file, rlib, ll, p. unfold output in K4. destruct (bind_inv _ _ _ K4) as [[g cs] [R _]]. exists (g, cs), (pre ++ pre'), extra.
  assert (Mx : messages extra = []) by (destruct Hx as [[-> _]|[_ [m [-> _]]]]; reflexivity).
  assert (Rl : report_log demangle (w_orders w) (a_start (w_args w)) p = (messages (pre ++ pre'), Ret (g, cs))).
  { rewrite messages_app, Hm, K6. cbn [app]. rewrite (surjective_pairing (report_log demangle (w_orders w) (a_start (w_args w)) p)) at 1. rewrite report_erase, R. reflexivity. }
  assert (Mt : messages t = messages (pre ++ pre')) by (rewrite Ht, K5, !messages_app, Hm, Mx; cbn; rewrite !app_nil_r; reflexivity).
  split; [exact P|]. split; [exact A|]. split; [exact Wp|]. split; [rewrite Ht, K5, <- !app_assoc; reflexivity|]. split; [exact Mx|]. split; [exact Rl|]. split; [exact Mt|].
  rewrite Mt. exact (report_log_notes _ _ _ _ _ _ Wp (sane_orders w S) Rl).
Qed.
