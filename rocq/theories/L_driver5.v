(** Lemmas on the driver: properties of runs. *)
From Coq Require Import Permutation Sorted.
From Verif Require Import M_base L_base M_stack M_graph M_names L_names M_thumb M_ty M_parse M_render M_build M_run M_log M_wrapper M_driver.
From Verif Require Import S_names S_graph S_render S_build S_run S_driver L_render L_run L_report L_driver1 L_driver2 L_path L_write L_driver3 L_driver4.

Definition code_of (o : outcome Z) : Z := match o with Ret c => c | Fail _ => 1%Z | _ => 101%Z end.
Lemma main_run demangle w : exists extra, main demangle w = (fst (run demangle w) ++ extra, code_of (snd (run demangle w))) /\ commands extra = [] /\ printed extra = [] /\ touched extra = [] /\
  (extra = [] /\ (exists z, snd (run demangle w) = Ret z) \/ stops (snd (run demangle w)) /\ exists m, extra = [EErr m] /\ forall e, snd (run demangle w) = Fail e -> m = lit "error: " ++ e).
Proof.
  unfold main. destruct (run demangle w) as [t [z|m|m|]]; cbn [fst snd code_of].
  - exists []. rewrite app_nil_r. repeat split. left. split; [reflexivity | now exists z].
  - eexists [_]. repeat split. right. split; [intros z; discriminate | eexists; split; [reflexivity|]]. intros e E. injection E as ->. reflexivity.
  - eexists [_]. repeat split. right. split; [intros z; discriminate | eexists; split; [reflexivity|]]. intros e E. discriminate E.
  - eexists [_]. repeat split. right. split; [intros z; discriminate | eexists; split; [reflexivity|]]. intros e E. discriminate E.
Qed.
Lemma stops_code o : stops o -> code_of o <> 0%Z.
Proof. intros S. destruct o; cbn; try discriminate. now destruct (S a). Qed.
Lemma artifact a file : pick_file a = Ret file <-> one_artifact a file.
Proof.
  unfold pick_file, one_artifact. destruct (a_example a) as [x|], (a_bin a) as [y|]; split; try (intros E; discriminate E); try (intros [[E F]|[E F]]; congruence);
    intros E; injection E as ->; [left | right]; now split.
Qed.
Lemma none_line_plain : plain_line (lit "target_os=" ++ dquote :: lit "none" ++ [dquote]).
Proof.
  split; [intros I; cbn in I; repeat (destruct I as [I|I]; [discriminate I|]); exact I|]. intros r E. apply (f_equal (fun l => last l " "%char)) in E. rewrite last_last in E. discriminate E.
Qed.
Lemma bare_spec cfg : no_std (buf_lines cfg) = true <-> bare cfg.
Proof.
  unfold bare. rewrite <- (has_line_spec cfg _ none_line_plain ltac:(discriminate)). generalize (buf_lines cfg) as ls. clear cfg. intros cfg.
  unfold no_std. rewrite <- (rev_involutive cfg). generalize (rev cfg) as l. clear cfg. intros l. rewrite <- in_rev.
  induction l as [|x l IH]; cbn [rev In]; [split; [discriminate | intros []]|]. rewrite fold_left_app. cbn [fold_left].
  assert (X : is_none_line x = true <-> x = lit "target_os=" ++ dquote :: lit "none" ++ [dquote]).
  { unfold is_none_line. destruct (strip_prefix (lit "target_os=") x) as [v|] eqn:E.
    - apply strip_prefix_app in E. rewrite str_eqb_eq. subst x. split; [now intros -> | intros E; now apply app_inv_head in E].
    - split; [discriminate|]. intros ->. discriminate E. }
  destruct (is_none_line x); [split; [intros _; left; now apply X | reflexivity]|]. rewrite IH. split; [now right|]. intros [E|I]; [|exact I]. apply X in E. discriminate E.
Qed.

(** A run by a user, in terms of [main]. *)
Lemma user_run demangle w t c : w_wrapper w = false -> main demangle w = (t, c) ->
  (commands t = [] /\ printed t = [] /\ (touched t = [] /\ messages t = []) /\ c <> 0%Z) \/
  exists file config, accepted w /\ one_artifact (w_args w) file /\ w_project w = Ret config /\
    ((commands t = [cfg_command (target_of w config)] /\ printed t = [] /\ (touched t = [] /\ messages t = []) /\ c <> 0%Z) \/
     exists cfg r pre exe extra, let command := cargo_args (w_args w) file (no_std (buf_lines cfg)) in
       let b := build_and_analyse demangle w (target_of w config) file exe command in
       (w_cfg w (target_of w config) = Ret cfg /\ w_utf8 w cfg = true /\ touches w r /\ w_exe w = Ret exe /\ touched t = touch_list r /\ touched pre = touch_list r /\ commands pre = [cfg_command (target_of w config)]) /\
       t = pre ++ fst b ++ extra /\ c = code_of (snd b) /\
       commands t = [cfg_command (target_of w config); (lit "cargo", command)] /\ printed t = printed (fst b) /\ (errors pre = [] /\ messages pre = []) /\
       (extra = [] /\ (exists z, snd b = Ret z) \/ stops (snd b) /\ exists m, extra = [EErr m] /\ forall e, snd b = Fail e -> m = lit "error: " ++ e)).
Proof.
  intros U M. destruct (main_run demangle w) as [extra [E [Ec [Ep [Et Ex]]]]]. rewrite E in M. injection M as <- <-.
  assert (Em : messages extra = []) by (destruct Ex as [[-> _]|[_ [m [-> _]]]]; reflexivity).
  destruct (run_shaped demangle w U) as [[H1 [H2 [[H3 Hm] H4]]]|[file [config [A [P [C H]]]]]].
  - left. rewrite commands_app, printed_app, touched_app, messages_app, H1, H2, H3, Hm, Ec, Ep, Et, Em. repeat (split; [first [reflexivity | split; reflexivity]|]). now apply stops_code.
  - right. exists file, config. split; [exact A|]. split; [now apply artifact|]. split; [exact C|]. destruct H as [[H1 [H2 [[H3 Hm] H4]]]|[cfg [r [pre [b [exe [G [Gu [Gt [Ge [H1 [H2 [H3 [Ht [H4 [H5 ->]]]]]]]]]]]]]]]].
    + left. rewrite commands_app, printed_app, touched_app, messages_app, H1, H2, H3, Hm, Ec, Ep, Et, Em. repeat (split; [first [reflexivity | split; reflexivity]|]). now apply stops_code.
    + right. exists cfg, r, pre, exe, extra. cbv zeta. set (b := build_and_analyse _ _ _ _ _ _) in *.
      assert (Tb : touched (fst b) = []) by apply build_touches.
      split; [|rewrite H1, H2, <- app_assoc; split; [reflexivity|]; split; [reflexivity|]].
      { rewrite H1, !touched_app, Ht, Tb, Et, !app_nil_r. repeat (split; [first [assumption | reflexivity]|]). exact H3. }
      destruct (build_shape demangle w (target_of w config) file exe (cargo_args (w_args w) file (no_std (buf_lines cfg)))) as [tail [K _]]. fold b in K.
      split; [now rewrite !commands_app, H3, K, Ec|]. split; [now rewrite !printed_app, H4, Ep, app_nil_r|]. split; [exact H5|]. rewrite H2 in Ex. exact Ex.
Qed.

(** C52 *)
Theorem c52_says demangle w : w_wrapper w = false -> w_meta w = Ret tt -> ~ accepted w ->
  exists text, main demangle w = ([EErr text; EErr (lit "error: unsupported rust toolchain")], 1%Z) /\
    (exists pre post, text = pre ++ lit "`cargo +nightly-2023-11-13 call-stack" ++ post) /\
    (exists pre post v, text = pre ++ nl ++ lit "    export CARGO_CALL_STACK_UNSPPORTED_NIGHTLY=" ++ [dquote] ++ v ++ [dquote] ++ nl ++ post /\
       ~ In dquote v /\ forall w', w_override w' = Some v -> accepted w').
Proof.
  intros Hw M A. exists unsupported_text. split; [|split].
  - unfold main, run. rewrite Hw, M, ibind_ret. destruct (negb (oeqb (w_hash w) (Some supported_hash)) && negb (oeqb (w_override w) (Some unsupported_value))) eqn:E; [reflexivity|].
    apply accepted_spec in E. contradiction.
  - exists (firstn 165 unsupported_text), (skipn 202 unsupported_text). vm_compute. reflexivity.
  - exists (firstn 632 unsupported_text), [], unsupported_value. split; [vm_compute; reflexivity|]. split.
    + intros I. cbn in I. repeat (destruct I as [I|I]; [discriminate I|]). exact I.
    + intros w' K. right. exact K.
Qed.
Theorem c52 demangle w t c : w_wrapper w = false -> main demangle w = (t, c) ->
  (~ accepted w -> commands t = [] /\ printed t = [] /\ c <> 0%Z) /\
  (accepted w -> w_meta w = Ret tt -> (exists file, one_artifact (w_args w) file) -> (exists config, w_project w = Ret config) -> commands t <> []).
Proof.
  intros U M. split.
  - intros N. destruct (user_run demangle w t c U M) as [[H1 [H2 [_ H3]]]|[file [config [A _]]]]; [tauto | now destruct N].
  - intros A Me [file P] [config Ec]. destruct (main_run demangle w) as [extra [E _]]. rewrite E in M. injection M as <- <-. rewrite commands_app. unfold run. rewrite U, Me, ibind_ret.
    apply accepted_spec in A. rewrite A. cbv zeta. apply artifact in P. rewrite P, ibind_ret, Ec, ibind_ret, ibind_say. cbn [fst]. cbn. discriminate.
Qed.
(** C50 *)
Theorem c50 demangle w t c command : w_wrapper w = false -> main demangle w = (t, c) -> In (lit "cargo", command) (commands t) ->
  (exists file, one_artifact (w_args w) file) /\
  exists target cfg std rest, In (lit "rustc", [lit "--print=cfg"; lit "--target"; target]) (commands t) /\ w_cfg w target = Ret cfg /\
    (bare cfg -> std = lit "core,alloc,compiler_builtins") /\ (~ bare cfg -> std = []) /\
    command = lit "rustc" :: rest /\ (plain_args (w_args w) -> read_cargo rest request0 = Some (requested (w_args w) std)) /\
    (~ plain_args (w_args w) -> read_cargo rest request0 = None).
Proof.
  intros U M I. destruct (user_run demangle w t c U M) as [[H _]|[file [config [_ [P [Ec H]]]]]]; [rewrite H in I; destruct I|]. split; [now exists file|].
  destruct H as [[H _]|[cfg [r [pre [exe [extra [[G _] [_ [_ [H _]]]]]]]]]]; [rewrite H in I; destruct I as [I|[]]; discriminate I|].
  rewrite H in I |- *. destruct I as [I|[I|[]]]; [discriminate I|]. injection I as <-. exists (target_of w config), cfg, (if no_std (buf_lines cfg) then lit "core,alloc,compiler_builtins" else []).
  exists (tl (cargo_args (w_args w) file (no_std (buf_lines cfg)))). split; [now left|]. split; [exact G|]. split; [|split].
  - intros B. apply bare_spec in B. now rewrite B.
  - intros B. destruct (no_std (buf_lines cfg)) eqn:E; [apply bare_spec in E; now destruct B | reflexivity].
  - split; [reflexivity|]. apply artifact in P. split; [|now apply cargo_refuses]. intros Pl. destruct (cargo_reads (w_args w) file (no_std (buf_lines cfg)) P Pl) as [rest [E1 E2]]. rewrite E1. exact E2.
Qed.

(** What is printed. *)
Lemma build_prints demangle w target file exe command : let b := build_and_analyse demangle w target file exe command in
  (printed (fst b) = [] /\ code_of (snd b) <> 0%Z) \/
  exists text rlib ll p echo res out e, w_cargo w command = Ret (text, Some 0%Z) /\ read_stderr (w_utf8 w) (buf_lines text) None None = (echo, Ret (Some rlib, Some ll)) /\
    load w target file rlib ll = Ret p /\ output demangle (w_orders w) (a_start (w_args w)) (a_format (w_args w)) p = Ret res /\ received (w_fault w) res out e /\
    printed (fst b) = [out] /\ snd b = (match e with Some m => Fail m | None => Ret 0%Z end) /\ exists pre, fst b = pre ++ [EOut out].
Proof.
  intros b. destruct (build_shape demangle w target file exe command) as [tail [_ [Ht H]]]. fold b in Ht, H. destruct H as [[H1 H2]|[text [code [echo [rlib [ll [after [E1 [E2 [E3 [E4 [E5 H]]]]]]]]]]]].
  - left. split; [exact H1 | now apply stops_code].
  - destruct H as [[-> A]|[N [A1 A2]]].
    + destruct A as [[ms [A1 A2]]|[r [l [p [res [out [e [-> [-> [L [O [R [A1 A2]]]]]]]]]]]]].
      * left. rewrite E5, E4, A1. split; [apply (logs_silent ms) | now apply stops_code].
      * right. exists text, r, l, p, echo, res, out, e. split; [exact E1|]. split; [exact E2|]. split; [exact L|]. split; [exact O|]. split; [exact R|]. set (lm := fst (report_log demangle (w_orders w) (a_start (w_args w)) p)) in *. split; [rewrite E5, A1, printed_app; destruct (logs_silent lm) as [_ [-> _]]; reflexivity|]. split; [congruence|].
        exists (hd (EErr []) (fst b) :: echo ++ map ELog lm). rewrite Ht at 1. rewrite E3, A1. cbn [app]. rewrite app_assoc. reflexivity.
    + left. rewrite E5, E4, A1, A2. split; [reflexivity|]. cbn. destruct code as [z|]; [intros ->; now destruct N | discriminate].
Qed.
(** The program that was analysed. *)
Lemma printed_some demangle w t c out : sane w -> main demangle w = (t, c) -> In out (printed t) ->
  exists file config cfg text rlib ll p echo res e, one_artifact (w_args w) file /\ w_project w = Ret config /\ w_cfg w (target_of w config) = Ret cfg /\
    let command := cargo_args (w_args w) file (no_std (buf_lines cfg)) in
    commands t = [cfg_command (target_of w config); (lit "cargo", command)] /\ w_cargo w command = Ret (text, Some 0%Z) /\
    read_stderr (w_utf8 w) (buf_lines text) None None = (echo, Ret (Some rlib, Some ll)) /\
    wf_prog p /\ analyses w (target_of w config) file rlib ll p /\
    output demangle (w_orders w) (a_start (w_args w)) (a_format (w_args w)) p = Ret res /\ received (w_fault w) res out e /\ printed t = [out] /\
    match e with None => c = 0%Z | Some m => c = 1%Z /\ exists before, errors t = before ++ [lit "error: " ++ m] end.
Proof.
  intros S M N. destruct (user_run demangle w t c (sane_user w S) M) as [[_ [H _]]|[file [config [_ [P [Ec H]]]]]]; [rewrite H in N; destruct N|].
  destruct H as [[_ [H _]]|[cfg [r0 [pre [exe [extra [[G _] [Ht [Hc [Hcm [Hp [_ Hx]]]]]]]]]]]]; [rewrite H in N; destruct N|].
  destruct (build_prints demangle w (target_of w config) file exe (cargo_args (w_args w) file (no_std (buf_lines cfg)))) as [[K _]|[text [rlib [ll [p [echo [res [out' [e [K1 [K2 [K3 [K4 [K5 [K6 [K7 [pre' K8]]]]]]]]]]]]]]]]]; [rewrite Hp, K in N; destruct N|].
  rewrite Hp, K6 in N. destruct N as [<-|[]]. destruct (loaded w (target_of w config) file rlib ll p S K3) as [W A].
  exists file, config, cfg, text, rlib, ll, p, echo, res, e. cbv zeta. rewrite Hp, K6. split; [exact P|]. split; [exact Ec|]. split; [exact G|]. split; [exact Hcm|]. split; [exact K1|]. split; [exact K2|]. split; [exact W|]. split; [exact A|].
  split; [exact K4|]. split; [exact K5|]. split; [reflexivity|]. rewrite Hc, K7. destruct e as [m|]; [|reflexivity]. split; [reflexivity|].
  destruct Hx as [[_ [z Hz]]|[_ [m' [-> Hm]]]]; [congruence|]. specialize (Hm m K7). exists (errors (pre ++ fst (build_and_analyse demangle w (target_of w config) file exe (cargo_args (w_args w) file (no_std (buf_lines cfg)))))).
  rewrite Ht, app_assoc, errors_app, Hm. reflexivity.
Qed.
Lemma success_prints demangle w t c : w_wrapper w = false -> main demangle w = (t, c) -> c = 0%Z -> exists out, In out (printed t).
Proof.
  intros U M C. destruct (user_run demangle w t c U M) as [[_ [_ [_ H]]]|[file [config [_ [_ [_ H]]]]]]; [now destruct H|]. destruct H as [[_ [_ [_ H]]]|[cfg [r0 [pre [exe [extra [_ [_ [Hc [_ [Hp _]]]]]]]]]]]; [now destruct H|].
  destruct (build_prints demangle w (target_of w config) file exe (cargo_args (w_args w) file (no_std (buf_lines cfg)))) as [[_ K]|[text [rlib [ll [p [echo [res [out [e [_ [_ [_ [_ [_ [K6 _]]]]]]]]]]]]]]]; [congruence|].
  exists out. rewrite Hp, K6. now left.
Qed.
Lemma printed_of demangle w t c : sane w -> main demangle w = (t, c) -> c = 0%Z ->
  exists file config cfg text rlib ll p echo out, one_artifact (w_args w) file /\ w_project w = Ret config /\ w_cfg w (target_of w config) = Ret cfg /\
    let command := cargo_args (w_args w) file (no_std (buf_lines cfg)) in
    commands t = [cfg_command (target_of w config); (lit "cargo", command)] /\ w_cargo w command = Ret (text, Some 0%Z) /\
    read_stderr (w_utf8 w) (buf_lines text) None None = (echo, Ret (Some rlib, Some ll)) /\
    wf_prog p /\ analyses w (target_of w config) file rlib ll p /\
    output demangle (w_orders w) (a_start (w_args w)) (a_format (w_args w)) p = Ret out /\ printed t = [out].
Proof.
  intros S M C. destruct (success_prints demangle w t c (sane_user w S) M C) as [out N].
  destruct (printed_some demangle w t c out S M N) as [file [config [cfg [text [rlib [ll [p [echo [res [e [H1 [H2 [H3 [H4 [H5 [H6 [H7 [H8 [H9 [H10 [H11 H12]]]]]]]]]]]]]]]]]]]]].
  destruct e as [m|]; [destruct H12 as [H12 _]; congruence|]. apply received_all in H10. destruct H10 as [-> _]. exists file, config, cfg, text, rlib, ll, p, echo, res. cbv zeta. repeat (split; [assumption|]). exact H11.
Qed.
(** C70 *)
Theorem output_complete demangle w t c out : sane w -> main demangle w = (t, c) -> In out (printed t) ->
  exists target file rlib ll p text e, one_artifact (w_args w) file /\ analyses w target file rlib ll p /\
    output demangle (w_orders w) (a_start (w_args w)) (a_format (w_args w)) p = Ret text /\ received (w_fault w) text out e /\ printed t = [out] /\
    match e with None => c = 0%Z | Some m => c = 1%Z /\ exists before, errors t = before ++ [lit "error: " ++ m] end.
Proof.
  intros S M N. destruct (printed_some demangle w t c out S M N) as [file [config [cfg [text [rlib [ll [p [echo [res [e [H1 [H2 [H3 [H4 [H5 [H6 [H7 [H8 [H9 [H10 [H11 H12]]]]]]]]]]]]]]]]]]]]].
  exists (target_of w config), file, rlib, ll, p, res, e. repeat (split; [assumption|]). exact H12.
Qed.
(** C51 *)
Theorem c51 demangle w t c config : sane w -> main demangle w = (t, c) -> w_project w = Ret config ->
  (forall a, In (lit "rustc", a) (commands t) -> exists target, a = [lit "--print=cfg"; lit "--target"; target] /\
     (target = built_for (a_target (w_args w)) config (w_host w) <-> a_target (w_args w) = None \/ config = None \/ config = a_target (w_args w))) /\
  (c = 0%Z -> exists target file rlib ll p out, analyses w target file rlib ll p /\
     (target = built_for (a_target (w_args w)) config (w_host w) <-> a_target (w_args w) = None \/ config = None \/ config = a_target (w_args w)) /\
     output demangle (w_orders w) (a_start (w_args w)) (a_format (w_args w)) p = Ret out /\ printed t = [out]).
Proof.
  intros S M Ec. assert (X : target_of w config = built_for (a_target (w_args w)) config (w_host w) <-> a_target (w_args w) = None \/ config = None \/ config = a_target (w_args w)).
  { unfold target_of, built_for. destruct (a_target (w_args w)) as [f|], config as [g|]; cbn; split; intros T; try tauto; try reflexivity; [right; right; now rewrite T|]. destruct T as [T|[T|T]]; congruence. }
  split.
  - intros a I. destruct (user_run demangle w t c (sane_user w S) M) as [[H _]|[file [config' [_ [P [Ec' H]]]]]]; [rewrite H in I; destruct I|].
    assert (config' = config) by congruence. subst config'. destruct H as [[H _]|[cfg [r0 [pre [exe [extra [G [_ [_ [H _]]]]]]]]]]; rewrite H in I; cbn [In] in I.
    + destruct I as [I|[]]. injection I as <-. exists (target_of w config). now split.
    + destruct I as [I|[I|[]]]; [injection I as <-; exists (target_of w config); now split | discriminate I].
  - intros N. destruct (printed_of demangle w t c S M N) as [file [config' [cfg [text [rlib [ll [p [echo [out [_ [Ec' [_ [_ [_ [_ [_ [A [O P]]]]]]]]]]]]]]]]]].
    assert (config' = config) by congruence. subst config'. now exists (target_of w config), file, rlib, ll, p, out.
Qed.
(** C60 *)
Theorem c60 demangle w t c : w_wrapper w = false -> main demangle w = (t, c) ->
  (c = 0%Z <-> exists pre out, t = pre ++ [EOut out]) /\
  (printed t = [] \/ exists pre out post, t = pre ++ EOut out :: post /\ printed pre = [] /\ (post = [] \/ exists m, post = [EErr m])) /\
  (forall command text code, In (lit "cargo", command) (commands t) -> w_cargo w command = Ret (text, code) -> code <> Some 0%Z -> printed t = []).
Proof.
  intros U M. assert (Q : printed t = [] -> c <> 0%Z -> c = 0%Z <-> exists pre out, t = pre ++ [EOut out]).
  { intros P N. split; [now intros|]. intros [pre [out ->]]. rewrite printed_app in P. apply app_eq_nil in P. destruct P as [_ P]. discriminate P. }
  destruct (user_run demangle w t c U M) as [[H1 [H2 [_ H3]]]|[file [config [_ [P [Ec H]]]]]].
  { split; [now apply Q|]. rewrite H1, H2. split; [now left|]. now intros. }
  destruct H as [[H1 [H2 [_ H3]]]|[cfg [r0 [pre [exe [extra [G [Ht [Hc [H1 [Hp [_ Hx]]]]]]]]]]]].
  { split; [now apply Q|]. rewrite H1, H2. split; [now left|]. now intros. }
  set (command := cargo_args (w_args w) file (no_std (buf_lines cfg))) in *. set (b := build_and_analyse _ _ _ _ _ _) in *.
  destruct (build_prints demangle w (target_of w config) file exe command) as [[K1 K2]|[text [rlib [ll [p [echo [res [out [e [K1 [K2 [K3 [K4 [K5 [K6 [K7 [pre' K8]]]]]]]]]]]]]]]]]; fold b in K1, K2 || fold b in K6, K7, K8.
  - split; [apply Q; [now rewrite Hp, K1 | now rewrite Hc]|]. rewrite Hp, K1. split; [now left | reflexivity].
  - assert (T : t = (pre ++ pre') ++ EOut out :: extra) by (rewrite Ht, K8, <- !app_assoc; reflexivity).
    assert (Pp : printed (pre ++ pre') = []).
    { rewrite K6 in Hp. rewrite T, printed_app in Hp. change (printed (EOut out :: extra)) with (out :: printed extra) in Hp. destruct (printed (pre ++ pre')) as [|x [|y l]]; [reflexivity | discriminate Hp | discriminate Hp]. }
    split; [|split].
    + rewrite Hc, K7. destruct e as [m|]; cbn [code_of].
      * split; [discriminate|]. intros [pr [o E]]. exfalso. destruct Hx as [[_ [z Hz]]|[_ [m' [-> _]]]]; [congruence|]. rewrite T in E. change (EOut out :: [EErr m']) with ([EOut out] ++ [EErr m']) in E. rewrite app_assoc in E. apply app_inj_tail in E. destruct E as [_ E]. discriminate E.
      * split; [|reflexivity]. intros _. destruct Hx as [[-> _]|[Hx _]]; [now exists (pre ++ pre'), out|]. now destruct (Hx 0%Z).
    + right. exists (pre ++ pre'), out, extra. split; [exact T|]. split; [exact Pp|]. destruct Hx as [[-> _]|[_ [m [-> _]]]]; [now left | right; now exists m].
    + intros command' text' code' I E. rewrite H1 in I. destruct I as [I|[I|[]]]; [discriminate I|]. injection I as <-. rewrite K1 in E. injection E as <- <-. intros N. now destruct N.
Qed.
Lemma errors_echo l : errors (map EErr l) = l.
Proof. induction l as [|x l IH]; cbn; [reflexivity|]. unfold errors in IH. now rewrite IH. Qed.
(** C48, on the whole run. *)
Lemma c48_core demangle w t c command text code es rlib ll : sane w -> main demangle w = (t, c) -> In (lit "cargo", command) (commands t) ->
  w_cargo w command = Ret (text, code) -> read_stderr (w_utf8 w) (buf_lines text) None None = (map EErr es, Ret (rlib, ll)) ->
  (code <> Some 0%Z -> errors t = es /\ c = match code with Some c => c | None => 1%Z end) /\
  (code = Some 0%Z -> errors t = es \/ (c <> 0%Z /\ exists m, errors t = es ++ [m])) /\
  (c = 0%Z -> exists target file r l p out, rlib = Some r /\ ll = Some l /\ analyses w target file r l p /\
     output demangle (w_orders w) (a_start (w_args w)) (a_format (w_args w)) p = Ret out /\ printed t = [out]).
Proof.
  intros S M I E R.
  assert (X : (code <> Some 0%Z -> errors t = es /\ c = match code with Some c => c | None => 1%Z end) /\
    (code = Some 0%Z -> errors t = es \/ (c <> 0%Z /\ exists m, errors t = es ++ [m]))).
  { destruct (user_run demangle w t c (sane_user w S) M) as [[H _]|[file [config [_ [P [Ec H]]]]]]; [rewrite H in I; destruct I|].
    destruct H as [[H _]|[cfg [r0 [pre [exe [extra [G [Ht [Hc [H1 [Hp [He Hx]]]]]]]]]]]]; [rewrite H in I; destruct I as [I|[]]; discriminate I|].
    rewrite H1 in I. destruct I as [I|[I|[]]]; [discriminate I|]. injection I as <-. set (command := cargo_args (w_args w) file (no_std (buf_lines cfg))) in *.
    remember (build_and_analyse demangle w (target_of w config) file exe command) as b eqn:Eb. unfold build_and_analyse in Eb. rewrite ibind_say, E, ibind_ret in Eb. cbn [fst snd] in Eb. rewrite R, ibind_go in Eb. cbn [fst snd] in Eb.
    set (after := match code with Some 0%Z => analyse demangle w (target_of w config) file (rlib, ll) | Some code => iret code | None => iret 1%Z end) in Eb.
    assert (Y : errors t = es ++ errors (fst after) ++ errors extra).
    { rewrite Ht, Eb. cbn [fst]. rewrite !errors_app, (proj1 He). cbn [app]. change (errors (?e :: ?x ++ ?y)) with (errors (x ++ y)). rewrite errors_app, errors_echo. now rewrite app_assoc. }
    assert (Z : snd b = snd after) by (rewrite Eb; reflexivity). split.
    - intros Nc. assert (A : after = iret (match code with Some c => c | None => 1%Z end)) by (subst after; destruct code as [[|z|z]|]; try reflexivity; now destruct Nc).
      rewrite A in Y, Z. destruct Hx as [[-> _]|[Hx _]]; [|destruct (Hx _ Z)]. rewrite Y. cbn. rewrite app_nil_r. split; [reflexivity|]. now rewrite Hc, Z.
    - intros ->. assert (A : errors (fst after) = []). { subst after. destruct (analyse_shape demangle w (target_of w config) file rlib ll) as [[ms [-> _]]|[? [? [p0 [? [? [? [_ [_ [_ [_ [_ [-> _]]]]]]]]]]]]]; [apply (logs_silent ms)|]. rewrite errors_app. destruct (logs_silent (fst (report_log demangle (w_orders w) (a_start (w_args w)) p0))) as [_ [_ [_ ->]]]. reflexivity. }
      rewrite A in Y. cbn [app] in Y. destruct Hx as [[-> _]|[Hx [m [-> _]]]]; [left; rewrite Y; cbn; apply app_nil_r|]. right. split; [rewrite Hc; now apply stops_code | now exists m]. }
  split; [exact (proj1 X)|]. split; [exact (proj2 X)|]. intros N.
  destruct (printed_of demangle w t c S M N) as [file [config [cfg [text' [rlib' [ll' [p [echo [out [_ [_ [_ [Hc [K1 [K2 [_ [A [O P]]]]]]]]]]]]]]]]]].
  rewrite Hc in I. destruct I as [I|[I|[]]]; [discriminate I|]. injection I as <-. rewrite E in K1. injection K1 as <- ->. rewrite R in K2. injection K2 as _ -> ->.
  now exists (target_of w config), file, rlib', ll', p, out.
Qed.

Theorem c48_run demangle w t c command ns code : sane w -> main demangle w = (t, c) -> In (lit "cargo", command) (commands t) ->
  w_cargo w command = Ret (concat (map (fun n => note_line n ++ ["010"%char]) ns), code) -> Forall note_ok ns -> (forall n, In n ns -> w_utf8 w (note_line n) = true) ->
  (code <> Some 0%Z -> errors t = select text_of ns /\ c = match code with Some c => c | None => 1%Z end) /\
  (code = Some 0%Z -> errors t = select text_of ns \/ (c <> 0%Z /\ exists m, errors t = select text_of ns ++ [m])) /\
  (c = 0%Z -> exists target file rlib ll p out, latest rlib_of ns (Some rlib) /\ latest ll_of ns (Some ll) /\ analyses w target file rlib ll p /\
     output demangle (w_orders w) (a_start (w_args w)) (a_format (w_args w)) p = Ret out /\ printed t = [out]).
Proof.
  intros S M I E F U. destruct (c48_stderr (w_utf8 w) ns F U) as [rlib [ll [R [Lr Ll]]]]. destruct (c48_core demangle w t c command _ code _ rlib ll S M I E R) as [H1 [H2 H3]].
  split; [exact H1|]. split; [exact H2|]. intros Z. destruct (H3 Z) as [target [file [r [l [p [out [-> [-> H]]]]]]]]. now exists target, file, r, l, p, out.
Qed.
Theorem c48_any demangle w t c command text code ls ns : sane w -> main demangle w = (t, c) -> In (lit "cargo", command) (commands t) ->
  w_cargo w command = Ret (text, code) -> lines_of text ls -> Forall2 says_note ls ns ->
  (Forall (fun l => w_utf8 w l = true) ls ->
   (code <> Some 0%Z -> errors t = select text_of ns /\ c = match code with Some c => c | None => 1%Z end) /\
   (code = Some 0%Z -> errors t = select text_of ns \/ (c <> 0%Z /\ exists m, errors t = select text_of ns ++ [m])) /\
   (c = 0%Z -> exists target file rlib ll p out, latest rlib_of ns (Some rlib) /\ latest ll_of ns (Some ll) /\ analyses w target file rlib ll p /\
      output demangle (w_orders w) (a_start (w_args w)) (a_format (w_args w)) p = Ret out /\ printed t = [out])) /\
  (forall a l b, ls = a ++ l :: b -> Forall (fun l => w_utf8 w l = true) a -> w_utf8 w l = false ->
   c = 1%Z /\ printed t = [] /\ exists m, errors t = select text_of (firstn (length a) ns) ++ [m]).
Proof.
  intros S M I E L N. split.
  - intros U. pose proof (proj1 (read_any (w_utf8 w) ls ns N None None) U) as R. rewrite <- (lines_of_buf _ _ L) in R.
    destruct (c48_core demangle w t c command text code _ _ _ S M I E R) as [H1 [H2 H3]].
    split; [exact H1|]. split; [exact H2|]. intros Z. destruct (H3 Z) as [target [file [r [l [p [out [Er [El H]]]]]]]]. exists target, file, r, l, p, out.
    split; [rewrite <- Er; apply last_of_latest|]. split; [rewrite <- El; apply last_of_latest | exact H].
  - intros a x b El U V. pose proof (proj2 (read_any (w_utf8 w) ls ns N None None) a x b El U V) as R. rewrite <- (lines_of_buf _ _ L) in R. clear El.
    destruct (user_run demangle w t c (sane_user w S) M) as [[H _]|[file [config [_ [P [Ec H]]]]]]; [rewrite H in I; destruct I|].
    destruct H as [[H _]|[cfg [r0 [pre [exe [extra [G [Ht [Hc [H1 [Hp [He Hx]]]]]]]]]]]]; [rewrite H in I; destruct I as [I|[]]; discriminate I|].
    rewrite H1 in I. destruct I as [I|[I|[]]]; [discriminate I|]. injection I as <-. set (command := cargo_args (w_args w) file (no_std (buf_lines cfg))) in *.
    remember (build_and_analyse demangle w (target_of w config) file exe command) as d eqn:Eb. unfold build_and_analyse in Eb. rewrite ibind_say, E, ibind_ret in Eb. cbn [fst snd] in Eb. rewrite R in Eb.
    assert (Sd : snd d = Fail (lit "stream did not contain valid UTF-8")) by (rewrite Eb; reflexivity).
    assert (Fd : fst d = ECmd (lit "cargo") [(lit "CARGO_CALL_STACK_RUSTC_WRAPPER", lit "1"); (lit "RUSTC_WRAPPER", exe)] command :: map EErr (select text_of (firstn (length a) ns))) by (rewrite Eb; reflexivity).
    clear Eb. split; [rewrite Hc, Sd; reflexivity|]. split.
    + rewrite Hp, Fd. clear. generalize (select text_of (firstn (length a) ns)). intros l. unfold printed. cbn [select]. induction l as [|y l IH]; [reflexivity | exact IH].
    + destruct Hx as [[_ [z Hz]]|[_ [m [-> _]]]]; [congruence|]. exists m. rewrite Ht, !errors_app, (proj1 He), Fd. cbn [app]. change (errors (ECmd ?x ?y ?z :: ?l)) with (errors l). rewrite errors_echo. reflexivity.
Qed.

(** C61 *)
Theorem c61 demangle w t c : sane w -> main demangle w = (t, c) -> c = 0%Z -> a_format (w_args w) = Dot ->
  exists target file rlib ll p out, analyses w target file rlib ll p /\ one_artifact (w_args w) file /\ printed t = [out] /\
  ((forall g cycles nd, report demangle (w_orders w) (a_start (w_args w)) p = Ret (g, cycles) -> In nd (gnodes g) -> no_backslash (demangle (nname nd))) ->
   exists st ks nds es, read_dot out = Some st /\ length ks = length nds /\
     file_nodes st = map (fun x => (Some (N.of_nat (fst x)), Some (demangle (nname (snd x)), nmax (snd x), nlocal (snd x)), ndashed (snd x))) (combine (seq 0 (length nds)) nds) /\
     file_edges st = map (fun e => (Some (N.of_nat (fst e)), Some (N.of_nat (snd e)))) es /\
     (forall k key nd, nth_error ks k = Some key -> nth_error nds k = Some nd -> shows demangle p key nd) /\
     (forall k i n nd, nth_error ks k = Some (KReal i) -> nth_error nds k = Some nd -> nmax nd = Some (MExact n) -> below_2_64 (mkG nds es) k ->
        forall l, runs p i l -> (forall x, In x l -> covered_fn p x) -> exists d, depth p l d /\ (d <= n)%N) /\
     (no_start demangle p (a_start (w_args w)) -> forall i, i < length (pg_defined p) -> nth_error ks i = Some (KReal i)) /\
     (forall s k, a_start (w_args w) = Some s -> denotes demangle p s k -> nth_error ks 0 = Some k) /\
     (fits p -> forall k, below_2_64 (mkG nds es) k)).
Proof.
  intros S M N D. destruct (printed_of demangle w t c S M N) as [file [config [cfg [text [rlib [ll [p [echo [out [Ar [_ [_ [_ [_ [_ [Wf [A [O P]]]]]]]]]]]]]]]]]].
  exists (target_of w config), file, rlib, ll, p, out. split; [exact A|]. split; [exact Ar|]. split; [exact P|]. intros Nb.
  unfold output in O. apply bind_Ret in O. destruct O as [[g cycles] [O1 O2]]. rewrite D in O2. injection O2 as <-. pose proof (fun nd => Nb g cycles nd O1) as Q. unfold report in O1. apply bind_Ret in O1. destruct O1 as [b [B O1]].
  destruct (covered_bounds demangle (w_orders w) p b Wf (sane_orders w S) B (a_start (w_args w)) g cycles O1) as [ks [K1 [K2 [K3 [K4 K5]]]]].
  pose proof (fun Ft => report_fits demangle (w_orders w) p b Wf (sane_orders w S) B (a_start (w_args w)) g cycles Ft O1) as K6. destruct (dot_read_back demangle g cycles Q) as [st [R1 [R2 [R3 _]]]].
  exists st, ks, (gnodes g), (gedges g). destruct g as [nds es]. split; [exact R1|]. split; [exact K1|]. split; [exact R2|]. split; [exact R3|]. split; [exact K5|]. split; [exact K2|]. split; [exact K3|]. split; [exact K4 | exact K6].
Qed.
(** The kind of target. *)
Lemma target_decides w target file rlib ll p : analyses w target file rlib ll p ->
  (is_thumb (pg_target p) = true <-> In target (map lit ["thumbv6m-none-eabi"; "thumbv7m-none-eabi"; "thumbv7em-none-eabi"; "thumbv7em-none-eabihf"]%string)) /\
  (is_v7 (pg_target p) = true <-> In target (map lit ["thumbv7m-none-eabi"; "thumbv7em-none-eabi"; "thumbv7em-none-eabihf"]%string)).
Proof.
  intros H. assert (K : target_kind target (pg_target p)) by (destruct H; assumption). generalize dependent (pg_target p). intros tg K. destruct K as [|t A|t A].
  - split; split; intros X; [left; reflexivity | reflexivity | discriminate X|].
    exfalso. cbn [map In] in X. destruct X as [X|[X|[X|[]]]]; discriminate X.
  - split; split; intros X; [right; exact A | reflexivity | exact A | reflexivity].
  - split; split; intros X; [discriminate X | elim (A X) | discriminate X | elim A; right; exact X].
Qed.
