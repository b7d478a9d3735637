(** Lemmas on the driver: the touched file, the environment of cargo, and files that cannot be read. *)
From Coq Require Import Permutation Sorted.
From Verif Require Import M_base L_base M_names L_names M_thumb M_ty M_parse M_graph M_render M_write M_build M_run M_wrapper M_driver S_names S_build S_run S_driver.
From Verif Require Import L_driver1 L_driver2 L_path L_write L_driver3 L_driver4 L_driver5 L_total.

(** ** The touched file *)
Theorem touched_file demangle w t c : w_wrapper w = false -> main demangle w = (t, c) ->
  (touched t = [] \/ exists f, touches w (Some f) /\ touched t = [f]) /\
  (forall command, In (lit "cargo", command) (commands t) -> exists r pre post, touches w r /\ t = pre ++ post /\
     touched pre = match r with Some f => [f] | None => [] end /\ (forall a, ~ In (lit "cargo", a) (commands pre)) /\ touched post = []).
Proof.
  intros U M. destruct (user_run demangle w t c U M) as [[H [_ [[Ht _] _]]]|[file [config [_ [_ [_ H]]]]]].
  { rewrite H, Ht. split; [now left | intros command []]. }
  destruct H as [[H [_ [[Ht _] _]]]|[cfg [r [pre [exe [extra [[_ [_ [Tr [_ [T1 [T2 C]]]]]] [Et _]]]]]]]].
  { rewrite H, Ht. split; [now left | intros command [I|[]]; discriminate I]. }
  split.
  - rewrite T1. destruct r as [f|]; [right; exists f; split; [exact Tr | reflexivity] | now left].
  - intros command _. set (b := fst (build_and_analyse demangle w (target_of w config) file exe (cargo_args (w_args w) file (no_std (buf_lines cfg))))) in *.
    exists r, pre, (b ++ extra). split; [exact Tr|]. split; [exact Et|]. split; [exact T2|]. split.
    + intros a I. rewrite C in I. destruct I as [I|[]]. discriminate I.
    + rewrite Et, touched_app, T2 in T1. rewrite <- (app_nil_r (touch_list r)) in T1 at 2. exact (app_inv_head _ _ _ T1).
Qed.

(** ** Environments *)
Lemma ibind_all {A B} (P : event -> Prop) (m : io A) (f : A -> io B) : Forall P (fst m) -> (forall a, snd m = Ret a -> Forall P (fst (f a))) -> Forall P (fst (ibind m f)).
Proof.
  destruct m as [t [a| | |]]; cbn [fst snd]; intros H1 H2; try exact H1. rewrite ibind_go. cbn [fst]. apply Forall_app. split; [exact H1 | now apply H2].
Qed.
Lemma silent_all {A} (P : event -> Prop) (o : outcome A) : Forall P (fst (lift o)). Proof. constructor. Qed.
Definition env_ok (w : world) (e : event) : Prop :=
  match e with
  | ECmd prog env a => (prog = lit "rustc" /\ env = []) \/
      (prog = lit "cargo" /\ exists exe, w_exe w = Ret exe /\ env = [(lit "CARGO_CALL_STACK_RUSTC_WRAPPER", lit "1"); (lit "RUSTC_WRAPPER", exe)])
  | _ => True
  end.
Lemma read_env w utf8 lines : forall r l, Forall (env_ok w) (fst (read_stderr utf8 lines r l)).
Proof.
  induction lines as [|x lines IH]; intros r l; cbn [read_stderr]; [constructor|]. destruct (negb (utf8 x)); [constructor|].
  destruct (starts_with rlib_marker x); [apply IH|]. destruct (starts_with ll_marker x); [apply IH|]. rewrite ibind_say. constructor; [exact I | exact (IH r l)].
Qed.
Lemma walk_env w walk : Forall (env_ok w) (fst (touch_first w walk)).
Proof.
  induction walk as [|x walk IH]; cbn [touch_first]; [constructor|]. apply ibind_all; [constructor|]. intros f _. destruct (is_rs f); [|exact IH].
  apply ibind_all; [constructor|]. intros u _. repeat constructor.
Qed.
Lemma touch_env w : Forall (env_ok w) (fst (touch w)).
Proof. unfold touch. cbv zeta. destruct (is_ok _); [repeat constructor|]. destruct (is_ok _); [repeat constructor|]. apply walk_env. Qed.
Lemma analyse_env demangle w target file paths : Forall (env_ok w) (fst (analyse demangle w target file paths)).
Proof.
  destruct paths as [[r|] [l|]]; try constructor. cbn [analyse]. apply ibind_all; [destruct (loading_logs demangle w target file r l) as [ms ->]; induction ms as [|m ms IH]; constructor; [exact I | exact IH]|]. intros p _. apply ibind_all; [unfold logged; cbn [fst]; induction (fst (M_log.report_log demangle (w_orders w) (a_start (w_args w)) p)) as [|m ms IH]; constructor; [exact I | exact IH]|]. intros [g cs] _.
  apply ibind_all; [|intros u _; constructor]. unfold emit. destruct (write_output w demangle g cs (mkSink [] 0)) as [k o]. repeat constructor.
Qed.
Lemma run_env demangle w : w_wrapper w = false -> Forall (env_ok w) (fst (run demangle w)).
Proof.
  intros U. unfold run. rewrite U. apply ibind_all; [constructor|]. intros [] _. destruct (negb _ && negb _); [apply ibind_all; [repeat constructor | intros u _; constructor]|]. cbv zeta.
  apply ibind_all; [constructor|]. intros file _. apply ibind_all; [constructor|]. intros config _. apply ibind_all; [repeat constructor; now left|]. intros u _.
  apply ibind_all; [constructor|]. intros cfg _. apply ibind_all; [constructor|]. intros exe Ee. cbn [snd lift] in Ee. apply ibind_all; [apply touch_env|]. intros u' _.
  apply ibind_all; [destruct (a_verbose (w_args w)); repeat constructor|]. intros u'' _. unfold build_and_analyse. apply ibind_all.
  - constructor; [|constructor]. right. split; [reflexivity|]. exists exe. split; [exact Ee | reflexivity].
  - intros u3 _. apply ibind_all; [constructor|]. intros child _. apply ibind_all; [apply read_env|]. intros paths _. destruct (snd child) as [[|z|z]|]; try constructor. apply analyse_env.
Qed.
Lemma in_commands t prog a : In (prog, a) (commands t) <-> exists env, In (ECmd prog env a) t.
Proof.
  induction t as [|e t IH]; [split; [intros [] | intros [env []]]|]. change (commands (e :: t)) with (commands ([e] ++ t)). rewrite commands_app, in_app_iff, IH. split.
  - intros [K|[env K]]; [|exists env; now right]. destruct e; cbn in K; try contradiction. destruct K as [K|[]]. injection K as <- <-. eexists. left. reflexivity.
  - intros [env [->|K]]; [left; left; reflexivity | right; now exists env].
Qed.
Theorem environment demangle w t c : w_wrapper w = false -> main demangle w = (t, c) ->
  (forall env a, In (ECmd (lit "cargo") env a) t -> exists exe, w_exe w = Ret exe /\ env = [(lit "CARGO_CALL_STACK_RUSTC_WRAPPER", lit "1"); (lit "RUSTC_WRAPPER", exe)]) /\
  (forall prog env a, In (ECmd prog env a) t -> prog <> lit "cargo" -> prog = lit "rustc" /\ env = []).
Proof.
  intros U M. destruct (main_run demangle w) as [extra [E [Ec _]]]. rewrite E in M. injection M as <- _.
  assert (X : forall prog env a, In (ECmd prog env a) (fst (run demangle w) ++ extra) -> env_ok w (ECmd prog env a)).
  { intros prog env a I. apply in_app_or in I. destruct I as [I|I]; [exact (proj1 (Forall_forall _ _) (run_env demangle w U) _ I)|].
    assert (K : In (prog, a) (commands extra)) by (apply in_commands; now exists env). rewrite Ec in K. destruct K. }
  split.
  - intros env a I. apply X in I. destruct I as [[I _]|[_ I]]; [discriminate I | exact I].
  - intros prog env a I N. apply X in I. destruct I as [I|[I _]]; [exact I | now destruct N].
Qed.

(** ** The command is shown on request *)
Lemma shown_app a b : shown (a ++ b) = shown a ++ shown b. Proof. apply select_app. Qed.
Definition quiet (e : event) : Prop := match e with EVerbose _ _ => False | _ => True end.
Lemma quiet_shown t : Forall quiet t -> shown t = [].
Proof. induction 1 as [|e t Q _ IH]; [reflexivity|]. destruct e; cbn; try exact IH. destruct Q. Qed.
Lemma read_quiet utf8 lines : forall r l, Forall quiet (fst (read_stderr utf8 lines r l)).
Proof.
  induction lines as [|x lines IH]; intros r l; cbn [read_stderr]; [constructor|]. destruct (negb (utf8 x)); [constructor|].
  destruct (starts_with rlib_marker x); [apply IH|]. destruct (starts_with ll_marker x); [apply IH|]. rewrite ibind_say. constructor; [exact I | exact (IH r l)].
Qed.
Lemma analyse_quiet demangle w target file paths : Forall quiet (fst (analyse demangle w target file paths)).
Proof.
  destruct paths as [[r|] [l|]]; try constructor. cbn [analyse]. apply ibind_all; [destruct (loading_logs demangle w target file r l) as [ms ->]; induction ms as [|m ms IH]; constructor; [exact I | exact IH]|]. intros p _. apply ibind_all; [unfold logged; cbn [fst]; induction (fst (M_log.report_log demangle (w_orders w) (a_start (w_args w)) p)) as [|m ms IH]; constructor; [exact I | exact IH]|]. intros [g cs] _.
  apply ibind_all; [|intros u _; constructor]. unfold emit. destruct (write_output w demangle g cs (mkSink [] 0)) as [k o]. repeat constructor.
Qed.
Lemma build_quiet demangle w target file exe command : Forall quiet (fst (build_and_analyse demangle w target file exe command)).
Proof.
  unfold build_and_analyse. apply ibind_all; [repeat constructor|]. intros u3 _. apply ibind_all; [constructor|]. intros child _. apply ibind_all; [apply read_quiet|]. intros paths _.
  destruct (snd child) as [[|z|z]|]; try constructor. apply analyse_quiet.
Qed.
Lemma shown_stop {A B} t (o : outcome A) (f : A -> io B) : stops o -> fst (ibind (t, o) f) = t.
Proof. intros S. now destruct (ibind_stop t o f S). Qed.
Lemma run_shows demangle w : w_wrapper w = false -> shown (fst (run demangle w)) = if a_verbose (w_args w) then filter (fun c => str_eqb (fst c) (lit "cargo")) (commands (fst (run demangle w))) else [].
Proof.
  intros U. unfold run. rewrite U. assert (Z : forall b : bool, (if b then ([] : list (str * list str)) else []) = []) by (intros []; reflexivity).
  destruct (outcome_dec (w_meta w)) as [[[] ->]|S]; [|unfold lift; rewrite (shown_stop _ _ _ S); cbn; now rewrite Z].
  rewrite ibind_ret. destruct (negb _ && negb _); [cbn; now rewrite Z|]. cbv zeta.
  destruct (outcome_dec (pick_file (w_args w))) as [[file ->]|S]; [|unfold lift; rewrite (shown_stop _ _ _ S); cbn; now rewrite Z]. rewrite ibind_ret.
  destruct (outcome_dec (w_project w)) as [[config ->]|S]; [|unfold lift; rewrite (shown_stop _ _ _ S); cbn; now rewrite Z]. rewrite ibind_ret, ibind_say. cbn [fst snd]. rewrite target_of_eq.
  set (c := ECmd (lit "rustc") [] _). assert (C : shown [c] = [] /\ filter (fun c => str_eqb (fst c) (lit "cargo")) (commands [c]) = []) by (split; reflexivity). destruct C as [C1 C2].
  assert (Z' : shown [c] = (if a_verbose (w_args w) then filter (fun c => str_eqb (fst c) (lit "cargo")) (commands [c]) else [])) by (rewrite C1, C2, Z; reflexivity).
  destruct (outcome_dec (ask_cfg w (target_of w config))) as [[cfg ->]|S]; [|unfold lift; rewrite (shown_stop _ _ _ S); exact Z']. rewrite ibind_ret.
  destruct (outcome_dec (w_exe w)) as [[exe ->]|S]; [|unfold lift; rewrite (shown_stop _ _ _ S); exact Z']. rewrite ibind_ret.
  destruct (touch_spec w) as [[r [_ ->]]|[S1 S2]]; [|destruct (touch w) as [tl o]; cbn [fst snd] in S1, S2; subst tl; rewrite (shown_stop _ _ _ S2); exact Z'].
  rewrite ibind_go. cbn [fst snd]. set (te := match r with Some f => [ETouch f] | None => [] end). assert (T : shown te = [] /\ commands te = []) by (destruct r; split; reflexivity). destruct T as [T1 T2].
  set (command := cargo_args (w_args w) file (no_std cfg)). destruct (build_shape demangle w (target_of w config) file exe command) as [tail [K _]].
  pose proof (quiet_shown _ (build_quiet demangle w (target_of w config) file exe command)) as Q.
  change (c :: te ++ ?x) with ([c] ++ te ++ x). rewrite !shown_app, !commands_app, !filter_app, C1, C2, T1, T2. cbn [app filter].
  destruct (a_verbose (w_args w)).
  - rewrite ibind_say. cbn [fst snd]. set (v := EVerbose (lit "cargo") command). set (b := build_and_analyse _ _ _ _ _ _) in *. change (v :: fst b) with ([v] ++ fst b). rewrite shown_app, commands_app, Q, K. reflexivity.
  - rewrite ibind_iret. exact Q.
Qed.
Theorem shows demangle w t c : w_wrapper w = false -> main demangle w = (t, c) ->
  (a_verbose (w_args w) = true -> shown t = filter (fun c => str_eqb (fst c) (lit "cargo")) (commands t)) /\ (a_verbose (w_args w) = false -> shown t = []).
Proof.
  intros U M. destruct (main_run demangle w) as [extra [E [Ec [_ [_ Ex]]]]]. rewrite E in M. injection M as <- _. assert (S : shown extra = []) by (destruct Ex as [[-> _]|[_ [m [-> _]]]]; reflexivity).
  rewrite shown_app, commands_app, Ec, S, !app_nil_r, (run_shows demangle w U). split; intros ->; reflexivity.
Qed.

(** ** Files that cannot be read *)
Lemma fails_so demangle w t c command ns target file rlib ll m : sane w -> main demangle w = (t, c) -> In (lit "cargo", command) (commands t) ->
  w_cargo w command = Ret (concat (map (fun n => note_line n ++ ["010"%char]) ns), Some 0%Z) -> Forall note_ok ns -> (forall n, In n ns -> w_utf8 w (note_line n) = true) ->
  In (lit "rustc", [lit "--print=cfg"; lit "--target"; target]) (commands t) -> one_artifact (w_args w) file -> latest rlib_of ns (Some rlib) -> latest ll_of ns (Some ll) ->
  load_files w target file rlib ll = Fail m -> c = 1%Z /\ printed t = [] /\ errors t = select text_of ns ++ [lit "error: " ++ m].
Proof.
  intros S M I E F U T A L1 L2 L. destruct (c48_stderr (w_utf8 w) ns F U) as [rl [l [R [Lr Ll]]]].
  destruct (user_run demangle w t c (sane_user w S) M) as [[H _]|[file' [config [_ [P [Ec H]]]]]]; [rewrite H in I; destruct I|].
  destruct H as [[H _]|[cfg [r0 [pre [exe [extra [G [Ht [Hc [H1 [Hp [He Hx]]]]]]]]]]]]; [rewrite H in I; destruct I as [I|[]]; discriminate I|].
  rewrite H1 in I, T. destruct I as [I|[I|[]]]; [discriminate I|]. injection I as <-. destruct T as [T|[T|[]]]; [|discriminate T]. injection T as <-.
  assert (file' = file) by (apply artifact in A, P; congruence). subst file'. set (command := cargo_args (w_args w) file (no_std (buf_lines cfg))) in *.
  pose proof (latest_unique _ _ _ _ Lr L1). pose proof (latest_unique _ _ _ _ Ll L2). subst rl l.
  set (b := build_and_analyse demangle w (target_of w config) file exe command) in *.
  assert (B : exists e, b = (e :: map EErr (select text_of ns), Fail m) /\ errors [e] = [] /\ printed [e] = []).
  { exists (hd (EErr []) (fst b)). split; [|split; reflexivity]. unfold b at 1, build_and_analyse. rewrite ibind_say, E, ibind_ret. cbn [fst snd]. rewrite R, ibind_go. cbn [fst snd analyse]. unfold loading. rewrite L. unfold ibind, lift. cbn [fst snd]. rewrite app_nil_r. reflexivity. }
  destruct B as [e [B [Be Bp]]]. rewrite B in Hc, Hx, Hp, Ht. cbn [fst snd] in *. destruct Hx as [[_ [z Hz]]|[_ [m' [-> Hm]]]]; [discriminate Hz|]. rewrite (Hm m eq_refl) in Ht. split; [exact Hc|]. split.
  - rewrite Hp. change (e :: ?x) with ([e] ++ x). rewrite printed_app, Bp. clear. induction (select text_of ns) as [|x l IH]; [reflexivity | exact IH].
  - rewrite Ht, !errors_app, (proj1 He). change (e :: ?x) with ([e] ++ x). rewrite errors_app, Be, errors_echo. reflexivity.
Qed.
(** [unread w f e]: the text of [f] cannot be had, because of [e]. *)
Lemma read_unread w f e : unread w f e -> read_to_string w f = Fail e.
Proof. intros [H|[text [H1 [H2 ->]]]]; unfold read_to_string; [rewrite H; reflexivity | rewrite H1; cbn [bind]; rewrite H2; reflexivity]. Qed.
Section Unread.
Variables (w : world) (target file rlib ll path exe_dir dir : str).
Hypotheses (Ex : executable w file path) (Ho : holder path exe_dir) (Di : ir_dir (w_args w) exe_dir dir).
Lemma unread_exe e : w_read w path = Fail e -> load_files w target file rlib ll = Fail (lit "couldn't open ELF file `" ++ path ++ lit "`: " ++ e).
Proof. intros R. unfold load_files. cbv zeta. unfold executable in Ex. rewrite Ex. cbn [bind]. rewrite R. reflexivity. Qed.
Variables (elf : str) (es : list entry) (name : str) (t : N) (ll_path obj_path : str).
Hypotheses (El : w_read w path = Ret elf) (Es : w_dir w dir = Ret (map Ret es)) (In' : forall e, In e es -> inspected (crate_name file) e)
  (Ch : chosen_file (crate_name file) es (name ++ lit ".ll") t) (I1 : inside dir (name ++ lit ".ll") ll_path) (I2 : inside dir (name ++ lit ".o") obj_path).
Lemma load_to_files : load_files w target file rlib ll =
  (let* ll_text := context (lit "couldn't read LLVM IR from `") ll_path (read_to_string w ll_path) in
   let* obj := context (lit "couldn't read object file `") obj_path (w_read w obj_path) in
   let* builtins := context (lit "couldn't read `compiler_builtins` LLVM IR from `") ll (read_to_string w ll) in
   let* items := parse_ir (lit "failed to parse application's LLVM IR from `") ll_path ll_text in
   let* builtins_items := parse_ir (lit "failed to parse `compiler_builtins` LLVM IR from `") ll builtins in
   let all := items ++ builtins_items in
   let t := classify_target target in
   let* sizes := w_object w obj in
   let* ms := context (lit "couldn't open `") rlib (w_archive w rlib) in
   let* more := archive_sizes w ms in
   let* symbols := w_executable w elf in
   Ret (mkProg t (w_defines_order w (collect_defines all)) (collect_declares all) (collect_sizes (sizes :: more))
               (clear_thumb t (el_defined symbols)) (map strip_version (el_undefined symbols))
               [] (if is_thumb t then w_text w elf else None), if is_thumb t then w_symtab w elf else Ret [])).
Proof.
  apply holder_fun in Ho. subst exe_dir. apply inside_fun in I1, I2. subst ll_path obj_path.
  unfold load_files. cbv zeta. unfold executable in Ex. rewrite Ex. cbn [bind]. rewrite El. cbn [context bind].
  assert (D : match a_bin (w_args w) with Some _ => join (parent path) (lit "deps") | None => parent path end = dir).
  { unfold ir_dir in Di. destruct (a_bin (w_args w)); [symmetry; now apply inside_fun | now symmetry]. }
  rewrite D, Es. cbn [bind]. destruct (proj2 (pick_inspects file es) In') as [best B]. rewrite B. cbn [bind]. pose proof (c49_newest file es best B) as C.
  assert (X : exists t', best = Some (name ++ lit ".ll", t')).
  { destruct best as [[n' t']|].
    - exists t'. assert (n' = name ++ lit ".ll"); [|now subst]. destruct Ch as [a [e [b [H1 [H2 [H3 [H4 [H5 H6]]]]]]]]. destruct C as [a' [e' [b' [K1 [K2 [K3 [K4 [K5 K6]]]]]]]].
      rewrite H1 in K1. rewrite H2 in H4. rewrite K2 in K4. destruct (two_places _ _ _ _ _ _ K1) as [->|[[Q Q']|[Q Q']]]; [congruence| |].
      + pose proof (K5 e t Q H4 H3). pose proof (H6 e' t' Q' K4 K3). lia.
      + pose proof (H5 e' t' Q' K4 K3). pose proof (K6 e t Q H4 H3). lia.
    - exfalso. destruct Ch as [a [e [b [H1 [H2 [_ [H3 _]]]]]]]. apply (C e); [rewrite H1; apply in_or_app; right; left; reflexivity | rewrite <- H2; exact H3]. }
  destruct X as [t' ->]. assert (Nn : name <> []). { destruct Ch as [a [e [b [_ [_ [_ [[h F] _]]]]]]]. rewrite !app_assoc in F. apply app_inv_tail in F. rewrite F. destruct (crate_name file); discriminate. }
  rewrite (object_of_ll name Nn). reflexivity.
Qed.
Lemma unread_ll e : unread w ll_path e -> load_files w target file rlib ll = Fail (lit "couldn't read LLVM IR from `" ++ ll_path ++ lit "`: " ++ e).
Proof. intros R. rewrite load_to_files, (read_unread _ _ _ R). reflexivity. Qed.
Variables (text obj btext : str).
Hypothesis (Tx : text_file w ll_path text).
Lemma unread_obj e : w_read w obj_path = Fail e -> load_files w target file rlib ll = Fail (lit "couldn't read object file `" ++ obj_path ++ lit "`: " ++ e).
Proof. intros R. rewrite load_to_files, (proj2 (read_text _ _ _) Tx). cbn [context bind]. rewrite R. reflexivity. Qed.
Hypothesis (Ob : w_read w obj_path = Ret obj).
Lemma unread_builtins e : unread w ll e -> load_files w target file rlib ll = Fail (lit "couldn't read `compiler_builtins` LLVM IR from `" ++ ll ++ lit "`: " ++ e).
Proof. intros R. rewrite load_to_files, (proj2 (read_text _ _ _) Tx). cbn [context bind]. rewrite Ob. cbn [context bind]. rewrite (read_unread _ _ _ R). reflexivity. Qed.
Hypothesis (Tb : text_file w ll btext).
Lemma unparsed_ll line : parse text = Failed line ->
  load_files w target file rlib ll = Fail (lit "failed to parse application's LLVM IR from `" ++ ll_path ++ lit "`: BUG: failed to parse LLVM IR; please submit a cargo-call-stack bug report and attach the `.ll` file: Failure(""Eof in line " ++ show_nat line ++ lit """)").
Proof. intros R. rewrite load_to_files, (proj2 (read_text _ _ _) Tx). cbn [context bind]. rewrite Ob. cbn [context bind]. rewrite (proj2 (read_text _ _ _) Tb). cbn [context bind]. unfold parse_ir at 1. rewrite R. reflexivity. Qed.
Lemma unparsed_builtins items line : parse text = Parsed items -> parse btext = Failed line ->
  load_files w target file rlib ll = Fail (lit "failed to parse `compiler_builtins` LLVM IR from `" ++ ll ++ lit "`: BUG: failed to parse LLVM IR; please submit a cargo-call-stack bug report and attach the `.ll` file: Failure(""Eof in line " ++ show_nat line ++ lit """)").
Proof.
  intros R0 R. rewrite load_to_files, (proj2 (read_text _ _ _) Tx). cbn [context bind]. rewrite Ob. cbn [context bind]. rewrite (proj2 (read_text _ _ _) Tb). cbn [context bind]. rewrite (parse_ir_ok _ _ _ _ R0). cbn [bind].
  unfold parse_ir at 1. rewrite R. reflexivity.
Qed.
Lemma unread_rlib items bitems sizes e : parse text = Parsed items -> parse btext = Parsed bitems -> w_object w obj = Ret sizes -> w_archive w rlib = Fail e ->
  load_files w target file rlib ll = Fail (lit "couldn't open `" ++ rlib ++ lit "`: " ++ e).
Proof.
  intros R0 R1 R2 R. rewrite load_to_files, (proj2 (read_text _ _ _) Tx). cbn [context bind]. rewrite Ob. cbn [context bind]. rewrite (proj2 (read_text _ _ _) Tb). cbn [context bind].
  rewrite (parse_ir_ok _ _ _ _ R0). cbn [bind]. rewrite (parse_ir_ok _ _ _ _ R1). cbn [bind]. rewrite R2. cbn [bind]. rewrite R. reflexivity.
Qed.
End Unread.
Theorem complaint_named w file rlib ll f m : complaint w file rlib ll f m -> exists a b, m = a ++ f ++ b.
Proof. intros H. destruct H; eexists; eexists; reflexivity. Qed.
Lemma complaint_load w target file rlib ll f m : complaint w file rlib ll f m -> load_files w target file rlib ll = Fail m.
Proof.
  intros H. destruct H as [path e A B|f o e A B|f o text e A B C|f o text obj e A B C D|f o text obj btext line A B C D E|f o text obj btext items line A B C D E F|f o text obj btext items bitems sizes e A B C D E F G H].
  - exact (unread_exe w target file rlib ll path A e B).
  - destruct A as [path [exe_dir [dir [elf [es [name [t [A1 [A2 [A3 [A4 [A5 [A6 [A7 [A8 A9]]]]]]]]]]]]]]]. eapply unread_ll; eassumption.
  - destruct A as [path [exe_dir [dir [elf [es [name [t [A1 [A2 [A3 [A4 [A5 [A6 [A7 [A8 A9]]]]]]]]]]]]]]]. eapply unread_obj; eassumption.
  - destruct A as [path [exe_dir [dir [elf [es [name [t [A1 [A2 [A3 [A4 [A5 [A6 [A7 [A8 A9]]]]]]]]]]]]]]]. eapply unread_builtins; eassumption.
  - destruct A as [path [exe_dir [dir [elf [es [name [t [A1 [A2 [A3 [A4 [A5 [A6 [A7 [A8 A9]]]]]]]]]]]]]]]. eapply unparsed_ll; eassumption.
  - destruct A as [path [exe_dir [dir [elf [es [name [t [A1 [A2 [A3 [A4 [A5 [A6 [A7 [A8 A9]]]]]]]]]]]]]]]. eapply unparsed_builtins; eassumption.
  - destruct A as [path [exe_dir [dir [elf [es [name [t [A1 [A2 [A3 [A4 [A5 [A6 [A7 [A8 A9]]]]]]]]]]]]]]]. eapply unread_rlib; eassumption.
Qed.
Theorem complains demangle w t c command ns file rlib ll f m : sane w -> main demangle w = (t, c) -> In (lit "cargo", command) (commands t) ->
  w_cargo w command = Ret (concat (map (fun n => note_line n ++ ["010"%char]) ns), Some 0%Z) -> Forall note_ok ns -> (forall n, In n ns -> w_utf8 w (note_line n) = true) ->
  one_artifact (w_args w) file -> latest rlib_of ns (Some rlib) -> latest ll_of ns (Some ll) -> complaint w file rlib ll f m ->
  c = 1%Z /\ printed t = [] /\ errors t = select text_of ns ++ [lit "error: " ++ m].
Proof.
  intros S M I E F U A L1 L2 C. assert (T : exists target, In (lit "rustc", [lit "--print=cfg"; lit "--target"; target]) (commands t)).
  { destruct (c50 demangle w t c command (sane_user w S) M I) as [_ [tg [_ [_ [_ [T _]]]]]]. now exists tg. }
  destruct T as [tg T]. exact (fails_so demangle w t c command ns tg file rlib ll m S M I E F U T A L1 L2 (complaint_load w tg file rlib ll f m C)).
Qed.
