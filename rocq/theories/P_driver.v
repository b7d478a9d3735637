(** Properties C46-C52, C60 and C61: the rustc wrapper and the driver. *)
From Verif Require Import M_base M_stack M_graph M_names M_thumb M_ty M_parse M_render M_build M_run M_wrapper M_driver.
From Verif Require Import S_names S_graph S_render S_build S_run S_driver L_driver1 L_driver2 L_driver5 X_build X_driver.
Local Open Scope string_scope.
Local Open Scope list_scope.

(** C46, partial: rustc is run with the arguments unchanged and in order after the injected flags, exactly if there is a `--crate-name`, every
    option has its value, compiler_builtins has an output directory and the arguments are UTF-8. *)
Theorem C46_wrapper_is_transparent_partial :
  forall utf8 exe rustc args f, let t := wrapper utf8 (exe :: rustc :: args) f in
  (forall cmd all, In (cmd, all) (commands (fst t)) -> commands (fst t) = [(rustc, all)] /\
     exists flags opts ws, Forall2 written opts ws /\ args = concat ws /\ all = flags ++ args /\
       ((flags = [lit "-Zemit-stack-sizes"] /\ ~ latest crate_of opts (Some (lit "compiler_builtins"))) \/
        (flags = [lit "--emit=llvm-ir"; lit "-Zemit-stack-sizes"] /\ latest crate_of opts (Some (lit "compiler_builtins")))) /\
       (forall code, f rustc all = Ret code -> snd t = Ret (match code with Some c => c | None => (-1)%Z end))) /\
  (commands (fst t) = [] -> forall code, snd t <> Ret code) /\
  (commands (fst t) <> [] <-> Forall (fun a => utf8 a = true) (exe :: rustc :: args) /\
     exists opts ws, Forall2 written opts ws /\ args = concat ws /\ ~ latest crate_of opts None /\
       (latest crate_of opts (Some (lit "compiler_builtins")) -> ~ latest out_of opts None)).
Proof. exact c46_wrapper. Qed.
Print Assumptions C46_wrapper_is_transparent_partial.
(** The full statement is false: rustc is not run at all if there is no `--crate-name`. *)
Theorem C46_version_question_is_not_passed_on_refuted :
  forall utf8 exe rustc f, commands (fst (wrapper utf8 [exe; rustc; lit "-vV"] f)) = [] /\ forall code, snd (wrapper utf8 [exe; rustc; lit "-vV"] f) <> Ret code.
Proof. exact version_fails. Qed.
Print Assumptions C46_version_question_is_not_passed_on_refuted.
Theorem C46_bytes_are_not_passed_on_refuted :
  exists utf8 args, commands (fst (wrapper utf8 args (fun _ _ => Ret (Some 0%Z)))) = [] /\ commands (fst (wrapper (fun _ => true) args (fun _ _ => Ret (Some 0%Z)))) <> [].
Proof. exact bytes_fail. Qed.
Print Assumptions C46_bytes_are_not_passed_on_refuted.
Example C46_example : wrapper (fun _ => true) (map lit ["tool"; "rustc"; "--crate-name"; "compiler_builtins"; "lib.rs"; "--out-dir"; "o"; "-C"; "extra-filename=-1f"]) (fun _ _ => Ret (Some 7%Z)) =
  ([EErr (lit "@CARGO_CALL_STACK:compiler_builtins_ll_path@o/compiler_builtins-1f.ll");
    ECmd (lit "rustc") [] (map lit ["--emit=llvm-ir"; "-Zemit-stack-sizes"; "--crate-name"; "compiler_builtins"; "lib.rs"; "--out-dir"; "o"; "-C"; "extra-filename=-1f"])], Ret 7%Z).
Proof. reflexivity. Qed.

(** C47, partial: every argument list is a sequence of options, perhaps with a last option without value, and what is extracted
    is what the options say.  Options written `--name=value` and `--extern` with options other than `noprelude` are excepted:
    [written] makes them other arguments and parts of the name. *)
Theorem C47_options_are_read_partial :
  forall opts ws, Forall2 written opts ws ->
  (forall a, parse_args (concat ws) = Ret a <->
     latest crate_of opts (Some (ra_crate a)) /\ (exists e, latest extra_of opts e /\ ra_extra a = match e with Some e => e | None => [] end) /\
     latest out_of opts (ra_out a) /\ ra_externs a = select extern_of opts) /\
  (latest crate_of opts None -> exists m, parse_args (concat ws) = Fail m).
Proof. exact c47_read. Qed.
Print Assumptions C47_options_are_read_partial.
Theorem C47_every_argument_list :
  forall args, exists opts ws tail, Forall2 written opts ws /\ args = concat ws ++ tail /\
  (tail = [] \/ dangling tail /\ exists m, parse_args args = Fail m).
Proof. exact c47_total. Qed.
Print Assumptions C47_every_argument_list.
Theorem C47_equals_form_is_overlooked_refuted : exists m, parse_args [lit "--crate-name=app"] = Fail m.
Proof. exact equals_form. Qed.
Print Assumptions C47_equals_form_is_overlooked_refuted.
Theorem C47_extern_options_are_taken_for_the_name_refuted :
  exists a, parse_args (map lit ["--crate-name"; "app"; "--extern"; "priv,noprelude:core=libcore.rlib"]) = Ret a /\
  ra_externs a = [mkExtern (lit "priv,noprelude:core") (Some (lit "libcore.rlib"))].
Proof. exact extern_options. Qed.
Print Assumptions C47_extern_options_are_taken_for_the_name_refuted.
Example C47_example :
  Forall2 written [OCrate (lit "a"); OExtra (lit "-1"); OExtern (lit "core") (Some (lit "x=y")); OExtra (lit "-2"); OOther; OCrate (lit "b")]
    [map lit ["--crate-name"; "a"]; map lit ["-C"; "extra-filename=-1"]; map lit ["--extern"; "noprelude:core=x=y"]; [lit "-Cextra-filename=-2"]; [lit "lib.rs"]; map lit ["--crate-name"; "b"]] /\
  parse_args (map lit ["--crate-name"; "a"; "-C"; "extra-filename=-1"; "--extern"; "noprelude:core=x=y"; "-Cextra-filename=-2"; "lib.rs"; "--crate-name"; "b"]) =
    Ret (mkRustcArgs (lit "-2") (lit "b") None [mkExtern (lit "core") (Some (lit "x=y"))]).
Proof.
  split; [|reflexivity]. repeat apply Forall2_cons.
  - exact (wr_crate (lit "a")).
  - exact (wr_extra2 (lit "-1")).
  - apply (wr_noprelude (lit "core") (Some (lit "x=y"))). cbn. intros I. repeat (destruct I as [I|I]; [discriminate I|]). exact I.
  - exact (wr_extra1 (lit "-2")).
  - apply wr_other; [|intros r; discriminate]. cbn. intros I. repeat (destruct I as [I|I]; [discriminate I|]). exact I.
  - exact (wr_crate (lit "b")).
  - apply Forall2_nil.
Qed.

(** C48: the wrapper reports the paths of compiler_builtins ... *)
Theorem C48_wrapper_reports_paths :
  forall utf8 exe rustc opts ws f c d e, Forall (fun a => utf8 a = true) (exe :: rustc :: concat ws) ->
  Forall2 written opts ws -> latest crate_of opts (Some c) -> latest out_of opts (Some d) -> latest extra_of opts e ->
  errors (fst (wrapper utf8 (exe :: rustc :: concat ws) f)) =
  map note_line (select builtins_rlib opts ++
    (if str_eqb c (lit "compiler_builtins") then [NLl (d ++ lit "/compiler_builtins" ++ match e with Some e => e | None => [] end ++ lit ".ll")] else [])).
Proof. exact c48_reports. Qed.
Print Assumptions C48_wrapper_reports_paths.
(** ... and the driver uses the last ones and echoes all other lines, if they do not end with a carriage return (partial). *)
Theorem C48_driver_uses_reported_paths_partial :
  forall demangle w t c command ns code, sane w -> main demangle w = (t, c) -> In (lit "cargo", command) (commands t) ->
  w_cargo w command = Ret (concat (map (fun n => note_line n ++ ["010"%char]) ns), code) -> Forall note_ok ns -> (forall n, In n ns -> w_utf8 w (note_line n) = true) ->
  (code <> Some 0%Z -> errors t = select text_of ns /\ c = match code with Some c => c | None => 1%Z end) /\
  (code = Some 0%Z -> errors t = select text_of ns \/ (c <> 0%Z /\ exists m, errors t = select text_of ns ++ [m])) /\
  (c = 0%Z -> exists target file rlib ll p out, latest rlib_of ns (Some rlib) /\ latest ll_of ns (Some ll) /\ analyses w target file rlib ll p /\
     output demangle (w_orders w) (a_start (w_args w)) (a_format (w_args w)) p = Ret out /\ printed t = [out]).
Proof. exact c48_run. Qed.
Print Assumptions C48_driver_uses_reported_paths_partial.
(** For any output whatever: its lines, without their ends, are echoed or used; at the first one that is not UTF-8 the tool fails. *)
Theorem C48_any_output_of_the_build :
  forall demangle w t c command text code ls ns, sane w -> main demangle w = (t, c) -> In (lit "cargo", command) (commands t) ->
  w_cargo w command = Ret (text, code) -> lines_of text ls -> Forall2 says_note ls ns ->
  (Forall (fun l => w_utf8 w l = true) ls ->
   (code <> Some 0%Z -> errors t = select text_of ns /\ c = match code with Some c => c | None => 1%Z end) /\
   (code = Some 0%Z -> errors t = select text_of ns \/ (c <> 0%Z /\ exists m, errors t = select text_of ns ++ [m])) /\
   (c = 0%Z -> exists target file rlib ll p out, latest rlib_of ns (Some rlib) /\ latest ll_of ns (Some ll) /\ analyses w target file rlib ll p /\
      output demangle (w_orders w) (a_start (w_args w)) (a_format (w_args w)) p = Ret out /\ printed t = [out])) /\
  (forall a l b, ls = a ++ l :: b -> Forall (fun l => w_utf8 w l = true) a -> w_utf8 w l = false ->
   c = 1%Z /\ printed t = [] /\ exists m, errors t = select text_of (firstn (length a) ns) ++ [m]).
Proof. exact c48_any. Qed.
Print Assumptions C48_any_output_of_the_build.
(** Any output is lines, which are reports or text, in one way. *)
Theorem C48_every_output_is_lines :
  forall s, exists ls ns, lines_of s ls /\ Forall2 says_note ls ns /\ forall ls' ns', lines_of s ls' -> Forall2 says_note ls' ns' -> ls' = ls /\ ns' = ns.
Proof. exact c48_lines. Qed.
Print Assumptions C48_every_output_is_lines.
Example C48_lines_example :
  let cr := "013"%char in let lf := "010"%char in
  lines_of (lit "one" ++ [cr; cr; lf; lf] ++ lit "@CARGO_CALL_STACK:compiler_builtins_ll_path@/x" ++ [cr; lf] ++ lit "@CARGO_CALL_STACK:y" ++ [cr])
    [lit "one" ++ [cr]; []; lit "@CARGO_CALL_STACK:compiler_builtins_ll_path@/x"; lit "@CARGO_CALL_STACK:y" ++ [cr]] /\
  Forall2 says_note [lit "one" ++ [cr]; []; lit "@CARGO_CALL_STACK:compiler_builtins_ll_path@/x"; lit "@CARGO_CALL_STACK:y" ++ [cr]]
    [NText (lit "one" ++ [cr]); NText []; NLl (lit "/x"); NText (lit "@CARGO_CALL_STACK:y" ++ [cr])].
Proof. exact lines_example. Qed.
Theorem C48_carriage_return_is_lost_refuted :
  exists w t c command line, sane w /\ main idd w = (t, c) /\ In (lit "cargo", command) (commands t) /\
  w_cargo w command = Ret (line ++ ["010"%char], Some 1%Z) /\ ~ In "010"%char line /\ text_line line /\ errors t <> [line].
Proof. exact return_lost. Qed.
Print Assumptions C48_carriage_return_is_lost_refuted.
Example C48_example : Forall note_ok ex_notes /\ exists t, main idd ex_w = (t, 0%Z) /\ printed t = [ex_out] /\ errors t = map lit ["   Compiling app"; "    Finished"].
Proof. split; [exact ex_notes_ok|]. destruct ex_run as [t [H1 [H2 [H3 _]]]]. exists t. split; [exact H1|]. split; [exact H2 | exact H3]. Qed.

(** C49: the newest IR file of the crate is chosen, the first one in the directory if there are several. *)
Theorem C49_newest_ir_file :
  forall file es r, pick_ll (replace_char "-" "_" file ++ lit "-") (map Ret es) None = Ret r ->
  match r with
  | Some (name, t) => chosen_file (crate_name file) es name t
  | None => forall e, In e es -> ~ ir_file (crate_name file) (en_name e)
  end.
Proof. exact c49_newest. Qed.
Print Assumptions C49_newest_ir_file.
Theorem C49_never_a_file_of_another_crate :
  forall file es name t other, pick_ll (replace_char "-" "_" file ++ lit "-") (map Ret es) None = Ret (Some (name, t)) ->
  ~ In "-"%char other -> other <> crate_name file -> ~ ir_file other name.
Proof. exact c49_never_other. Qed.
Print Assumptions C49_never_a_file_of_another_crate.
Theorem C49_finds_a_file :
  forall file es, (forall e, In e es -> en_utf8 e = true /\ exists t, en_time e = Ret t) -> (exists e, In e es /\ ir_file (crate_name file) (en_name e)) ->
  exists name t, pick_ll (replace_char "-" "_" file ++ lit "-") (map Ret es) None = Ret (Some (name, t)).
Proof. exact c49_finds. Qed.
Print Assumptions C49_finds_a_file.
Example C49_example :
  pick_ll (replace_char "-" "_" (lit "my-app") ++ lit "-")
    (map Ret [mkEntry (lit "my_app-0a.ll") true (Ret 3%N); mkEntry (lit "other-77.ll") true (Ret 9%N); mkEntry (lit "my_app-1f.ll") true (Ret 5%N); mkEntry (lit "my_app-1f.o") true (Ret 6%N)]) None =
  Ret (Some (lit "my_app-1f.ll", 5%N)).
Proof. reflexivity. Qed.

(** C50, partial: cargo is run only if one artifact is requested, and reads the request from its command line if no
    value looks like an option, and refuses the command line otherwise. *)
Theorem C50_cargo_is_given_the_request_partial :
  forall demangle w t c command, w_wrapper w = false -> main demangle w = (t, c) -> In (lit "cargo", command) (commands t) ->
  (exists file, one_artifact (w_args w) file) /\
  exists target cfg std rest, In (lit "rustc", [lit "--print=cfg"; lit "--target"; target]) (commands t) /\ w_cfg w target = Ret cfg /\
    (bare cfg -> std = lit "core,alloc,compiler_builtins") /\ (~ bare cfg -> std = []) /\
    command = lit "rustc" :: rest /\ (plain_args (w_args w) -> read_cargo rest request0 = Some (requested (w_args w) std)) /\
    (~ plain_args (w_args w) -> read_cargo rest request0 = None).
Proof. exact c50. Qed.
Print Assumptions C50_cargo_is_given_the_request_partial.
Theorem C50_name_with_dash_refuted :
  exists w t c rest, sane w /\ main idd w = (t, c) /\ In (lit "cargo", lit "rustc" :: rest) (commands t) /\ read_cargo rest request0 = None.
Proof. exact dash_refused. Qed.
Print Assumptions C50_name_with_dash_refuted.
Example C50_example : plain_args (w_args ex_w) /\ exists t, main idd ex_w = (t, 0%Z) /\
  commands t = [(lit "rustc", map lit ["--print=cfg"; "--target"; "x86_64-unknown-linux-gnu"]);
    (lit "cargo", map lit ["rustc"; "--bin"; "my-app"; "--release"; "-Zbuild-std"; "--color=always"; "--"; "--emit=llvm-ir,obj"; "-C"; "embed-bitcode=yes"; "-C"; "lto=fat"])].
Proof. split; [repeat split|]. destruct ex_run as [t [H1 [_ [_ H4]]]]. exists t. split; [exact H1 | exact H4]. Qed.

(** C51, partial: the analysis is for the target that is built exactly if the flag or the configuration is absent or they agree. *)
Theorem C51_target_is_the_one_built_partial :
  forall demangle w t c config, sane w -> main demangle w = (t, c) -> w_project w = Ret config ->
  (forall a, In (lit "rustc", a) (commands t) -> exists target, a = [lit "--print=cfg"; lit "--target"; target] /\
     (target = built_for (a_target (w_args w)) config (w_host w) <-> a_target (w_args w) = None \/ config = None \/ config = a_target (w_args w))) /\
  (c = 0%Z -> exists target file rlib ll p out, analyses w target file rlib ll p /\
     (target = built_for (a_target (w_args w)) config (w_host w) <-> a_target (w_args w) = None \/ config = None \/ config = a_target (w_args w)) /\
     output demangle (w_orders w) (a_start (w_args w)) (a_format (w_args w)) p = Ret out /\ printed t = [out]).
Proof. exact c51. Qed.
Print Assumptions C51_target_is_the_one_built_partial.
(** The target decides whether machine code is read, and how. *)
Theorem C51_target_decides_how_code_is_read :
  forall w target file rlib ll p, analyses w target file rlib ll p ->
  (is_thumb (pg_target p) = true <-> In target (map lit ["thumbv6m-none-eabi"; "thumbv7m-none-eabi"; "thumbv7em-none-eabi"; "thumbv7em-none-eabihf"])) /\
  (is_v7 (pg_target p) = true <-> In target (map lit ["thumbv7m-none-eabi"; "thumbv7em-none-eabi"; "thumbv7em-none-eabihf"])).
Proof. exact target_decides. Qed.
Print Assumptions C51_target_decides_how_code_is_read.
(** Otherwise cargo builds for the flag and the analysis is for the configured target. *)
Theorem C51_configured_target_wins_refuted :
  exists w t c rest q, sane w /\ main idd w = (t, c) /\ w_project w = Ret ex_config /\
  In (lit "cargo", lit "rustc" :: rest) (commands t) /\ read_cargo rest request0 = Some q /\
  rq_target q = Some (lit "x86_64-unknown-linux-gnu") /\ rq_build_std q = Some (lit "core,alloc,compiler_builtins") /\
  In (lit "rustc", map lit ["--print=cfg"; "--target"; "thumbv7m-none-eabi"]) (commands t).
Proof. exact other_target. Qed.
Print Assumptions C51_configured_target_wins_refuted.
Example C51_example : sane ex_w /\ w_project ex_w = Ret None /\ exists t, main idd ex_w = (t, 0%Z) /\ printed t = [ex_out].
Proof. split; [apply ex_sane|]. split; [reflexivity|]. destruct ex_run as [t [H1 [H2 _]]]. exists t. split; [exact H1 | exact H2]. Qed.

(** C52: nothing is run unless the toolchain is supported or the check is overridden; then it is. *)
Theorem C52_unsupported_toolchains_are_refused :
  forall demangle w t c, w_wrapper w = false -> main demangle w = (t, c) ->
  (~ accepted w -> commands t = [] /\ printed t = [] /\ c <> 0%Z) /\
  (accepted w -> w_meta w = Ret tt -> (exists file, one_artifact (w_args w) file) -> (exists config, w_project w = Ret config) -> commands t <> []).
Proof. exact c52. Qed.
Print Assumptions C52_unsupported_toolchains_are_refused.
(** The message names the version that is supported, and an assignment that overrides the check. *)
Theorem C52_refusal_tells_what_to_do :
  forall demangle w, w_wrapper w = false -> w_meta w = Ret tt -> ~ accepted w ->
  exists text, main demangle w = ([EErr text; EErr (lit "error: unsupported rust toolchain")], 1%Z) /\
    (exists pre post, text = pre ++ lit "`cargo +nightly-2023-11-13 call-stack" ++ post) /\
    (exists pre post v, text = pre ++ nl ++ lit "    export CARGO_CALL_STACK_UNSPPORTED_NIGHTLY=" ++ [dquote] ++ v ++ [dquote] ++ nl ++ post /\
       ~ In dquote v /\ forall w', w_override w' = Some v -> accepted w').
Proof. exact c52_says. Qed.
Print Assumptions C52_refusal_tells_what_to_do.
Example C52_example :
  ~ accepted (ex_world ex_args None (Some (lit "0123")) (Some (lit "1")) ex_stderr (Some 0%Z)) /\
  accepted (ex_world ex_args None None (Some (lit "I won't open issues about unsupported toolchains")) ex_stderr (Some 0%Z)).
Proof. split; [intros [H|H]; discriminate H | right; reflexivity]. Qed.

(** C60: the exit code is 0 exactly if the run ends with printing a result; a result is printed at most once, nothing but an error
    message comes after it, and it is not printed if the build fails. *)
Theorem C60_exit_code_and_output :
  forall demangle w t c, w_wrapper w = false -> main demangle w = (t, c) ->
  (c = 0%Z <-> exists pre out, t = pre ++ [EOut out]) /\
  (printed t = [] \/ exists pre out post, t = pre ++ EOut out :: post /\ printed pre = [] /\ (post = [] \/ exists m, post = [EErr m])) /\
  (forall command text code, In (lit "cargo", command) (commands t) -> w_cargo w command = Ret (text, code) -> code <> Some 0%Z -> printed t = []).
Proof. exact c60. Qed.
Print Assumptions C60_exit_code_and_output.
Example C60_example : (exists t, main idd ex_w = (t, 0%Z) /\ printed t = [ex_out]) /\
  exists t, main idd (ex_world ex_args None good None ex_stderr (Some 101%Z)) = (t, 101%Z) /\ printed t = [].
Proof. split; [destruct ex_run as [t [H1 [H2 _]]]; exists t; split; [exact H1 | exact H2] | eexists; split; vm_compute; reflexivity]. Qed.

(** C61, partial ([covered_fn] as in C58, names without backslash as in C16): in the file that is printed, the maximum of a function,
    if it is exact, bounds the stack usage of every execution of the function in the program that was built. *)
Theorem C61_printed_maxima_bound_executions_partial :
  forall demangle w t c, sane w -> main demangle w = (t, c) -> c = 0%Z -> a_format (w_args w) = Dot ->
  exists target file rlib ll p out, analyses w target file rlib ll p /\ one_artifact (w_args w) file /\ printed t = [out] /\
  ((forall g cycles nd, report demangle (w_orders w) (a_start (w_args w)) p = Ret (g, cycles) -> In nd (gnodes g) -> no_backslash (demangle (nname nd))) ->
   exists st ks nds es, read_dot out = Some st /\ length ks = length nds /\
     file_nodes st = map (fun x => (Some (N.of_nat (fst x)), Some (demangle (nname (snd x)), nmax (snd x), nlocal (snd x)), ndashed (snd x))) (combine (seq 0 (length nds)) nds) /\
     file_edges st = map (fun e => (Some (N.of_nat (fst e)), Some (N.of_nat (snd e)))) es /\
     (forall k key nd, nth_error ks k = Some key -> nth_error nds k = Some nd -> shows demangle p key nd) /\
     (forall k i n nd, nth_error ks k = Some (KReal i) -> nth_error nds k = Some nd -> nmax nd = Some (MExact n) -> below_2_64 (mkG nds es) k ->
        forall l, runs p i l -> (forall x, In x l -> covered_fn p x) -> exists d, depth p l d /\ (d <= n)%N) /\
     (no_start demangle p (a_start (w_args w)) -> forall i, i < length (pg_defined p) -> nth_error ks i = Some (KReal i)) /\
     (forall s k, a_start (w_args w) = Some s -> denotes demangle p s k -> nth_error ks 0 = Some k) /\
     (fits p -> forall k, below_2_64 (mkG nds es) k)).
Proof. exact c61. Qed.
Print Assumptions C61_printed_maxima_bound_executions_partial.
Example C61_example : sane ex_w /\ (exists t, main idd ex_w = (t, 0%Z) /\ printed t = [ex_out]) /\
  load ex_w (lit "x86_64-unknown-linux-gnu") (lit "my-app") (lit "t/cb.rlib") (lit "t/compiler_builtins-3f.ll") = Ret ex_p /\ covered ex_p /\ fits ex_p /\
  (forall g cycles nd, report idd o_rev None ex_p = Ret (g, cycles) -> In nd (gnodes g) -> no_backslash (nname nd)) /\
  runs ex_p 0 [0; 1] /\ depth ex_p [0; 1] 24.
Proof.
  split; [apply ex_sane|]. split; [destruct ex_run as [t [H1 [H2 _]]]; exists t; split; [exact H1 | exact H2]|]. split; [exact ex_load|]. split; [exact ex_covered|]. split; [exact ex_fits|].
  split; [exact ex_names | exact ex_runs].
Qed.
