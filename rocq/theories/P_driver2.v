(** Properties C70-C73: errors of stdout, the touched file, files that cannot be read, the environment of cargo. *)
From Verif Require Import M_base M_stack M_graph M_names M_thumb M_ty M_parse M_render M_build M_run M_wrapper M_driver.
From Verif Require Import S_names S_graph S_render S_build S_run S_driver L_driver5 L_driver6 X_build X_driver.
Local Open Scope string_scope.
Local Open Scope list_scope.

(** C70: what stdout receives is the whole output, or the output up to the first byte which stdout refuses; in the second case the
    tool fails with the error of stdout. *)
Theorem C70_output_is_complete_or_the_tool_fails :
  forall demangle w t c out, sane w -> main demangle w = (t, c) -> In out (printed t) ->
  exists target file rlib ll p text e, one_artifact (w_args w) file /\ analyses w target file rlib ll p /\
    output demangle (w_orders w) (a_start (w_args w)) (a_format (w_args w)) p = Ret text /\ received (w_fault w) text out e /\ printed t = [out] /\
    match e with None => c = 0%Z | Some m => c = 1%Z /\ exists before, errors t = before ++ [lit "error: " ++ m] end.
Proof. exact output_complete. Qed.
Print Assumptions C70_output_is_complete_or_the_tool_fails.
Example C70_example : sane pipe_w /\ exists t, main idd pipe_w = (t, 1%Z) /\ printed t = [lit "digraph "] /\ errors t = map lit ["   Compiling app"; "    Finished"; "error: Broken pipe"].
Proof. split; [apply full_sane | exact pipe_breaks]. Qed.

(** C71, partial: at most one file is touched, before cargo is started; it is the first source file of the package, by its name. *)
Theorem C71_a_source_file_is_touched_first_partial :
  forall demangle w t c, w_wrapper w = false -> main demangle w = (t, c) ->
  (touched t = [] \/ exists f, touches w (Some f) /\ touched t = [f]) /\
  (forall command, In (lit "cargo", command) (commands t) -> exists r pre post, touches w r /\ t = pre ++ post /\
     touched pre = match r with Some f => [f] | None => [] end /\ (forall a, ~ In (lit "cargo", a) (commands pre)) /\ touched post = []).
Proof. exact touched_file. Qed.
Print Assumptions C71_a_source_file_is_touched_first_partial.
Example C71_example : (exists t, main idd bins_w = (t, 0%Z) /\ touched t = [lit "/w/src/bin/my-app.rs"] /\ touches bins_w (Some (lit "/w/src/bin/my-app.rs"))) /\
  touches ex_w (Some (lit "/w/src/main.rs")).
Proof. split; [exact bins_touch | exact ex_touches]. Qed.
(** It need not be a file. *)
Theorem C71_directory_is_touched_refuted :
  exists w t c f g, sane w /\ main idd w = (t, c) /\ touched t = [f] /\ In (Ret g) (w_walk w (lit "/w/src")) /\ inside f (lit "my-app.rs") g /\ w_set_times w g = Ret tt.
Proof. exact directory_touched. Qed.
Print Assumptions C71_directory_is_touched_refuted.

(** C72: if a file cannot be read or parsed, the tool prints nothing on stdout, fails, and its last message is the complaint, which names
    the file. *)
Theorem C72_unreadable_files_are_named :
  forall demangle w t c command ns file rlib ll f m, sane w -> main demangle w = (t, c) -> In (lit "cargo", command) (commands t) ->
  w_cargo w command = Ret (concat (map (fun n => note_line n ++ ["010"%char]) ns), Some 0%Z) -> Forall note_ok ns -> (forall n, In n ns -> w_utf8 w (note_line n) = true) ->
  one_artifact (w_args w) file -> latest rlib_of ns (Some rlib) -> latest ll_of ns (Some ll) -> complaint w file rlib ll f m ->
  c = 1%Z /\ printed t = [] /\ errors t = select text_of ns ++ [lit "error: " ++ m].
Proof. exact complains. Qed.
Print Assumptions C72_unreadable_files_are_named.
Theorem C72_complaint_names_the_file :
  forall w file rlib ll f m, complaint w file rlib ll f m -> exists a b, m = a ++ f ++ b.
Proof. exact complaint_named. Qed.
Print Assumptions C72_complaint_names_the_file.
Example C72_example : sane missing_w /\ Forall note_ok ex_notes /\
  (exists t, main idd missing_w = (t, 1%Z) /\ errors t = map lit ["   Compiling app"; "    Finished"; "error: couldn't open ELF file `t/thumbv6m-none-eabi/release/my-app`: no such file"]) /\
  complaint missing_w (lit "my-app") (lit "t/cb.rlib") (lit "t/compiler_builtins-3f.ll") (lit "t/thumbv6m-none-eabi/release/my-app")
    (lit "couldn't open ELF file `" ++ lit "t/thumbv6m-none-eabi/release/my-app" ++ lit "`: " ++ lit "no such file") /\
  In (lit "cargo", cargo_args missing_args (lit "my-app") true) (commands (fst (main idd missing_w))) /\
  w_cargo missing_w (cargo_args missing_args (lit "my-app") true) = Ret (concat (map (fun n => note_line n ++ ["010"%char]) ex_notes), Some 0%Z) /\
  one_artifact (w_args missing_w) (lit "my-app") /\ latest rlib_of ex_notes (Some (lit "t/cb.rlib")) /\ latest ll_of ex_notes (Some (lit "t/compiler_builtins-3f.ll")).
Proof.
  split; [apply ex_sane|]. split; [exact ex_notes_ok|]. destruct missing_named as [t [H1 [H2 [H3 H4]]]]. split; [exists t; split; [exact H1 | exact H2]|]. split; [apply cm_exe; [exact H3 | exact H4]|].
  exact missing_notes.
Qed.

(** C73: cargo, and no other program, is told to run this tool in place of rustc. *)
Theorem C73_cargo_runs_the_wrapper :
  forall demangle w t c, w_wrapper w = false -> main demangle w = (t, c) ->
  (forall env a, In (ECmd (lit "cargo") env a) t -> exists exe, w_exe w = Ret exe /\ env = [(lit "CARGO_CALL_STACK_RUSTC_WRAPPER", lit "1"); (lit "RUSTC_WRAPPER", exe)]) /\
  (forall prog env a, In (ECmd prog env a) t -> prog <> lit "cargo" -> prog = lit "rustc" /\ env = []).
Proof. exact environment. Qed.
Print Assumptions C73_cargo_runs_the_wrapper.
(** In the verbose mode the command that is run is shown. *)
Theorem C73_verbose_mode_shows_the_command :
  forall demangle w t c, w_wrapper w = false -> main demangle w = (t, c) ->
  (a_verbose (w_args w) = true -> shown t = filter (fun c => str_eqb (fst c) (lit "cargo")) (commands t)) /\ (a_verbose (w_args w) = false -> shown t = []).
Proof. exact shows. Qed.
Print Assumptions C73_verbose_mode_shows_the_command.
Example C73_example : exists t, main idd verbose_w = (t, 0%Z) /\
  shown t = [(lit "cargo", map lit ["rustc"; "--bin"; "my-app"; "--release"; "-Zbuild-std"; "--color=always"; "--"; "--emit=llvm-ir,obj"; "-C"; "embed-bitcode=yes"; "-C"; "lto=fat"])] /\
  exists a, In (ECmd (lit "cargo") [(lit "CARGO_CALL_STACK_RUSTC_WRAPPER", lit "1"); (lit "RUSTC_WRAPPER", lit "/bin/cargo-call-stack")] a) t.
Proof. exact verbose_run. Qed.
