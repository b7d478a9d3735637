(** Properties C74-C80: the messages of the log. *)
From Coq Require Import Sorted.
From Verif Require Import M_base M_stack M_graph M_names M_thumb M_ty M_parse M_render M_build M_run M_log M_wrapper M_driver.
From Verif Require Import S_names S_graph S_sig S_build S_run S_log S_driver L_build8 L_run2 L_log5 L_log8 L_log9 L_log10 X_build X_driver X_log.
Local Open Scope string_scope.
Local Open Scope list_scope.

(** C74: a run that prints something announces, before it prints, what is to be announced about the program that it analyses
    ([notes], in this order), and nothing else. *)
Theorem C74_log_of_a_run :
  forall demangle w t c out, sane w -> main demangle w = (t, c) -> In out (printed t) ->
  exists target file rlib ll p r pre post, one_artifact (w_args w) file /\ analyses w target file rlib ll p /\ wf_prog p /\
    t = pre ++ EOut out :: post /\ messages post = [] /\ report_log demangle (w_orders w) (a_start (w_args w)) p = (messages pre, Ret r) /\ messages t = messages pre /\
    notes demangle p (a_start (w_args w)) (messages t).
Proof. exact run_log. Qed.
Print Assumptions C74_log_of_a_run.
(** In other words: a message is in the log if and only if there is a reason for it. *)
Theorem C74_every_message_has_a_reason :
  forall demangle o start p ms g cs, wf_prog p -> fair o -> report_log demangle o start p = (ms, Ret (g, cs)) ->
  exists void, voids p void /\ (forall m, In m ms <-> announces demangle p start void m) /\ (ms = [] <-> unremarkable demangle p start void).
Proof. exact told. Qed.
Print Assumptions C74_every_message_has_a_reason.
(** The log does not change what is computed. *)
Theorem C74_log_is_only_a_log :
  forall demangle o start p, snd (report_log demangle o start p) = report demangle o start p.
Proof. exact L_log.report_erase. Qed.
Print Assumptions C74_log_is_only_a_log.
Example C74_example : sane start_w /\ (exists t, main idd start_w = (t, 0%Z) /\ printed t = [ex_out] /\ messages t = [start_missing]) /\
  wf_prog l_p /\ fair o_id /\ exists r, report_log idd o_id (Some (lit "start")) l_p = (l_ms, Ret r).
Proof. split; [apply ex_sane|]. split; [exact start_run|]. split; [exact l_wf|]. split; [exact o_id_fair | exact l_log]. Qed.

(** C75: the functions whose stack usage is not known are announced, each once; no other function is. *)
Theorem C75_unknown_usage_is_announced :
  forall demangle o start p ms g cs, wf_prog p -> fair o -> report_log demangle o start p = (ms, Ret (g, cs)) -> forall n,
  (In (no_usage n) ms <-> exists i, chosen p i n /\ usage p i LUnknown /\ (is_thumb (pg_target p) = true -> pg_text p <> None)) /\ (In (no_usage n) ms -> once (no_usage n) ms).
Proof. exact told_usage. Qed.
Print Assumptions C75_unknown_usage_is_announced.
(** Symbols outside of the executable, whose usage is not known either, are not: a run can be silent although the graph has such a node. *)
Theorem C75_symbols_outside_refuted :
  exists p g cs nd, wf_prog p /\ report_log idd o_id None p = ([], Ret (g, cs)) /\ In nd (gnodes g) /\ nlocal nd = LUnknown /\ nmax nd = Some (MLower 0).
Proof. exact outside_silent. Qed.
Print Assumptions C75_symbols_outside_refuted.
Example C75_example : wf_prog l_p /\ fair o_id /\ (exists r, report_log idd o_id (Some (lit "start")) l_p = (l_ms, Ret r)) /\
  (exists i, chosen l_p i (lit "init") /\ usage l_p i LUnknown) /\ In (no_usage (lit "init")) l_ms.
Proof. split; [exact l_wf|]. split; [exact o_id_fair|]. split; [exact l_log|]. split; [exact l_usage | left; reflexivity]. Qed.

(** C76: assumptions are announced: inline assembly (for each function the first one), intrinsics that are taken for instructions (each
    once), and stack sizes of LLVM that are replaced. *)
Theorem C76_inline_assembly_is_announced :
  forall demangle o start p ms g cs, wf_prog p -> fair o -> report_log demangle o start p = (ms, Ret (g, cs)) ->
  forall i n, chosen p i n -> (has_asm p i <-> exists code, first_asm p i code /\ In (asm_note code n) ms).
Proof. exact told_asm. Qed.
Print Assumptions C76_inline_assembly_is_announced.
Theorem C76_lowered_intrinsics_are_announced :
  forall demangle o start p ms g cs, wf_prog p -> fair o -> report_log demangle o start p = (ms, Ret (g, cs)) -> forall f,
  (In (lowering_note f) ms <-> is_thumb (pg_target p) = false /\ assumed f /\ exists i, body p i (DirectCall f)) /\ (In (lowering_note f) ms -> once (lowering_note f) ms).
Proof. exact told_lowered. Qed.
Print Assumptions C76_lowered_intrinsics_are_announced.
Theorem C76_replaced_sizes_are_announced :
  forall demangle o start p ms g cs, wf_prog p -> fair o -> report_log demangle o start p = (ms, Ret (g, cs)) ->
  (forall i n m k why, chosen p i n -> overridden p i m k why -> In (override_note n m k why) ms) /\
  (forall i k m, usage p i (LExact k) -> llvm_size p i (Some m) -> k <> m -> exists n why, chosen p i n /\ In (override_note n m k why) ms).
Proof. exact told_replaced. Qed.
Print Assumptions C76_replaced_sizes_are_announced.
Example C76_example : wf_prog l_p /\ (exists r, report_log idd o_id (Some (lit "start")) l_p = (l_ms, Ret r)) /\ In (asm_note (lit "nop") (lit "main")) l_ms /\ In (lowering_note (lit "llvm.umax.i8")) l_ms /\
  wf_prog o_p /\ exists ms r, report_log idd o_id None o_p = (ms, Ret r) /\ In (override_note (lit "main") 8 12 (lit "function uses inline assembly")) ms.
Proof.
  split; [exact l_wf|]. split; [exact l_log|]. split; [do 3 right; left; reflexivity|]. split; [do 5 right; left; reflexivity|]. split; [exact o_wf|]. destruct o_log as [r H]. eexists. exists r. split; [exact H|]. do 2 right. left. reflexivity.
Qed.

(** C77: functions without type information, and indirect calls which can not be bounded, are announced. *)
Theorem C77_unbounded_calls_are_announced :
  forall demangle o start p ms g cs, wf_prog p -> fair o -> report_log demangle o start p = (ms, Ret (g, cs)) -> forall n,
  (In (no_type n) ms <-> exists i, chosen p i n /\ untyped_fn p i) /\ (In untyped_note ms <-> untyped p) /\ (In (blind_note n) ms <-> exists i, chosen p i n /\ blind p i) /\
  (forall m, m = no_type n \/ m = untyped_note \/ m = blind_note n -> In m ms -> once m ms).
Proof. exact told_types. Qed.
Print Assumptions C77_unbounded_calls_are_announced.
Example C77_example : wf_prog l_p /\ (exists r, report_log idd o_id (Some (lit "start")) l_p = (l_ms, Ret r)) /\ In (no_type (lit "blob")) l_ms /\ In untyped_note l_ms /\
  wf_prog b_p /\ exists r, report_log idd o_id None b_p = ([no_type (lit "go"); blind_note (lit "go"); untyped_note; no_figures], Ret r).
Proof. split; [exact l_wf|]. split; [exact l_log|]. split; [do 2 right; left; reflexivity|]. split; [do 7 right; left; reflexivity|]. split; [exact b_wf | exact b_log]. Qed.

(** C78: if the run is silent and every function called by name is part of the executable, the maximum of a function is exact unless it
    can reach a recursive function that uses stack. *)
Theorem C78_silent_runs_are_exact_partial :
  forall demangle o start p ms g cs, wf_prog p -> fair o -> report_log demangle o start p = (ms, Ret (g, cs)) ->
  ms = [] -> (forall i f, body p i (DirectCall f) -> ~ intrinsic f -> exists j, live p f j) ->
  forall v m, reported g v m -> (exact m <-> forall u, reach g v u -> recursive g u -> known g u 0).
Proof. exact silent_exact. Qed.
Print Assumptions C78_silent_runs_are_exact_partial.
Example C78_example : wf_prog p3 /\ fair o_id /\ (exists g cs, report_log idd o_id None p3 = ([], Ret (g, cs)) /\ reported g 0 (MExact 32)) /\
  (forall i f, body p3 i (DirectCall f) -> ~ intrinsic f -> exists j, live p3 f j).
Proof. split; [exact p3_wf|]. split; [exact o_id_fair|]. split; [exact p3_silent | exact p3_called]. Qed.

(** C79: a start point that is not found, or not unique, is announced. *)
Theorem C79_missing_start_is_announced :
  forall demangle o start p ms g cs, wf_prog p -> fair o -> report_log demangle o start p = (ms, Ret (g, cs)) ->
  (In start_missing ms <-> ~ quiet_start demangle p start) /\
  (forall l s text, In (l, lit "multiple matches for " ++ text) ms -> start = Some s -> exists names hits, l = Error /\ text = tick s ++ lit ": " ++ names /\
     (forall hits', literals hits' names <-> hits' = hits) /\ ~ shown_name p s /\ 2 <= length hits /\ NoDup hits /\ Sorted str_le hits /\
     forall n, In n hits <-> shown_name p n /\ hashed_start demangle s n) /\
  (forall s n n', start = Some s -> ~ shown_name p s -> shown_name p n -> hashed_start demangle s n -> shown_name p n' -> hashed_start demangle s n' -> n <> n' ->
     exists names, In (Error, lit "multiple matches for " ++ tick s ++ lit ": " ++ names) ms).
Proof. exact told_start. Qed.
Print Assumptions C79_missing_start_is_announced.
Example C79_example : wf_prog h_p /\ (exists r, report_log idd o_id (Some (lit "run")) h_p = ([start_multiple (lit "run") run_hits; start_missing], Ret r)) /\
  exists r, report_log idd o_id (Some (lit "go")) h_p = ([], Ret r).
Proof. split; [exact h_wf | exact h_log]. Qed.

(** C80: a run that stops has announced everything up to the first thing that is not understood ([stopped]), and nothing else. *)
Theorem C80_log_of_a_run_that_stops :
  forall demangle o start p ms r, wf_prog p -> fair o -> report_log demangle o start p = (ms, r) ->
  (understood p -> notes demangle p start ms) /\ (~ understood p -> stopped p ms /\ forall z, r <> Ret z).
Proof. exact report_told. Qed.
Print Assumptions C80_log_of_a_run_that_stops.
(** This is determined by the program. *)
Theorem C80_log_is_determined :
  forall demangle o start demangle' o' start' p ms r ms' r', wf_prog p -> fair o -> fair o' -> ~ understood p ->
  report_log demangle o start p = (ms, r) -> report_log demangle' o' start' p = (ms', r') -> ms = ms'.
Proof. exact stopped_same. Qed.
Print Assumptions C80_log_is_determined.
(** Every run announces nothing, or what there is to tell about the program that it analyses; if this is not understood, the run fails
    and prints nothing.  If the symbol table cannot be read, this is noticed after the statements. *)
Theorem C80_log_of_any_run :
  forall demangle w t c, sane w -> main demangle w = (t, c) ->
  messages t = [] \/ (exists target file rlib ll p, one_artifact (w_args w) file /\ analyses w target file rlib ll p /\ wf_prog p /\
    ((understood p /\ notes demangle p (a_start (w_args w)) (messages t)) \/ (~ understood p /\ stopped p (messages t) /\ printed t = [] /\ c <> 0%Z))) \/
  exists target file rlib ll p, one_artifact (w_args w) file /\ no_symtab w file /\ is_thumb (pg_target p) = true /\ analyses (without_symtab w) target file rlib ll p /\ wf_prog p /\
    told_early p (messages t) /\ printed t = [] /\ c <> 0%Z.
Proof. exact any_log. Qed.
Print Assumptions C80_log_of_any_run.
Theorem C80_log_of_a_loaded_program :
  forall demangle w t c command ns target file rlib ll p, sane w -> main demangle w = (t, c) -> In (lit "cargo", command) (commands t) ->
  w_cargo w command = Ret (concat (map (fun n => note_line n ++ ["010"%char]) ns), Some 0%Z) -> Forall note_ok ns -> (forall n, In n ns -> w_utf8 w (note_line n) = true) ->
  In (lit "rustc", [lit "--print=cfg"; lit "--target"; target]) (commands t) -> one_artifact (w_args w) file -> latest rlib_of ns (Some rlib) -> latest ll_of ns (Some ll) ->
  load w target file rlib ll = Ret p ->
  (understood p -> notes demangle p (a_start (w_args w)) (messages t)) /\ (~ understood p -> stopped p (messages t) /\ printed t = [] /\ c <> 0%Z).
Proof. exact loaded_log. Qed.
Print Assumptions C80_log_of_a_loaded_program.
(** The messages of a run whose symbol table cannot be read, and they are determined by the program. *)
Theorem C80_log_without_symbol_table :
  forall demangle w t c command ns target file rlib ll p, sane w -> main demangle w = (t, c) -> In (lit "cargo", command) (commands t) ->
  w_cargo w command = Ret (concat (map (fun n => note_line n ++ ["010"%char]) ns), Some 0%Z) -> Forall note_ok ns -> (forall n, In n ns -> w_utf8 w (note_line n) = true) ->
  In (lit "rustc", [lit "--print=cfg"; lit "--target"; target]) (commands t) -> one_artifact (w_args w) file -> latest rlib_of ns (Some rlib) -> latest ll_of ns (Some ll) ->
  load (without_symtab w) target file rlib ll = Ret p -> is_thumb (pg_target p) = true -> no_symtab w file ->
  told_early p (messages t) /\ printed t = [] /\ c <> 0%Z.
Proof. exact unloaded_log. Qed.
Print Assumptions C80_log_without_symbol_table.
Theorem C80_early_log_is_determined : forall p, wf_prog p -> forall a b, told_early p a -> told_early p b -> a = b.
Proof. exact early_fun. Qed.
Print Assumptions C80_early_log_is_determined.
Example C80_early_example : sane torn_w /\ (exists t, main idd torn_w = (t, 101%Z) /\ printed t = [] /\ messages t = [no_type (lit "leaf"); asm_note (lit "wfi") (lit "main")]) /\
  load (without_symtab torn_w) (lit "thumbv7m-none-eabi") (lit "my-app") (lit "t/cb.rlib") (lit "t/compiler_builtins-3f.ll") = Ret torn_p /\ wf_prog torn_p /\ is_thumb (pg_target torn_p) = true /\ no_symtab torn_w (lit "my-app").
Proof. split; [exact torn_sane|]. split; [exact torn_run|]. split; [exact torn_load|]. split; [apply wf_progb_sound; vm_compute; reflexivity|]. split; [reflexivity | exact torn_table]. Qed.
Example C80_example : stops_with s_name [no_usage (lit "blob"); no_type (lit "blob")] /\ stops_with s_call [no_usage (lit "init"); asm_note (lit "nop") (lit "main")] /\
  stops_with s_sizes [asm_note (lit "push {r4}") (lit "main"); override_note (lit "main") 8 12 (lit "function uses inline assembly")] /\
  stops_with s_branch [asm_note (lit "push {r4}") (lit "main"); override_note (lit "main") 8 12 (lit "function uses inline assembly")] /\
  sane stop_w /\ (exists t, main idd stop_w = (t, 101%Z) /\ printed t = [] /\ messages t = [no_type (lit "leaf"); asm_note (lit "wfi") (lit "main")]) /\
  load stop_w (lit "x86_64-unknown-linux-gnu") (lit "my-app") (lit "t/cb.rlib") (lit "t/compiler_builtins-3f.ll") = Ret stop_p /\ wf_prog stop_p /\ ~ understood stop_p.
Proof.
  split; [exact s_name_stops|]. split; [exact s_call_stops|]. split; [exact s_sizes_stops|]. split; [exact s_branch_stops|]. split; [exact stop_sane|]. split; [exact stop_run|].
  split; [exact stop_load | exact stop_not].
Qed.
